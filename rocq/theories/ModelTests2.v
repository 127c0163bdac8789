(** More of the repository's own test vectors, run on the model (tests, not proofs). *)
From Coq Require Import String.
From Verif Require Import Bytes Crypto Spec MFmt MPercent MSign MSerializer MRequest MCredentials MAuth MBuilder
  SpecCalls ModelTests.

(** serializer.rs:212-221 *)
Definition CK := lit "xvz1evFS4wEEPTGEFPHBog".
Definition CS := lit "kAcSOqF21Fu85e7zjz7ZN2U4ZRhfV3WpwPAoE3Z7kBw".
Definition AK := lit "370773112-GmHxMAgYyLbNEtIKZeRNFsMKPR9EyMZeS9weJAEb".
Definition AS := lit "LswwdoUaIvS8ltyTt5jkRh4J50vUPVVHtR2YPi5kE".
Definition NONCE := lit "kYjzVBB8Y0ZFabxSWbWovY3uYSQ2pTgmZeNu2VS4cg".
Definition TIMESTAMP := 1318622958%N.

Definition protos : list call :=
  map CProto [PCallback; PConsumerKey; PNonce; PSignatureMethod; PTimestamp; PToken; PVerifier; PVersion].

(** serializer.rs:270-330, the macro [test!]: the header and the data. *)
Definition run_test (method ep : string) (param1 param2 : list call) : res bytes * res bytes :=
  let options := set_version true (set_timestamp (Some TIMESTAMP) (set_nonce (Some NONCE) Options_new)) in
  let cs := param1 ++ protos ++ param2 in
  ((a <- authorization_with_buf dbg_std HMAC_SHA1 (w := StringW) ([] : bytes) (lit method) (s2d ep)
           {| cr_identifier := CK; cr_secret := CS |} (Some {| cr_identifier := AK; cr_secret := AS |}) options ;;
    a <- run_calls (S := AuthorizerS HmacSha1Sign StringW dbg_std env0) cs a ;;
    sr_end (s := AuthorizerS HmacSha1Sign StringW dbg_std env0) a),
   let u := if bseqb (lit method) (lit "POST") then ue_form_with_buf (w := StringW) ([] : bytes)
            else ue_query (w := StringW) (lit ep) in
   (u <- run_calls (S := UrlencoderS StringW) cs u ;; sr_end (s := UrlencoderS StringW) u)).

(** serializer.rs:316-334 *)
Definition expected (sign data : string) : res bytes * res bytes :=
  (Ok (lit "OAuth oauth_consumer_key=""" ++ CK ++ lit """,oauth_nonce=""" ++ NONCE
       ++ lit """,oauth_signature_method=""HMAC-SHA1"",oauth_timestamp=""1318622958"",oauth_token=""" ++ AK
       ++ lit """,oauth_version=""1.0"",oauth_signature=""" ++ lit sign ++ lit """"),
   Ok (lit data)).

(** serializer.rs:362-401 *)
Example twitter_1 :
  run_test "GET" "https://stream.twitter.com/1.1/statuses/sample.json"
    [] [CParamEnc (lit "stall_warnings") (s2d "true")]
  = expected "OGQqcy4l5xWBFX7t0DrkP5%2FD0rM%3D"
      "https://stream.twitter.com/1.1/statuses/sample.json?stall_warnings=true".
Proof. vm_compute. reflexivity. Qed.

Example twitter_2 :
  run_test "POST" "https://api.twitter.com/1.1/statuses/update.json"
    [CParamEnc (lit "include_entities") (s2d "true")]
    [CParam (lit "status") (s2d "Hello Ladies + Gentlemen, a signed OAuth request!")]
  = expected "hCtSmYh%2BiHYCEqBWrE7C7hYmtUk%3D"
      "include_entities=true&status=Hello%20Ladies%20%2B%20Gentlemen%2C%20a%20signed%20OAuth%20request%21".
Proof. vm_compute. reflexivity. Qed.

Example twitter_3 :
  run_test "POST" "https://example.com/post.json" [] [] = expected "pN52L1gJ6sOyYOyv23cwfWFsIZc%3D" "".
Proof. vm_compute. reflexivity. Qed.

(** The value of [foo] is U+3075 U+30FC. *)
Example twitter_4 :
  run_test "GET" "https://example.com/get.json"
    [CParamEnc (lit "bar") (s2d "%E9%85%92%E5%A0%B4"); CParam (lit "foo") (dstr [xe3; x81; xb5; xe3; x83; xbc])] []
  = expected "Xp35hf3T21yhpEuxez7p6bV62Bw%3D"
      "https://example.com/get.json?bar=%E9%85%92%E5%A0%B4&foo=%E3%81%B5%E3%83%BC".
Proof. vm_compute. reflexivity. Qed.

(** serializer.rs:404-428 [panic_on_misordering]. *)
Example panic_on_misordering :
  (a <- authorization_with_buf dbg_std PLAINTEXT (w := StringW) ([] : bytes) [] (dstr [])
          {| cr_identifier := CK; cr_secret := CS |} (Some {| cr_identifier := AK; cr_secret := AS |}) Options_new ;;
   a <- run_calls (S := AuthorizerS (PlaintextSign StringB) StringW dbg_std env0)
          [CParamEnc (lit "foo") (s2d "true"); CParam (lit "bar") (s2d "ba-")] a ;;
   sr_end (s := AuthorizerS (PlaintextSign StringB) StringW dbg_std env0) a)
  = Panic PDictOrder.
Proof. vm_compute. reflexivity. Qed.

(** hmac_sha1.rs:168-184 [signing_key]: after each write of a byte, up to 66 of them. *)
Fixpoint signing_key_test (n : nat) (sk : SigningKey) (k : bytes) : bool :=
  match n with
  | O => true
  | S n =>
      match SigningKey_write sk [x01] with
      | Panic _ => false
      | Ok sk =>
          let k := k ++ [x01] in
          match into_hmac sk with
          | Panic _ => false
          | Ok h => bseqb (hmac_sha1 (hm_key h) (hm_fed h ++ lit "test")) (hmac_sha1 k (lit "test"))
          end && signing_key_test n sk k
      end
  end.
Example signing_key : signing_key_test 66 SigningKey_new [] = true.
Proof. vm_compute. reflexivity. Qed.

(** percent_encoding.rs:127-151, the two tests over every byte. *)
Definition all_bytes : list byte := map (fun n => match Byte.of_N (N.of_nat n) with Some b => b | None => x00 end) (seq 0 256).
Example all_bytes_count : length all_bytes = 256 /\ nodup Byte.byte_eq_dec all_bytes = all_bytes.
Proof. vm_compute. auto. Qed.

Example double_percent_encode :
  forallb (fun b => match double_encode_byte b with
                    | Ok t => bseqb t (dtext (PercentEncode (dstr (lit "%" ++ match to_string (PercentEncode (dstr [b])) with
                                                                              | Ok (_ :: r) => r | _ => [] end))))
                    | Panic _ => false
                    end)
    (filter (fun b => match should_percent_encode b with Ok e => e | Panic _ => true end) all_bytes) = true.
Proof. vm_compute. reflexivity. Qed.
Example encode_map :
  forallb (fun b => match should_percent_encode b with
                    | Ok e => Bool.eqb e (negb (existsb (beqb b)
                        (lit "0123456789ABCDEFGHIJKLMNOPQRSTUVWXYZabcdefghijklmnopqrstuvwxyz-._~")))
                    | Panic _ => false
                    end) all_bytes = true.
Proof. vm_compute. reflexivity. Qed.
