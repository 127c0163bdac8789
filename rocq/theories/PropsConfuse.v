(** C98: a signature at a provider that offers several signature methods. *)
From Coq Require Import String.
From Coq Require Import Lia Arith Sorted Permutation.
From Verif Require LExample PropsExample.
From Verif Require Import Bytes Crypto Spec MFmt MPercent MSerializer MSign MRequest MCredentials MAuth MBuilder ModelTests
  SpecFmt SpecCalls SpecCalls2 SpecAuth SpecBuild SpecForm SpecServer SpecServer2 SpecParams SpecSign
  LBytes LFmt LPercent LTrace LAuth LSign LBuild LForm LBase LReq LReq2 LPanic LTop LParams LServer LCrypto
  Rsa LRsa PropsServer PropsHeader PropsSign PropsServer2 PropsRsa PropsForge PropsPlain PropsSize.
Local Open Scope nat_scope.

(** The provider knows secrets and a public key for the client, and takes requests signed with any of the three methods of
    RFC 5849 section 3.4; the request says with which. *)
Definition any_check (client : bytes) (token : option bytes) (decode : bytes -> option bytes) (public : rsa_key) :
    bytes -> bytes -> bytes -> bool :=
  fun name signature text =>
    hmac_check client token name signature text
    || rsa_check decode (pkcs1_verify public) name signature text
    || plaintext_check client token name signature text.

(** ** Lemmas *)

Lemma key_ampersand : forall cs ts, In "&"%byte (signing_key cs ts).
Proof. intros cs ts. unfold signing_key. apply in_or_app. right. now left. Qed.

Lemma base64_no_ampersand : forall x, ~ In "&"%byte (base64 b64_std true x).
Proof.
  intros x H. apply base64_chars in H; [|reflexivity]. destruct H as [H|[_ H]]; [|discriminate]. vm_compute in H.
  repeat (destruct H as [H|H]; [discriminate|]). exact H.
Qed.

Lemma verify_size : forall key digest s, pkcs1_verify key digest s = true -> 46 <= length s.
Proof.
  intros key digest s H. unfold pkcs1_verify in H. apply andb_prop in H as [H E]. apply andb_prop in H as [H _]. apply Nat.eqb_eq in H.
  unfold emsa in E. destruct (Nat.leb_spec 46 (rsa_size (rk_n key))); [lia|]. rewrite andb_false_r in E. discriminate.
Qed.

Lemma server_checks : forall check check' method uri header body out s,
  server_check check method uri header body = Some out -> lookup (lit "oauth_signature") out = [s] ->
  (forall name text, check name s text = true -> check' name s text = true) ->
  server_check check' method uri header body = Some out.
Proof.
  intros check check' method uri header body out s H HL HC. unfold server_check in *.
  destruct (match header with Some h => parse_header h | None => Some [] end) as [h|]; [|discriminate].
  destruct (parse_uri uri) as [[base q]|]; [|discriminate]. destruct (parse_form body) as [bd|]; [|discriminate].
  cbv zeta in *.
  destruct (lookup (lit "oauth_signature") (all_params h q bd)) as [|s' [|]] eqn:E1; try discriminate.
  destruct (lookup (lit "oauth_signature_method") (all_params h q bd)) as [|m [|]] eqn:E2; try discriminate.
  destruct (check m s' _) eqn:E3; [|discriminate]. injection H as <-. rewrite E1 in HL. injection HL as ->.
  now rewrite (HC _ _ E3).
Qed.

(** ** C98 *)

(** A signature made with HMAC-SHA1 is good as an HMAC-SHA1 signature only, whatever the secrets and the keys, and whatever the
    message around it says. *)
Theorem C98_hmac : forall c e b method uri r l s client token decode public method' uri' header' body' out,
  bd_signature_method b = HMAC_SHA1 -> honest r l -> normal_method method -> client_signature c e b method uri r s ->
  (forall x, decode (base64 b64_std true x) = Some x) -> lookup (lit "oauth_signature") out = [s] ->
  (server_check (any_check client token decode public) method' uri' header' body' = Some out
   <-> server_check (hmac_check client token) method' uri' header' body' = Some out).
Proof.
  intros c e b method uri r l s client token decode public method' uri' header' body' out HB HR HM HC HD HL.
  apply (client_signature_hmac c e b method uri r s l HB HR HM) in HC. split; intros H; apply (server_checks _ _ _ _ _ _ _ _ H HL); intros name text HX.
  - unfold any_check in HX. apply orb_prop in HX as [HX|HX]; [apply orb_prop in HX as [HX|HX]; [exact HX|]|]; exfalso.
    + unfold rsa_check in HX. apply andb_prop in HX as [_ HX]. rewrite HC in HX. unfold rfc_signature, hmac_signature in HX. rewrite HD in HX.
      apply verify_size in HX. rewrite LExample.hmac_length in HX. lia.
    + unfold plaintext_check in HX. apply andb_prop in HX as [_ HX]. apply bseqb_eq in HX. pose proof (key_ampersand client token) as K.
      rewrite <- HX, HC in K. now apply base64_no_ampersand in K.
  - unfold any_check. now rewrite HX.
Qed.
Print Assumptions C98_hmac.

(** A signature made with RSA-SHA1 is good as an RSA-SHA1 signature only. *)
Theorem C98_rsa : forall c e b public private method uri r l s client token decode public' method' uri' header' body' out,
  key_pair public private -> signs_with b private -> honest r l -> normal_method method -> client_signature c e b method uri r s ->
  lookup (lit "oauth_signature") out = [s] ->
  (server_check (any_check client token decode public') method' uri' header' body' = Some out
   <-> server_check (rsa_check decode (pkcs1_verify public')) method' uri' header' body' = Some out).
Proof.
  intros c e b public private method uri r l s client token decode public' method' uri' header' body' out HK HB HR HM HC HL.
  apply (client_signature_rsa c e b private method uri r s l HB HR HM) in HC as [x [EX HC]].
  split; intros H; apply (server_checks _ _ _ _ _ _ _ _ H HL); intros name text HX.
  - unfold any_check in HX. apply orb_prop in HX as [HX|HX]; [apply orb_prop in HX as [HX|HX]; [|exact HX]|]; exfalso.
    + unfold hmac_check in HX. apply andb_prop in HX as [_ HX]. apply bseqb_eq in HX. rewrite HC in HX. unfold hmac_signature in HX.
      apply (f_equal (@length _)) in HX. rewrite !base64_padded_length, LExample.hmac_length in HX.
      apply (sign_verify public private _ _ HK) in EX. apply verify_size in EX. pose proof (Nat.div_le_mono 48 (length x + 2) 3). change (48 / 3) with 16 in *.
      change ((20 + 2) / 3) with 7 in HX. lia.
    + unfold plaintext_check in HX. apply andb_prop in HX as [_ HX]. apply bseqb_eq in HX. pose proof (key_ampersand client token) as K.
      rewrite <- HX, HC in K. now apply base64_no_ampersand in K.
  - unfold any_check. rewrite HX. now rewrite orb_true_r.
Qed.
Print Assumptions C98_rsa.

(** So offering the other methods does not weaken what C73 says: whoever gets a message with a signature of the builder past
    such a provider has sent the signed request, to the holder of the same secrets, or has found an HMAC collision. *)
Theorem C98_hmac_forged : forall c e b method uri r l s client token decode public method' uri' header' body' out,
  bd_signature_method b = HMAC_SHA1 -> honest r l -> normal_method method -> client_signature c e b method uri r s ->
  (forall x, decode (base64 b64_std true x) = Some x) ->
  server_check (any_check client token decode public) method' uri' header' body' = Some out ->
  lookup (lit "oauth_signature") out = [s] ->
  exists base q, parse_uri uri' = Some (base, q)
    /\ (map to_upper method' = map to_upper method /\ base_uri base = uri
        /\ Permutation (unsigned out) (protocol_pairs (hmac_conf e b) ++ l)
        /\ same_secrets (client_secret b) (token_secret b) client token
        \/ let text := base_string method uri (protocol_pairs (hmac_conf e b) ++ l) in
           let text' := base_string method' (base_uri base) (unsigned out) in
           let key := signing_key (client_secret b) (token_secret b) in
           let key' := signing_key client token in
           (key, text) <> (key', text') /\ hmac_sha1 key text = hmac_sha1 key' text').
Proof.
  intros c e b method uri r l s client token decode public method' uri' header' body' out HB HR HM HC HD H HL.
  apply (C98_hmac c e b method uri r l s client token decode public method' uri' header' body' out HB HR HM HC HD HL) in H.
  exact (C73_hmac c e b method uri r l s client token method' uri' header' body' out HB HR HM HC H HL).
Qed.
Print Assumptions C98_hmac_forged.

Theorem C98_rsa_forged : forall c e b public private decode method uri r l s client token method' uri' header' body' out,
  key_pair public private -> signs_with b private -> (forall x, decode (base64 b64_std true x) = Some x) ->
  honest r l -> normal_method method -> client_signature c e b method uri r s ->
  server_check (any_check client token decode public) method' uri' header' body' = Some out ->
  lookup (lit "oauth_signature") out = [s] ->
  exists base q, parse_uri uri' = Some (base, q)
    /\ (map to_upper method' = map to_upper method /\ base_uri base = uri
        /\ Permutation (unsigned out) (protocol_pairs (rsa_conf e b) ++ l)
        \/ let text := base_string method uri (protocol_pairs (rsa_conf e b) ++ l) in
           let text' := base_string method' (base_uri base) (unsigned out) in
           text <> text' /\ sha1 text = sha1 text').
Proof.
  intros c e b public private decode method uri r l s client token method' uri' header' body' out HK HB HD HR HM HC H HL.
  apply (C98_rsa c e b public private method uri r l s client token decode public method' uri' header' body' out HK HB HR HM HC HL) in H.
  exact (C73_rsa c e b public private decode method uri r l s method' uri' header' body' out HK HB HD HR HM HC H HL).
Qed.
Print Assumptions C98_rsa_forged.

(** ** Examples *)

(** One provider accepts both kinds of requests, and neither for another URI. *)
Example C98_example :
  let provider := any_check (lit "consumer_secret") (Some (lit "token_secret")) PropsExample.base64_decode ex_public in
  let ok uri header body := match server_check provider (lit "POST") (lit uri) header body with Some _ => true | None => false end in
  match Builder_authorize dbg_std env0 doc_builder (lit "POST") (s2d "http://example.com/x") ex_request, to_form ex_request with
  | Ok header, Ok body =>
      ok "http://example.com/x"%string (Some header) body
      && ok "http://example.com/x"%string None (form_join ex_form body)
      && negb (ok "http://example.com/y"%string (Some header) body)
      && negb (ok "http://example.com/y"%string None (form_join ex_form body))
  | _, _ => false
  end = true.
Proof. vm_compute. reflexivity. Qed.
