(** The repository's own test vectors, run on the model (tests, not proofs). *)
From Coq Require Import String.
From Verif Require Import Bytes Crypto Spec MFmt MPercent MSign MSerializer MRequest MCredentials MAuth MBuilder.

Definition dbg_std : cfg := {| cf_debug := true; cf_alloc := true; cf_std := true |}.
Definition env0 : env := {| env_clock := fun _ => Some 1000%N; env_rng := fun _ _ => x01 |}.

Definition s2d (s : string) : disp := dstr (lit s).
Definition kvs (k v : string) : kv := (lit k, s2d v).

(** lib.rs:33-76 *)
Definition doc_builder : Builder :=
  Builder_timestamp (Some 1234567890%N)
    (Builder_nonce (Some (lit "Dk-OGluFEQ4f"))
       (Builder_with_token
          (Token_from_parts (lit "consumer_key") (lit "consumer_secret") (lit "token") (lit "token_secret"))
          HMAC_SHA1)).

(** "A request signed with OAuth & Rust \u{1f980} \u{1f50f}" *)
Definition doc_text : bytes :=
  lit "A request signed with OAuth & Rust " ++ [xf0; x9f; xa6; x80] ++ lit " " ++ [xf0; x9f; x94; x8f].

Example doc_authorize :
  Builder_post dbg_std env0 doc_builder (s2d "https://example.com/api/v1/comments/create.json")
    (AssertSorted true [(lit "article_id", dstr (lit "123456789")); (lit "text", dstr doc_text)])
  = Ok (lit "OAuth oauth_consumer_key=""consumer_key"",oauth_nonce=""Dk-OGluFEQ4f"",oauth_signature_method=""HMAC-SHA1"",oauth_timestamp=""1234567890"",oauth_token=""token"",oauth_signature=""n%2FrUgos4CFFZbZK8Z8wFR7drU4c%3D""").
Proof. vm_compute. reflexivity. Qed.

Example doc_form :
  to_form (AssertSorted true [(lit "article_id", dstr (lit "123456789")); (lit "text", dstr doc_text)])
  = Ok (lit "article_id=123456789&text=A%20request%20signed%20with%20OAuth%20%26%20Rust%20%F0%9F%A6%80%20%F0%9F%94%8F").
Proof. vm_compute. reflexivity. Qed.

(** serializer.rs:60-97 *)
Example doc_serializer :
  Builder_get dbg_std env0
    (Builder_nonce (Some (lit "mo8_whwD5c91")) doc_builder)
    (s2d "https://example.com/api/v1/get.json")
    (AssertSorted true [kvs "abc" "value"; kvs "lmn" "something"; kvs "qrs" "stuff"; kvs "xyz" "blah-blah"])
  = Ok (lit "OAuth oauth_consumer_key=""consumer_key"",oauth_nonce=""mo8_whwD5c91"",oauth_signature_method=""HMAC-SHA1"",oauth_timestamp=""1234567890"",oauth_token=""token"",oauth_signature=""eC5rUmIcYvAaIIWCIvOwhgUDByk%3D""").
Proof. vm_compute. reflexivity. Qed.
