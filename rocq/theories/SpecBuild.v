(** The configuration of a [Builder], and when its use is valid. *)
From Coq Require Import String.
From Coq Require Import Sorted.
From Verif Require Import Bytes Crypto Spec MFmt MPercent MSign MSerializer MRequest MCredentials MAuth
  MBuilder SpecCalls SpecAuth.

(** The configuration of builder [b] in environment [e], for a signature method with the given
    flags and name. *)
Definition conf_with (use_nonce use_timestamp : bool) (name : bytes) (e : env) (b : Builder) : conf :=
  {| cn_client := cr_identifier (bd_client b);
     cn_token := option_map cr_identifier (bd_token b);
     cn_options := bd_options b;
     cn_use_nonce := use_nonce;
     cn_use_timestamp := use_timestamp;
     cn_name := name;
     cn_env := e |}.

(** The built-in methods use both nonce and timestamp. *)
Definition conf_of (name : bytes) (e : env) (b : Builder) : conf := conf_with true true name e b.

Definition client_secret (b : Builder) : bytes := cr_secret (bd_client b).
Definition token_secret (b : Builder) : option bytes := option_map cr_secret (bd_token b).

Definition has_question (s : bytes) : Prop := In "?"%byte s.

(** A value displayed by a call is well behaved. *)
Definition displays_ok (x : call) : Prop :=
  match x with CParam _ v | CParamEnc _ v => dok v | CProto _ => True end.

(** What the documentation asks of the caller, in build configuration [c]: URI and values display
    without error, no query in the URI, keys in ascending order.  The last two are checked in debug
    builds only, so only there do they influence the outcome. *)
Record valid_use (c : cfg) (cf : conf) (uri : disp) (cs : list call) : Prop := {
  vu_uri : dok uri;
  vu_query : cf_debug c = true -> ~ has_question (dtext uri);
  vu_values : Forall displays_ok cs;
  vu_order : cf_alloc c = true -> cf_debug c = true -> ascending (map fst (signed_fields cf cs));
}.

(** A timestamp can be produced. *)
Definition timestamp_available (c : cfg) (cf : conf) : Prop :=
  cf_std c = true \/ op_timestamp (cn_options cf) <> None \/ cn_use_timestamp cf = false.

(** The crate's own signature methods, with the name they send, whether they look at the values
    they are given (all but PLAINTEXT), and the signature text they emit for the given secrets and
    hashed text ([None]: signing fails). *)
Inductive builtin : SignatureMethod -> bytes -> bool -> (bytes -> option bytes -> bytes -> option bytes) -> Prop :=
  | bi_hmac : builtin HMAC_SHA1 (lit "HMAC-SHA1") true
                (fun cs ts text => Some (pct_encode (hmac_signature cs ts text)))
  | bi_plaintext : builtin PLAINTEXT (lit "PLAINTEXT") false (fun cs ts _ => Some (signing_key cs ts))
  | bi_rsa : forall key, builtin (RsaSha1 key) (lit "RSA-SHA1") true
      (fun _ _ text => option_map (fun s => pct_encode (base64 b64_std true s)) (key (sha1 text)))
  | bi_rsa_ref : forall key, builtin (RsaSha1_ref key) (lit "RSA-SHA1") true
      (fun _ _ text => option_map (fun s => pct_encode (base64 b64_std true s)) (key (sha1 text))).

(** [valid_use], where a method that does not look at the values it is given ([strict] is false)
    does not notice that a value cannot be displayed, nor, in release builds, that the URI
    cannot. *)
Record valid_for (strict : bool) (c : cfg) (cf : conf) (uri : disp) (cs : list call) : Prop := {
  vf_uri : strict = true \/ cf_debug c = true -> dok uri;
  vf_query : cf_debug c = true -> ~ has_question (dtext uri);
  vf_values : strict = true -> Forall displays_ok cs;
  vf_order : cf_alloc c = true -> cf_debug c = true -> ascending (map fst (signed_fields cf cs));
}.
