(** Model of the [Debug] implementations of [Builder], [Options], [PlaintextSign], [HmacSha1Sign],
    [Urlencoder] and [Authorizer]. *)
From Coq Require Import String.
From Verif Require Import Bytes Crypto MFmt MPercent MSerializer MSign MCredentials MAuth MBuilder.

(** [Debug for Option<T>] (core, derived): [debug_tuple].
    Used by the [derive(Debug)] of lib.rs:242 and auth.rs:22, 48. *)
Definition option_debug {T} (dbg : bool -> T -> bytes) (pretty : bool) (o : option T) : bytes :=
  match o with
  | None => lit "None"
  | Some x =>
      if pretty then lit "Some(" ++ [x0a] ++ pad_lines true (dbg pretty x ++ lit "," ++ [x0a]) ++ lit ")"
      else lit "Some(" ++ dbg pretty x ++ lit ")"
  end.

(** [Debug for bool] (core), used by auth.rs:22, 48. *)
Definition bool_debug (_ : bool) (b : bool) : bytes := if b then lit "true" else lit "false".
(** [Debug for NonZeroU64] (core), used by auth.rs:48. *)
Definition u64_debug (_ : bool) (n : N) : bytes := decimal n.

(** serializer/auth.rs:48 [derive(Debug)] for [Options] (fields in declaration order); [ds] is
    [Debug for str], left open. *)
Definition Options_debug (ds : bool -> bytes -> bytes) (pretty : bool) (o : Options) : bytes :=
  debug_struct pretty (lit "Options")
    [(lit "callback", option_debug ds pretty (op_callback o));
     (lit "verifier", option_debug ds pretty (op_verifier o));
     (lit "nonce", option_debug ds pretty (op_nonce o));
     (lit "timestamp", option_debug u64_debug pretty (op_timestamp o));
     (lit "version", bool_debug pretty (op_version o))].

(** lib.rs:242 [derive(Debug)] for [Builder]; [dsm] is the [Debug] of the signature method. *)
Definition Builder_debug (dsm : bool -> bytes) (ds : bool -> bytes -> bytes) (pretty : bool) (b : Builder) : bytes :=
  debug_struct pretty (lit "Builder")
    [(lit "signature_method", dsm pretty);
     (lit "client", Credentials_debug ds pretty (bd_client b));
     (lit "token", option_debug (Credentials_debug ds) pretty (bd_token b));
     (lit "options", Options_debug ds pretty (bd_options b))].

(** signature_method/hmac_sha1.rs:55-61 and plaintext.rs:70-76 [Debug]: a unit struct's name. *)
Definition HmacSha1_debug (_ : bool) : bytes := lit "HmacSha1".
Definition Plaintext_debug (_ : bool) : bytes := lit "Plaintext".

(** plaintext.rs:20 [derive(Debug)] for [PlaintextSign]; [dw] is the buffer's [Debug]. *)
Definition PlaintextSign_debug {bf : Buffer} (dw : bool -> bf_w bf -> bytes) (pretty : bool) (s : bf_w bf) : bytes :=
  debug_struct pretty (lit "PlaintextSign") [(lit "signing_key", dw pretty s)].

(** [Formatter::debug_tuple] with one field, as derived code uses it: [text] is the field's own debug
    text.
    Used by the [derive(Debug)] of auth.rs:40 and digest_common.rs:8. *)
Definition debug_tuple1 (pretty : bool) (name text : bytes) : bytes :=
  if pretty then name ++ lit "(" ++ [x0a] ++ pad_lines true (text ++ lit "," ++ [x0a]) ++ lit ")"
  else name ++ lit "(" ++ text ++ lit ")".

(** digest_common.rs:8-9 [derive(Debug)] for [UpdateSign] and hmac_sha1.rs:26-29 [derive(Debug)] for
    [HmacSha1Sign]; [dh] is the [Debug] of the [hmac] crate's [Hmac<Sha1>], which prints the algorithm's
    name and no state ([Hmac<Sha1> { .. }]): it is a parameter that does not take the state. *)
Definition UpdateSign_debug {U} (du : bool -> U -> bytes) (pretty : bool) (u : U) : bytes :=
  debug_tuple1 pretty (lit "UpdateSign") (du pretty u).
Definition HmacSha1Sign_debug (dh : bool -> bytes) (pretty : bool) (s : HmacState) : bytes :=
  debug_struct pretty (lit "HmacSha1Sign")
    [(lit "inner", UpdateSign_debug (fun p (_ : HmacState) => dh p) pretty s)].

(** rsa_sha1.rs:18-22 and 25-29 [derive(Debug)] for [RsaSha1] and [RsaSha1Sign<K>]; [dk] is the text that
    the [rsa] crate's own [Debug] gives for the key, [dsha] that of [Sha1], which prints no state. *)
Definition RsaSha1_debug (dk : bool -> bytes) (pretty : bool) : bytes :=
  debug_struct pretty (lit "RsaSha1") [(lit "key", dk pretty)].
Definition RsaSha1Sign_debug (dsha dk : bool -> bytes) (pretty : bool) (s : RsaState) : bytes :=
  debug_struct pretty (lit "RsaSha1Sign")
    [(lit "inner", UpdateSign_debug (fun p (_ : RsaState) => dsha p) pretty s); (lit "key", dk pretty)].

(** urlencode.rs:22-27 [derive(Debug)] for [Append]. *)
Definition Append_debug (_ : bool) (a : Append) : bytes :=
  match a with
  | ANone => lit "None"
  | AQuestion => lit "Question"
  | AAmpersand => lit "Ampersand"
  end.

(** urlencode.rs:12-19 [derive(Debug)] for [Urlencoder]; [dw] is the buffer's [Debug]. *)
Definition Urlencoder_debug {w : Writer} (dw : bool -> w -> bytes) (pretty : bool) (u : Urlencoder w) : bytes :=
  debug_struct pretty (lit "Urlencoder")
    [(lit "data", dw pretty (ue_data u));
     (lit "next_append", Append_debug pretty (ue_next_append u))].

(** serializer/auth.rs:40-44 [derive(Debug)] for [Data]. *)
Definition Data_debug {w : Writer} (dw : bool -> w -> bytes) (pretty : bool) (d : Data w) : bytes :=
  match d with
  | Authorization x => debug_tuple1 pretty (lit "Authorization") (dw pretty x)
  | Urlencode u => debug_tuple1 pretty (lit "Urlencode") (Urlencoder_debug dw pretty u)
  end.

(** serializer/auth.rs:22-37 [derive(Debug)] for [Authorizer]; [dsg] is the [Debug] of the signature
    object.  [prev_key] is a field only in debug builds with [alloc]; [au_draws] and [au_ticks] are not
    fields of the Rust type. *)
Definition Authorizer_debug {sg : Sign} {w : Writer} (c : cfg) (ds : bool -> bytes -> bytes)
    (dw : bool -> w -> bytes) (dsg : bool -> sg -> bytes) (pretty : bool) (a : Authorizer sg w) : bytes :=
  debug_struct pretty (lit "Authorizer")
    ([(lit "consumer_key", ds pretty (au_consumer_key a));
      (lit "token", option_debug ds pretty (au_token a));
      (lit "options", Options_debug ds pretty (au_options a));
      (lit "data", Data_debug dw pretty (au_data a));
      (lit "sign", dsg pretty (au_sign a));
      (lit "append_delim_to_sign", bool_debug pretty (au_append_delim a))]
     ++ if cf_alloc c && cf_debug c then [(lit "prev_key", ds pretty (au_prev_key a))] else []).
