(** What an authorization sends and signs, as a function of the configuration, the environment and
    the call sequence of the request.  Written without reference to the authorizer's code. *)
From Coq Require Import String.
From Coq Require Import Sorted.
From Verif Require Import Bytes Crypto Spec MFmt MPercent MSign MSerializer MRequest MAuth SpecCalls.

(** Everything the protocol parameters depend on. *)
Record conf := {
  cn_client : bytes;              (** client identifier *)
  cn_token : option bytes;        (** token identifier *)
  cn_options : Options;
  cn_use_nonce : bool;            (** the signature method's flags and name *)
  cn_use_timestamp : bool;
  cn_name : bytes;
  cn_env : env;
}.

(** The nonce made from nine random bytes: leading zero bytes dropped, URL-safe base 64. *)
Fixpoint drop_zeroes (rand : bytes) : bytes :=
  match rand with
  | b :: r => if N.eqb (bn b) 0 then drop_zeroes r else rand
  | [] => []
  end.
Definition nonce_of_bytes (rand : bytes) : bytes := base64 b64_url false (drop_zeroes rand).

(** The nine bytes of the [n]-th draw. *)
Definition random_bytes (e : env) (n : nat) : bytes := map (env_rng e n) (seq 0 9).

(** The seconds since the epoch, or 1 before the epoch. *)
Definition seconds (reading : option N) : N := match reading with Some s => s | None => 1%N end.

(** The value of the [n]-th generated nonce / [t]-th clock reading unless configured. *)
Definition nonce_value (cf : conf) (n : nat) : bytes :=
  match op_nonce (cn_options cf) with
  | Some v => v
  | None => nonce_of_bytes (random_bytes (cn_env cf) n)
  end.
Definition timestamp_value (cf : conf) (t : nat) : N :=
  match op_timestamp (cn_options cf) with
  | Some v => v
  | None => seconds (env_clock (cn_env cf) t)
  end.

(** The raw value of each protocol parameter, or [None] when it is not sent. *)
Definition sent (cf : conf) (n t : nat) (p : proto) : option bytes :=
  match p with
  | PCallback => op_callback (cn_options cf)
  | PConsumerKey => Some (cn_client cf)
  | PNonce => if cn_use_nonce cf then Some (nonce_value cf n) else None
  | PSignatureMethod => Some (cn_name cf)
  | PTimestamp => if cn_use_timestamp cf then Some (decimal (timestamp_value cf t)) else None
  | PToken => cn_token cf
  | PVerifier => op_verifier (cn_options cf)
  | PVersion => if op_version (cn_options cf) then Some (lit "1.0") else None
  end.

(** How the value is written in the header: encoded, except that the signature method's name is
    written as it is. *)
Definition on_wire (p : proto) (v : bytes) : bytes :=
  match p with PSignatureMethod => v | _ => pct_encode v end.

(** The protocol parameters sent, in order, with the first nonce and clock reading. *)
Definition protocol_pairs (cf : conf) : list pair :=
  flat_map (fun p => match sent cf 0 0 p with Some v => [(proto_key p, v)] | None => [] end)
    all_protos.

(** Key and wire text of the protocol parameters of a call sequence. *)
Definition wire_fields (cf : conf) (ps : list proto) : list pair :=
  flat_map (fun p => match sent cf 0 0 p with Some v => [(proto_key p, on_wire p v)] | None => [] end) ps.

(** ** Header and form texts *)

Definition header_field (p : pair) : bytes := fst p ++ lit "=""" ++ snd p ++ lit """,".

(** [fields] are written in order, then the signature, without a trailing comma. *)
Definition header_text (fields : list pair) (signature : bytes) : bytes :=
  lit "OAuth " ++ concat (map header_field fields)
  ++ lit "oauth_signature=""" ++ signature ++ lit """".

Definition form_pair (p : pair) : bytes := fst p ++ lit "=" ++ snd p.

Definition form_text (fields : list pair) : bytes := join (lit "&") (map form_pair fields).

Definition query_text (uri : bytes) (fields : list pair) : bytes :=
  match fields with
  | [] => uri
  | _ => uri ++ lit "?" ++ form_text fields
  end.

(** ** Signed parameters *)

(** Key and once-encoded value of everything signed, in call order.  A pre-encoded value counts as
    it is. *)
Definition signed_fields (cf : conf) (cs : list call) : list pair :=
  flat_map (fun c =>
    match c with
    | CParam k v => [(k, pct_encode (dtext v))]
    | CParamEnc k v => [(k, dtext v)]
    | CProto p => match sent cf 0 0 p with Some v => [(proto_key p, pct_encode v)] | None => [] end
    end) cs.

(** The text that is hashed: method, "&", encoded URI, "&", and the fields, each key, "%3D",
    encoded field value, separated by "%26". *)
Definition hashed_text (method uri : bytes) (fields : list pair) : bytes :=
  method ++ lit "&" ++ pct_encode uri ++ lit "&"
  ++ join (lit "%26") (map (fun p => fst p ++ lit "%3D" ++ pct_encode (snd p)) fields).
