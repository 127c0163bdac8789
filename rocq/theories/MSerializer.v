(** Model of oauth1-request/src/serializer.rs, serializer/urlencode.rs, serializer/recorder.rs,
    util/oauth_parameter.rs, util.rs (OAuthParameter::serialize). *)
From Coq Require Import String.
From Verif Require Import Bytes MFmt MPercent.

(** Build configuration: [cfg(debug_assertions)], features "alloc" and "std".
    (The "js" feature on wasm32 is in MJs.v.)
    (auth.rs:71, 261-275, 384-404) *)
Record cfg := {
  cf_debug : bool;
  cf_alloc : bool;
  cf_std : bool;
}.

(** serializer.rs:99-169, trait [Serializer]. *)
Record Serializer := {
  sr_st :> Type;
  sr_out : Type;
  sr_parameter : sr_st -> bytes -> disp -> res sr_st;
  sr_parameter_encoded : sr_st -> bytes -> disp -> res sr_st;
  sr_oauth_callback : sr_st -> res sr_st;
  sr_oauth_consumer_key : sr_st -> res sr_st;
  sr_oauth_nonce : sr_st -> res sr_st;
  sr_oauth_signature_method : sr_st -> res sr_st;
  sr_oauth_timestamp : sr_st -> res sr_st;
  sr_oauth_token : sr_st -> res sr_st;
  sr_oauth_verifier : sr_st -> res sr_st;
  sr_oauth_version : sr_st -> res sr_st;
  sr_end : sr_st -> res sr_out;
}.
Arguments sr_parameter {s} _ _ _ : rename.
Arguments sr_parameter_encoded {s} _ _ _ : rename.
Arguments sr_oauth_callback {s} _ : rename.
Arguments sr_oauth_consumer_key {s} _ : rename.
Arguments sr_oauth_nonce {s} _ : rename.
Arguments sr_oauth_signature_method {s} _ : rename.
Arguments sr_oauth_timestamp {s} _ : rename.
Arguments sr_oauth_token {s} _ : rename.
Arguments sr_oauth_verifier {s} _ : rename.
Arguments sr_oauth_version {s} _ : rename.
Arguments sr_end {s} _ : rename.

(** serializer.rs:177-188 [SerializerExt::serialize_oauth_parameters]. *)
Definition serialize_oauth_parameters {S : Serializer} (s : S) : res S :=
  s <- sr_oauth_callback s ;;
  s <- sr_oauth_consumer_key s ;;
  s <- sr_oauth_nonce s ;;
  s <- sr_oauth_signature_method s ;;
  s <- sr_oauth_timestamp s ;;
  s <- sr_oauth_token s ;;
  s <- sr_oauth_verifier s ;;
  sr_oauth_version s.

(** ** util/oauth_parameter.rs *)

(** oauth_parameter.rs:4-14 *)
Inductive OAuthParameter :=
  | Callback | ConsumerKey | Nonce | SignatureMethod_ | Timestamp | Token_ | Verifier | Version
  | None_.

(** oauth_parameter.rs:17-32 [next]; [dbg] is [debug_assertions]. *)
Definition next (dbg : bool) (p : OAuthParameter) : res OAuthParameter :=
  match p with
  | Callback => Ok ConsumerKey
  | ConsumerKey => Ok Nonce
  | Nonce => Ok SignatureMethod_
  | SignatureMethod_ => Ok Timestamp
  | Timestamp => Ok Token_
  | Token_ => Ok Verifier
  | Verifier => Ok Version
  | Version => Ok None_
  | None_ => if dbg then Panic PNextNone else Ok Callback
  end.

(** oauth_parameter.rs:34-46 [as_str]. *)
Definition as_str (p : OAuthParameter) : option bytes :=
  match p with
  | Callback => Some (lit "oauth_callback")
  | ConsumerKey => Some (lit "oauth_consumer_key")
  | Nonce => Some (lit "oauth_nonce")
  | SignatureMethod_ => Some (lit "oauth_signature_method")
  | Timestamp => Some (lit "oauth_timestamp")
  | Token_ => Some (lit "oauth_token")
  | Verifier => Some (lit "oauth_verifier")
  | Version => Some (lit "oauth_version")
  | None_ => None
  end.

(** oauth_parameter.rs:49-53 [Default]. *)
Definition OAuthParameter_default : OAuthParameter := Callback.

(** oauth_parameter.rs:64-71 [PartialOrd<str>::partial_cmp]; always [Some]. *)
Definition op_partial_cmp (p : OAuthParameter) (s : bytes) : comparison :=
  match as_str p with
  | Some t => bcmp t s
  | None => Gt
  end.

(** [next_param < *k]
    (request.rs:146) *)
Definition op_lt (p : OAuthParameter) (s : bytes) : bool :=
  match op_partial_cmp p s with Lt => true | _ => false end.

(** util.rs:152-166 [OAuthParameter::serialize]. *)
Definition op_serialize {S : Serializer} (p : OAuthParameter) (s : S) : res S :=
  match p with
  | Callback => sr_oauth_callback s
  | ConsumerKey => sr_oauth_consumer_key s
  | Nonce => sr_oauth_nonce s
  | SignatureMethod_ => sr_oauth_signature_method s
  | Timestamp => sr_oauth_timestamp s
  | Token_ => sr_oauth_token s
  | Verifier => sr_oauth_verifier s
  | Version => sr_oauth_version s
  | None_ => Panic POAuthNone
  end.

(** [OAuthParameter: PartialEq] with [None].
    (request.rs:153) *)
Definition is_none_ (p : OAuthParameter) : bool := match p with None_ => true | _ => false end.

(** ** serializer/urlencode.rs *)

(** urlencode.rs:22-27 *)
Inductive Append := ANone | AQuestion | AAmpersand.

(** urlencode.rs:13-19 *)
Record Urlencoder (w : Writer) := { ue_data : w; ue_next_append : Append }.
Arguments ue_data {w} _.
Arguments ue_next_append {w} _.
Arguments Build_Urlencoder {w} _ _.

(** urlencode.rs:47-52 [form_with_buf]; [form] (33-38) is the case of an empty [String]. *)
Definition ue_form_with_buf {w : Writer} (buf : w) : Urlencoder w := Build_Urlencoder buf ANone.
Definition ue_form : Urlencoder StringW := Build_Urlencoder (w := StringW) ([] : bytes) ANone.

(** urlencode.rs:55-60 [query]. *)
Definition ue_query {w : Writer} (uri : w) : Urlencoder w := Build_Urlencoder uri AQuestion.

(** urlencode.rs:62-71 [append_delim]; [write_char] of an ASCII character is a one-byte write. *)
Definition ue_append_delim {w : Writer} (u : Urlencoder w) : res (Urlencoder w) :=
  match ue_next_append u with
  | ANone => Ok (Build_Urlencoder (ue_data u) AAmpersand)
  | AQuestion =>
      d <- write_unwrap (dstr (lit "?")) (ue_data u) ;; Ok (Build_Urlencoder d AAmpersand)
  | AAmpersand =>
      d <- write_unwrap (dstr (lit "&")) (ue_data u) ;; Ok (Build_Urlencoder d AAmpersand)
  end.

(** urlencode.rs:85-91 [serialize_parameter_encoded]. *)
Definition ue_parameter_encoded {w : Writer} (u : Urlencoder w) (key : bytes) (value : disp)
  : res (Urlencoder w) :=
  u <- ue_append_delim u ;;
  d <- write_unwrap (dseq (dstr key) (dseq (dstr (lit "=")) value)) (ue_data u) ;;
  Ok (Build_Urlencoder d (ue_next_append u)).

(** urlencode.rs:77-83 [serialize_parameter]. *)
Definition ue_parameter {w : Writer} (u : Urlencoder w) (key : bytes) (value : disp)
  : res (Urlencoder w) :=
  u <- ue_append_delim u ;;
  d <- write_unwrap (dseq (dstr key) (dseq (dstr (lit "=")) (PercentEncode value))) (ue_data u) ;;
  Ok (Build_Urlencoder d (ue_next_append u)).

(** urlencode.rs:74-98; serializer.rs:24-36 makes the [serialize_oauth_*] methods empty. *)
Definition UrlencoderS (w : Writer) : Serializer :=
  {| sr_st := Urlencoder w;
     sr_out := w;
     sr_parameter := ue_parameter;
     sr_parameter_encoded := ue_parameter_encoded;
     sr_oauth_callback := fun u => Ok u;
     sr_oauth_consumer_key := fun u => Ok u;
     sr_oauth_nonce := fun u => Ok u;
     sr_oauth_signature_method := fun u => Ok u;
     sr_oauth_timestamp := fun u => Ok u;
     sr_oauth_token := fun u => Ok u;
     sr_oauth_verifier := fun u => Ok u;
     sr_oauth_version := fun u => Ok u;
     sr_end := fun u => Ok (ue_data u) |}.

(** ** serializer/recorder.rs *)

(** recorder.rs:60-81, [Record<K, V>] with [K: AsRef<str>] reduced to the key text and [V] a
    parameter ([bytes] for [String], [disp] for any [Display]). *)
Inductive Rec (V : Type) :=
  | RParameter (k : bytes) (v : V)
  | RParameterEncoded (k : bytes) (v : V)
  | RCallback | RConsumerKey | RNonce | RSignatureMethod | RTimestamp | RToken | RVerifier | RVersion.
Arguments RParameter {V} k v.
Arguments RParameterEncoded {V} k v.
Arguments RCallback {V}.
Arguments RConsumerKey {V}.
Arguments RNonce {V}.
Arguments RSignatureMethod {V}.
Arguments RTimestamp {V}.
Arguments RToken {V}.
Arguments RVerifier {V}.
Arguments RVersion {V}.

(** recorder.rs:95-149 [Serializer for Recorder]; the state is [history]. *)
Definition RecorderS : Serializer :=
  {| sr_st := list (Rec bytes);
     sr_out := list (Rec bytes);
     sr_parameter := fun h k v => s <- to_string v ;; Ok (h ++ [RParameter k s]);
     sr_parameter_encoded := fun h k v => s <- to_string v ;; Ok (h ++ [RParameterEncoded k s]);
     sr_oauth_callback := fun h => Ok (h ++ [RCallback]);
     sr_oauth_consumer_key := fun h => Ok (h ++ [RConsumerKey]);
     sr_oauth_nonce := fun h => Ok (h ++ [RNonce]);
     sr_oauth_signature_method := fun h => Ok (h ++ [RSignatureMethod]);
     sr_oauth_timestamp := fun h => Ok (h ++ [RTimestamp]);
     sr_oauth_token := fun h => Ok (h ++ [RToken]);
     sr_oauth_verifier := fun h => Ok (h ++ [RVerifier]);
     sr_oauth_version := fun h => Ok (h ++ [RVersion]);
     sr_end := fun h => Ok h |}.

(** recorder.rs:85-87 [Recorder::new]. *)
Definition Recorder_new : RecorderS := ([] : list (Rec bytes)).

(** recorder.rs:162-171 [OAUTH_PARAMETERS]. *)
Definition OAUTH_PARAMETERS {V} : list (Rec V) :=
  [RCallback; RConsumerKey; RNonce; RSignatureMethod; RTimestamp; RToken; RVerifier; RVersion].

(** Crate [fmt-cmp]: compares the displayed texts.
    (parameter_list.rs:243, recorder.rs:187) *)
Definition fmt_cmp (a b : disp) : comparison := bcmp (dtext a) (dtext b).

(** recorder.rs:174-199 [PartialEq for Record]. *)
Definition record_eq (a b : Rec disp) : bool :=
  match a, b with
  | RParameter k1 v1, RParameter k2 v2
  | RParameterEncoded k1 v1, RParameterEncoded k2 v2 =>
      bseqb k1 k2 && match fmt_cmp v1 v2 with Eq => true | _ => false end
  | RCallback, RCallback
  | RConsumerKey, RConsumerKey
  | RNonce, RNonce
  | RSignatureMethod, RSignatureMethod
  | RTimestamp, RTimestamp
  | RToken, RToken
  | RVerifier, RVerifier
  | RVersion, RVersion => true
  | _, _ => false
  end.
