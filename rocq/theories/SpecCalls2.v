(** Requests of the crate, and call sequences that are equivalent on the wire. *)
From Coq Require Import String.
From Verif Require Import Bytes Spec MFmt MSerializer MRequest SpecFmt SpecCalls.

(** The requests that can be built from the crate's own [Request] implementations (the derive macro
    apart), with their parameter list. *)
Inductive crate_request : Request -> list kv -> Prop :=
  | cq_unit : crate_request Request_unit []
  | cq_none : crate_request (Request_option None) []
  | cq_some : forall r l, crate_request r l -> crate_request (Request_option (Some r)) l
  | cq_ref : forall r l, crate_request r l -> crate_request (Request_ref r) l
  | cq_mut : forall r l, crate_request r l -> crate_request (Request_mut r) l
  | cq_sorted : forall dbg l, crate_request (AssertSorted dbg l) l
  | cq_list : forall dbg (l : ParameterList), crate_request (Request_pl dbg l) l.

(** Two calls that put the same key and text on the wire: the same value however it is written out
    piece by piece, or a value on one side and its encoding, passed as already encoded, on the
    other. *)
Inductive same_call : call -> call -> Prop :=
  | sc_param : forall k v v', same_display v v' -> same_call (CParam k v) (CParam k v')
  | sc_param_enc : forall k v v', same_display v v' -> same_call (CParamEnc k v) (CParamEnc k v')
  | sc_left : forall k v v', dtext v' = pct_encode (dtext v) -> dfinal v' = dfinal v ->
      same_call (CParam k v) (CParamEnc k v')
  | sc_right : forall k v v', dtext v' = pct_encode (dtext v) -> dfinal v' = dfinal v ->
      same_call (CParamEnc k v') (CParam k v)
  | sc_proto : forall p, same_call (CProto p) (CProto p).

Definition same_calls (cs cs' : list call) : Prop := Forall2 same_call cs cs'.

(** The request that makes the given calls. *)
Definition of_calls (cs : list call) : Request := fun S s => s <- run_calls cs s ;; sr_end s.

(** ** Recorded calls *)

(** What a call leaves in a recorder. *)
Definition recorded (c : call) : Rec bytes :=
  match c with
  | CParam k v => RParameter k (dtext v)
  | CParamEnc k v => RParameterEncoded k (dtext v)
  | CProto PCallback => RCallback
  | CProto PConsumerKey => RConsumerKey
  | CProto PNonce => RNonce
  | CProto PSignatureMethod => RSignatureMethod
  | CProto PTimestamp => RTimestamp
  | CProto PToken => RToken
  | CProto PVerifier => RVerifier
  | CProto PVersion => RVersion
  end.

(** The call that a record stands for. *)
Definition replayed (r : Rec bytes) : call :=
  match r with
  | RParameter k v => CParam k (dstr v)
  | RParameterEncoded k v => CParamEnc k (dstr v)
  | RCallback => CProto PCallback
  | RConsumerKey => CProto PConsumerKey
  | RNonce => CProto PNonce
  | RSignatureMethod => CProto PSignatureMethod
  | RTimestamp => CProto PTimestamp
  | RToken => CProto PToken
  | RVerifier => CProto PVerifier
  | RVersion => CProto PVersion
  end.

(** The request that replays records. *)
Definition replay (h : list (Rec bytes)) : Request :=
  fun S s => s <- run_calls (map replayed h) s ;; sr_end s.

(** A record with displayed values, as text. *)
Definition rec_text (r : Rec disp) : Rec bytes :=
  match r with
  | RParameter k v => RParameter k (dtext v)
  | RParameterEncoded k v => RParameterEncoded k (dtext v)
  | RCallback => RCallback
  | RConsumerKey => RConsumerKey
  | RNonce => RNonce
  | RSignatureMethod => RSignatureMethod
  | RTimestamp => RTimestamp
  | RToken => RToken
  | RVerifier => RVerifier
  | RVersion => RVersion
  end.
