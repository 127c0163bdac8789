(** Vocabulary for statements about call sequences: what a request does to a serializer, what the
    authorizer does to a signature state, and which protocol parameters a configuration sends.
    These are plain data; the model is mentioned only for the traits the calls go to. *)
From Coq Require Import String.
From Coq Require Import Sorted.
From Verif Require Import Bytes Crypto Spec MFmt MSign MSerializer MRequest.

(** ** The eight OAuth protocol parameters, in alphabetical order *)
Inductive proto :=
  | PCallback | PConsumerKey | PNonce | PSignatureMethod | PTimestamp | PToken | PVerifier | PVersion.

Definition all_protos : list proto :=
  [PCallback; PConsumerKey; PNonce; PSignatureMethod; PTimestamp; PToken; PVerifier; PVersion].

Definition proto_key (p : proto) : bytes :=
  match p with
  | PCallback => lit "oauth_callback"
  | PConsumerKey => lit "oauth_consumer_key"
  | PNonce => lit "oauth_nonce"
  | PSignatureMethod => lit "oauth_signature_method"
  | PTimestamp => lit "oauth_timestamp"
  | PToken => lit "oauth_token"
  | PVerifier => lit "oauth_verifier"
  | PVersion => lit "oauth_version"
  end.

(** ** Calls on a [Serializer] *)
Inductive call :=
  | CParam (k : bytes) (v : disp)       (** serialize_parameter *)
  | CParamEnc (k : bytes) (v : disp)    (** serialize_parameter_encoded *)
  | CProto (p : proto).                 (** serialize_oauth_... *)

Definition run_call {S : Serializer} (c : call) (s : S) : res S :=
  match c with
  | CParam k v => sr_parameter s k v
  | CParamEnc k v => sr_parameter_encoded s k v
  | CProto PCallback => sr_oauth_callback s
  | CProto PConsumerKey => sr_oauth_consumer_key s
  | CProto PNonce => sr_oauth_nonce s
  | CProto PSignatureMethod => sr_oauth_signature_method s
  | CProto PTimestamp => sr_oauth_timestamp s
  | CProto PToken => sr_oauth_token s
  | CProto PVerifier => sr_oauth_verifier s
  | CProto PVersion => sr_oauth_version s
  end.

Fixpoint run_calls {S : Serializer} (cs : list call) (s : S) : res S :=
  match cs with
  | [] => Ok s
  | c :: cs' => s <- run_call c s ;; run_calls cs' s
  end.

(** The request makes exactly the calls [cs], in this order, and then [end], on any serializer. *)
Definition makes_calls (r : Request) (cs : list call) : Prop :=
  forall (S : Serializer) (s : S), r S s = (s <- run_calls cs s ;; sr_end s).

(** The protocol calls, and the request parameters, of a call sequence. *)
Definition call_protos (cs : list call) : list proto :=
  flat_map (fun c => match c with CProto p => [p] | _ => [] end) cs.
Definition call_params (cs : list call) : list kv :=
  flat_map (fun c => match c with CParam k v => [(k, v)] | _ => [] end) cs.
Definition call_params_enc (cs : list call) : list kv :=
  flat_map (fun c => match c with CParamEnc k v => [(k, v)] | _ => [] end) cs.

Definition call_key (c : call) : bytes :=
  match c with
  | CParam k _ => k
  | CParamEnc k _ => k
  | CProto p => proto_key p
  end.

(** Ascending byte order, equal neighbours allowed. *)
Definition ascending (ks : list bytes) : Prop := StronglySorted (fun a b => bleb a b = true) ks.

(** ** Calls on a [Sign] *)
Inductive scall :=
  | SMethod (m : bytes)
  | SUri (u : disp)
  | SDelim
  | SParam (k : bytes) (v : disp)
  | SCallback (v : disp)
  | SConsumerKey (v : disp)
  | SNonce (v : disp)
  | SSignatureMethod
  | STimestamp (t : N)
  | SToken (v : disp)
  | SVerifier (v : disp)
  | SVersion.

Definition run_scall {sg : Sign} (s : sg) (c : scall) : res sg :=
  match c with
  | SMethod m => sg_request_method s m
  | SUri u => sg_uri s u
  | SDelim => sg_delimiter s
  | SParam k v => sg_parameter s k v
  | SCallback v => sg_callback s v
  | SConsumerKey v => sg_consumer_key s v
  | SNonce v => sg_nonce s v
  | SSignatureMethod => sg_signature_method s
  | STimestamp t => sg_timestamp s t
  | SToken v => sg_token s v
  | SVerifier v => sg_verifier s v
  | SVersion => sg_version s
  end.

Fixpoint run_scalls {sg : Sign} (s : sg) (cs : list scall) : res sg :=
  match cs with
  | [] => Ok s
  | c :: cs' => s <- run_scall s c ;; run_scalls s cs'
  end.
