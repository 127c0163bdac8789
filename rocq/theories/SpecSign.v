(** Signature methods written for the theorems: one that reveals the text it is asked to sign, put
    together as the documentation of trait [Sign] describes, and one that keeps every call. *)
From Coq Require Import String.
From Verif Require Import Bytes Crypto Spec MFmt MPercent MSign MSerializer MRequest MCredentials MAuth MBuilder
  SpecCalls SpecAuth.

(** signature_method.rs:80-130: the method and "&"; the URI and "&"; key, "%3D", value; "%26" between
    parameters.  The provided methods are not overridden.  The signature is the text itself, percent
    encoded, as the documentation of [Sign::Signature] asks. *)
Definition RevealSign (name : bytes) : Sign :=
  default_sign bytes
    (fun _ => name)
    (fun s m => Ok (s ++ m ++ lit "&"))
    (fun s u => t <- to_string u ;; Ok (s ++ t ++ lit "&"))
    (fun s k v => t <- to_string v ;; Ok (s ++ k ++ lit "%3D" ++ t))
    (fun s => Ok (s ++ lit "%26"))
    (fun s => Ok (dstr (pct_encode s))).

Definition Reveal (name : bytes) : SignatureMethod :=
  {| sm_sign := RevealSign name; sm_sign_with := fun _ _ => Ok ([] : RevealSign name) |}.

(** Every method call is kept, with the two secrets and the given flags and name. *)
Record trace := { tr_client : bytes; tr_token : option bytes; tr_calls : list scall }.

Definition TraceSign (un ut : bool) (name : bytes) (fin : trace -> disp) : Sign :=
  let keep s x := Ok {| tr_client := tr_client s; tr_token := tr_token s; tr_calls := tr_calls s ++ [x] |} in
  {| sg_st := trace;
     sg_name := fun _ => name;
     sg_request_method := fun s m => keep s (SMethod m);
     sg_uri := fun s u => keep s (SUri u);
     sg_parameter := fun s k v => keep s (SParam k v);
     sg_delimiter := fun s => keep s SDelim;
     sg_end := fun s => Ok (fin s);
     sg_callback := fun s v => keep s (SCallback v);
     sg_consumer_key := fun s v => keep s (SConsumerKey v);
     sg_nonce := fun s v => keep s (SNonce v);
     sg_use_nonce := fun _ => un;
     sg_signature_method := fun s => keep s SSignatureMethod;
     sg_timestamp := fun s t => keep s (STimestamp t);
     sg_use_timestamp := fun _ => ut;
     sg_token := fun s v => keep s (SToken v);
     sg_verifier := fun s v => keep s (SVerifier v);
     sg_version := fun s => keep s SVersion |}.

Definition TraceMethod (un ut : bool) (name : bytes) (fin : trace -> disp) : SignatureMethod :=
  {| sm_sign := TraceSign un ut name fin;
     sm_sign_with := fun cs ts =>
       Ok ({| tr_client := cs; tr_token := ts; tr_calls := [] |} : TraceSign un ut name fin) |}.

(** ** The documented calls *)

(** What is fed for a protocol parameter with raw value [v]: its own method.  A generated nonce is
    URL safe and handed over as it is; other texts are handed over encoded twice. *)
Definition proto_feed (cf : conf) (p : proto) (v : bytes) : scall :=
  match p with
  | PCallback => SCallback (DoublePercentEncode (dstr v))
  | PConsumerKey => SConsumerKey (DoublePercentEncode (dstr v))
  | PNonce => SNonce (match op_nonce (cn_options cf) with
                      | Some _ => DoublePercentEncode (dstr v) | None => dstr v end)
  | PSignatureMethod => SSignatureMethod
  | PTimestamp => STimestamp (timestamp_value cf 0)
  | PToken => SToken (DoublePercentEncode (dstr v))
  | PVerifier => SVerifier (DoublePercentEncode (dstr v))
  | PVersion => SVersion
  end.

(** What is fed for each parameter that is signed, in order. *)
Definition param_feeds (cf : conf) (cs : list call) : list scall :=
  flat_map (fun c =>
    match c with
    | CParam k v => [SParam k (DoublePercentEncode v)]
    | CParamEnc k v => [SParam k (PercentEncode v)]
    | CProto p => match sent cf 0 0 p with Some v => [proto_feed cf p v] | None => [] end
    end) cs.

(** A delimiter between two neighbours, none before the first or after the last. *)
Fixpoint delimited (xs : list scall) : list scall :=
  match xs with
  | [] => []
  | [x] => [x]
  | x :: xs' => x :: SDelim :: delimited xs'
  end.

Definition documented_calls (cf : conf) (method : bytes) (uri : disp) (cs : list call) : list scall :=
  SMethod method :: SUri (PercentEncode uri) :: delimited (param_feeds cf cs).

(** A signature method whose states, however they are used, give the same answers about nonce,
    timestamp and name.  (True of every method of the crate.) *)
Definition constant_flags (sm : SignatureMethod) (use_nonce use_timestamp : bool) (name : bytes) : Prop :=
  exists reachable : sm_sign sm -> Prop,
    (forall cs ts s, sm_sign_with sm cs ts = Ok s -> reachable s)
    /\ (forall s x s', reachable s -> run_scall s x = Ok s' -> reachable s')
    /\ (forall s, reachable s ->
          sg_use_nonce s = use_nonce /\ sg_use_timestamp s = use_timestamp /\ sg_name s = name).

(** The same builder with another signature method. *)
Definition with_method (sm : SignatureMethod) (b : Builder) : Builder :=
  {| bd_signature_method := sm; bd_client := bd_client b; bd_token := bd_token b; bd_options := bd_options b |}.

(** Two signature methods that cannot be told apart by authorizing: same results and same panics. *)
Definition same_outputs (m1 m2 : SignatureMethod) : Prop :=
  forall c e b method r cs, makes_calls r cs ->
    (forall uri, Builder_authorize c e (with_method m1 b) method uri r = Builder_authorize c e (with_method m2 b) method uri r)
    /\ (forall uri, Builder_to_form c e (with_method m1 b) method uri r = Builder_to_form c e (with_method m2 b) method uri r)
    /\ (forall (w : Writer) (show : w -> disp) (uri : w),
          Builder_to_query c e show (with_method m1 b) method uri r = Builder_to_query c e show (with_method m2 b) method uri r)
    /\ (forall (w : Writer) (buf : w) uri,
          Builder_authorize_with_buf c e (with_method m1 b) buf method uri r
          = Builder_authorize_with_buf c e (with_method m2 b) buf method uri r)
    /\ (forall (w : Writer) (buf : w) uri,
          Builder_to_form_with_buf c e (with_method m1 b) buf method uri r
          = Builder_to_form_with_buf c e (with_method m2 b) buf method uri r).

(** [sg] without its own [consumer_key]: the provided method of the trait is used. *)
Definition provided_consumer_key (sg : Sign) : Sign :=
  {| sg_st := sg_st sg; sg_name := sg_name; sg_request_method := sg_request_method; sg_uri := sg_uri;
     sg_parameter := sg_parameter; sg_delimiter := sg_delimiter; sg_end := sg_end; sg_callback := sg_callback;
     sg_consumer_key := fun s v => sg_parameter s (lit "oauth_consumer_key") v;
     sg_nonce := sg_nonce; sg_use_nonce := sg_use_nonce; sg_signature_method := sg_signature_method;
     sg_timestamp := sg_timestamp; sg_use_timestamp := sg_use_timestamp; sg_token := sg_token;
     sg_verifier := sg_verifier; sg_version := sg_version |}.

Definition without_consumer_key (m : SignatureMethod) : SignatureMethod :=
  {| sm_sign := provided_consumer_key (sm_sign m); sm_sign_with := sm_sign_with m |}.
