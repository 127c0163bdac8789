(** Properties C05-C08 and C37: what requests do to serializers, and the recorder. *)
From Coq Require Import String.
From Coq Require Import Lia Arith Sorted Permutation.
From Verif Require Import Bytes Crypto Spec MFmt MPercent MSerializer MSign MRequest MCredentials MAuth MBuilder ModelTests
  SpecFmt SpecCalls SpecCalls2 SpecAuth SpecBuild SpecForm
  LBytes LFmt LPercent LFmt2 LTrace LAuth LSign LBuild LForm LBase LReq LReq2 LPanic LTop.

(** Pairs with a key before, between, among and after the protocol keys, one of them repeated. *)
Definition some_pairs : list kv :=
  [kvs "a" "1"; kvs "oauth_m" "x&y"; kvs "oauth_token" "2"; kvs "oauth_token" "3"; kvs "z" ""].
Definition some_request : Request := Request_option (Some (Request_ref (AssertSorted true some_pairs))).

Example some_request_ok : crate_request some_request some_pairs /\ ascending (map fst some_pairs).
Proof.
  split; [repeat constructor|]. unfold ascending, some_pairs.
  repeat first [constructor | vm_compute; reflexivity].
Qed.

(** ** C05 *)

(** The behaviour of a request is one fixed sequence of calls, the same for every serializer. *)
Theorem C05_calls : forall r l, crate_request r l -> exists cs, makes_calls r cs.
Proof. intros r l H. eexists. apply crate_request_calls, H. Qed.
Print Assumptions C05_calls.

Theorem C05_calls_unique : forall r cs cs', makes_calls r cs -> makes_calls r cs' -> cs = cs'.
Proof. exact makes_calls_unique. Qed.
Print Assumptions C05_calls_unique.

(** The protocol calls are all eight, once each, in alphabetical order. *)
Theorem C05_protocol_calls : forall r l cs, crate_request r l -> makes_calls r cs -> call_protos cs = all_protos.
Proof.
  intros r l cs H HM. rewrite (makes_calls_unique r cs (calls_of l) HM (crate_request_calls r l H)).
  apply call_protos_calls_of.
Qed.
Print Assumptions C05_protocol_calls.

Theorem C05_all_protocol_parameters : forall p, In p all_protos.
Proof. intros []; cbn; tauto. Qed.
Print Assumptions C05_all_protocol_parameters.

Theorem C05_alphabetical : NoDup all_protos /\ ascending (map proto_key all_protos).
Proof.
  split; [|apply ascending_protos]. repeat (constructor; [cbn; intuition discriminate|]). constructor.
Qed.
Print Assumptions C05_alphabetical.

Example C05_example : makes_calls some_request
  ([CParam (lit "a") (s2d "1"); CProto PCallback; CProto PConsumerKey; CParam (lit "oauth_m") (s2d "x&y");
    CProto PNonce; CProto PSignatureMethod; CProto PTimestamp;
    CParam (lit "oauth_token") (s2d "2"); CParam (lit "oauth_token") (s2d "3");
    CProto PToken; CProto PVerifier; CProto PVersion; CParam (lit "z") (s2d "")]).
Proof. exact (crate_request_calls _ _ (proj1 some_request_ok)). Qed.

(** ** C06 *)
Theorem C06_ascending : forall r l cs, crate_request r l -> makes_calls r cs ->
  ascending (map fst l) -> ascending (map call_key cs).
Proof.
  intros r l cs H HM HA. rewrite (makes_calls_unique r cs (calls_of l) HM (crate_request_calls r l H)).
  now apply calls_of_ascending.
Qed.
Print Assumptions C06_ascending.

(** Conversely the whole sequence is in order only if the keys given are. *)
Theorem C06_ascending_only_if : forall r l cs, crate_request r l -> makes_calls r cs ->
  ascending (map call_key cs) -> ascending (map fst l).
Proof.
  intros r l cs H HM HA. rewrite (makes_calls_unique r cs (calls_of l) HM (crate_request_calls r l H)) in HA.
  eapply merge_ascending_inv; eauto.
Qed.
Print Assumptions C06_ascending_only_if.

(** The pairs of [some_request] are in order, and so are its calls; two pairs that are not. *)
Example C06_example : ascending (map fst some_pairs) /\ ascending (map call_key (calls_of some_pairs))
  /\ crate_request (AssertSorted false [kvs "b" ""; kvs "a" ""]) [kvs "b" ""; kvs "a" ""]
  /\ ~ ascending (map call_key (calls_of [kvs "b" ""; kvs "a" ""])).
Proof.
  split; [apply some_request_ok|]. split; [apply calls_of_ascending, some_request_ok|]. split; [apply cq_sorted|].
  intros H. apply (C06_ascending_only_if _ _ _ (cq_sorted false [kvs "b" ""; kvs "a" ""])) in H; [|apply crate_request_calls, cq_sorted].
  inversion H as [|x y _ HF]. inversion HF as [|z w HB]. vm_compute in HB. congruence.
Qed.

(** ** C07 *)
Theorem C07_parameters : forall r l cs, crate_request r l -> makes_calls r cs ->
  call_params cs = l /\ call_params_enc cs = [].
Proof.
  intros r l cs H HM. rewrite (makes_calls_unique r cs (calls_of l) HM (crate_request_calls r l H)).
  split; [apply merge_params|apply merge_params_enc].
Qed.
Print Assumptions C07_parameters.

(** There are no other calls. *)
Theorem C07_nothing_else : forall r l cs, crate_request r l -> makes_calls r cs -> length cs = length l + 8.
Proof.
  intros r l cs H HM.
  assert (HL : forall cs, length cs = length (call_protos cs) + length (call_params cs) + length (call_params_enc cs)).
  { clear. induction cs as [|x cs IH]; [reflexivity|]. change (x :: cs) with ([x] ++ cs).
    rewrite call_protos_app, call_params_app, call_params_enc_app, !app_length, IH. destruct x; cbn; lia. }
  rewrite HL. destruct (C07_parameters r l cs H HM) as [-> ->]. rewrite (C05_protocol_calls r l cs H HM). cbn. lia.
Qed.
Print Assumptions C07_nothing_else.

(** Also for lists that are out of order. *)
Example C07_example : crate_request (AssertSorted false [kvs "z" "1"; kvs "a" "2"]) [kvs "z" "1"; kvs "a" "2"].
Proof. apply cq_sorted. Qed.

(** ** C08 *)
Theorem C08_unit : forall dbg (S : Serializer) (s : S), Request_unit S s = AssertSorted dbg [] S s.
Proof. intros. rewrite (unit_calls S s). symmetry. exact (AssertSorted_calls dbg [] S s). Qed.
Print Assumptions C08_unit.

Theorem C08_unit_list : forall dbg (S : Serializer) (s : S), Request_unit S s = Request_pl dbg [] S s.
Proof. exact C08_unit. Qed.
Print Assumptions C08_unit_list.

Theorem C08_none : forall dbg (S : Serializer) (s : S), Request_option None S s = AssertSorted dbg [] S s.
Proof. exact C08_unit. Qed.
Print Assumptions C08_none.

Theorem C08_some : forall r (S : Serializer) (s : S), Request_option (Some r) S s = r S s.
Proof. reflexivity. Qed.
Print Assumptions C08_some.

Theorem C08_ref : forall r (S : Serializer) (s : S), Request_ref r S s = r S s.
Proof. reflexivity. Qed.
Print Assumptions C08_ref.

Theorem C08_mut : forall r (S : Serializer) (s : S), Request_mut r S s = r S s.
Proof. reflexivity. Qed.
Print Assumptions C08_mut.

(** A debug build and a release build make the same calls. *)
Theorem C08_build_irrelevant : forall l (S : Serializer) (s : S), AssertSorted true l S s = AssertSorted false l S s.
Proof. intros. rewrite (AssertSorted_calls true l S s). symmetry. apply AssertSorted_calls. Qed.
Print Assumptions C08_build_irrelevant.

Example C08_example : Request_unit RecorderS Recorder_new
  = Ok [RCallback; RConsumerKey; RNonce; RSignatureMethod; RTimestamp; RToken; RVerifier; RVersion].
Proof. reflexivity. Qed.

(** ** C37 *)

(** The recorder holds exactly the calls, and panics only for a value that cannot be displayed. *)
Theorem C37_records : forall r cs h, makes_calls r cs ->
  (r RecorderS Recorder_new = Ok h <-> Forall displays_ok cs /\ h = map recorded cs).
Proof. exact recorder_exact. Qed.
Print Assumptions C37_records.

(** Records determine the calls up to how the values are displayed. *)
Theorem C37_records_distinguish : forall cs cs', Forall displays_ok cs -> Forall displays_ok cs' ->
  map recorded cs = map recorded cs' ->
  Forall2 (fun c c' => match c, c' with
    | CParam k v, CParam k' v' => k = k' /\ dtext v = dtext v'
    | CParamEnc k v, CParamEnc k' v' => k = k' /\ dtext v = dtext v'
    | CProto p, CProto p' => p = p'
    | _, _ => False end) cs cs'.
Proof.
  induction cs as [|c cs IH]; intros [|c' cs'] D D' E; try discriminate; constructor.
  - inversion E as [[E1 E2]]. clear - E1. destruct c as [| |[]], c' as [| |[]]; cbn in *; inversion E1; auto.
  - inversion E. inversion D. inversion D'. subst. auto.
Qed.
Print Assumptions C37_records_distinguish.

(** Comparing records. *)
Theorem C37_eq_spec : forall a b, record_eq a b = true <-> rec_text a = rec_text b.
Proof. exact record_eq_spec. Qed.
Print Assumptions C37_eq_spec.

Theorem C37_eq_equivalence :
  (forall a, record_eq a a = true)
  /\ (forall a b, record_eq a b = true -> record_eq b a = true)
  /\ (forall a b c, record_eq a b = true -> record_eq b c = true -> record_eq a c = true).
Proof.
  split; [|split].
  - intros a. now apply record_eq_spec.
  - intros a b H. apply record_eq_spec in H. apply record_eq_spec. congruence.
  - intros a b c H H'. apply record_eq_spec in H, H'. apply record_eq_spec. congruence.
Qed.
Print Assumptions C37_eq_equivalence.

(** The constant that lists the protocol records is what the unit request records. *)
Theorem C37_oauth_parameters : Request_unit RecorderS Recorder_new = Ok (map rec_text OAUTH_PARAMETERS).
Proof. reflexivity. Qed.
Print Assumptions C37_oauth_parameters.

(** Replaying. *)
Lemma replay_same : forall r cs h, makes_calls r cs -> r RecorderS Recorder_new = Ok h ->
  same_calls cs (map replayed h).
Proof.
  intros r cs h HM H. apply (recorder_exact r cs h HM) in H as [D ->].
  clear HM. induction cs as [|c cs IH]; [constructor|]. inversion D; subst.
  cbn [map]. constructor; [now apply replayed_same|]. now apply IH.
Qed.

Theorem C37_replay_form : forall r cs h out, makes_calls r cs -> r RecorderS Recorder_new = Ok h ->
  (to_form r = Ok out <-> to_form (replay h) = Ok out).
Proof. intros r cs h out HM H. eapply same_to_form; eauto using replay_calls, replay_same. Qed.
Print Assumptions C37_replay_form.

Theorem C37_replay_query : forall r cs h uri out, makes_calls r cs -> r RecorderS Recorder_new = Ok h ->
  (to_query uri r = Ok out <-> to_query uri (replay h) = Ok out).
Proof. intros r cs h uri out HM H. eapply same_to_query; eauto using replay_calls, replay_same. Qed.
Print Assumptions C37_replay_query.

(** Also for authorizations with a built-in method. *)
Theorem C37_replay_authorize : forall c e b name strict f r cs h method uri out,
  builtin (bd_signature_method b) name strict f ->
  makes_calls r cs -> Permutation (call_protos cs) all_protos -> r RecorderS Recorder_new = Ok h ->
  (Builder_authorize c e b method uri r = Ok out <-> Builder_authorize c e b method uri (replay h) = Ok out).
Proof.
  intros c e b name strict f r cs h method uri out HB HM HP H.
  eapply same_authorize; eauto using replay_calls, replay_same.
Qed.
Print Assumptions C37_replay_authorize.

Theorem C37_replay_record : forall r cs h, makes_calls r cs -> r RecorderS Recorder_new = Ok h ->
  replay h RecorderS Recorder_new = Ok h.
Proof.
  intros r cs h HM H. apply (recorder_exact _ _ _ (replay_calls h)).
  pose proof (replay_same r cs h HM H) as HS. apply (recorder_exact r cs h HM) in H as [D ->].
  split.
  - destruct (same_calls_fields _ _ HS) as [_ [_ [HD _]]]. now apply HD.
  - rewrite !map_map. apply map_ext. intros a. symmetry. apply recorded_replayed.
Qed.
Print Assumptions C37_replay_record.

(** For every serializer, user-defined ones included, that looks at the text of the values only and not at the
    pieces it is written in: replaying has the same outcome, panics included. *)
Definition text_only (S : Serializer) : Prop := forall (s : S) k v v', same_display v v' ->
  sr_parameter s k v = sr_parameter s k v' /\ sr_parameter_encoded s k v = sr_parameter_encoded s k v'.

Theorem C37_replay_any : forall (S : Serializer) (s : S) r cs h, text_only S -> makes_calls r cs ->
  r RecorderS Recorder_new = Ok h -> replay h S s = r S s.
Proof.
  intros S s r cs h HT HM H. apply (recorder_exact r cs h HM) in H as [D ->]. rewrite HM. unfold replay. f_equal. clear r HM.
  revert s D. induction cs as [|c cs IH]; intros s D; [reflexivity|]. inversion D as [|? ? D1 D2]; subst. cbn [map run_calls].
  assert (E : run_call (replayed (recorded c)) s = run_call c s).
  { assert (SD : forall v, dok v -> same_display (dstr (dtext v)) v).
    { intros v Hv. split; [apply dtext_dstr|]. unfold dok in Hv. rewrite Hv. reflexivity. }
    destruct c as [k v|k v|p]; cbn [recorded replayed run_call].
    - apply HT, SD, D1.
    - apply HT, SD, D1.
    - now destruct p. }
  rewrite E. destruct (run_call c s) as [s'|]; [|reflexivity]. cbn [rbind]. now apply IH.
Qed.
Print Assumptions C37_replay_any.

(** A serializer of that kind that is not of the crate: it keeps the total length of keys and values. *)
Definition LengthS : Serializer :=
  let proto (s : nat) := Ok s in
  let param (s : nat) (k : bytes) (v : disp) := if dfinal v then Ok (s + length k + length (dtext v)) else Panic PFmt in
  {| sr_st := nat; sr_out := nat; sr_parameter := param; sr_parameter_encoded := param;
     sr_oauth_callback := proto; sr_oauth_consumer_key := proto; sr_oauth_nonce := proto;
     sr_oauth_signature_method := proto; sr_oauth_timestamp := proto; sr_oauth_token := proto;
     sr_oauth_verifier := proto; sr_oauth_version := proto; sr_end := fun s => Ok s |}.
Example C37_any_example : text_only LengthS /\ (exists n, some_request LengthS 0 = Ok n /\ n > 5).
Proof.
  split; [|eexists; split; [vm_compute; reflexivity|lia]].
  intros s k v v' [E1 E2]. cbn. now rewrite E1, E2.
Qed.

Example C37_example : exists h, some_request RecorderS Recorder_new = Ok h
  /\ nth 3 h RNonce = RParameter (lit "oauth_m") (lit "x&y") /\ length h = 13.
Proof. eexists. split; [vm_compute; reflexivity|]. split; reflexivity. Qed.
