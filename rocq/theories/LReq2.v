(** Uniqueness of call sequences, recorder, equivalence of calls. *)
From Coq Require Import String.
From Coq Require Import Lia Arith Sorted Permutation.
From Verif Require Import Bytes Crypto Spec MFmt MPercent MSign MSerializer MRequest MCredentials MAuth MBuilder
  SpecFmt SpecCalls SpecCalls2 SpecAuth SpecBuild SpecForm
  LBytes LFmt LPercent LTrace LAuth LSign LBuild LForm LReq.

(** A serializer that collects the calls. *)
Definition CollectS : Serializer :=
  {| sr_st := list call; sr_out := list call;
     sr_parameter := fun h k v => Ok (h ++ [CParam k v]);
     sr_parameter_encoded := fun h k v => Ok (h ++ [CParamEnc k v]);
     sr_oauth_callback := fun h => Ok (h ++ [CProto PCallback]);
     sr_oauth_consumer_key := fun h => Ok (h ++ [CProto PConsumerKey]);
     sr_oauth_nonce := fun h => Ok (h ++ [CProto PNonce]);
     sr_oauth_signature_method := fun h => Ok (h ++ [CProto PSignatureMethod]);
     sr_oauth_timestamp := fun h => Ok (h ++ [CProto PTimestamp]);
     sr_oauth_token := fun h => Ok (h ++ [CProto PToken]);
     sr_oauth_verifier := fun h => Ok (h ++ [CProto PVerifier]);
     sr_oauth_version := fun h => Ok (h ++ [CProto PVersion]);
     sr_end := fun h => Ok h |}.

Lemma collect_run : forall cs (h : CollectS), run_calls cs h = Ok ((h ++ cs) : CollectS).
Proof.
  induction cs as [|c cs IH]; intros h; [cbn; now rewrite app_nil_r|].
  cbn [run_calls]. assert (E : run_call (S := CollectS) c h = Ok ((h ++ [c]) : CollectS)).
  { destruct c as [| |[]]; reflexivity. }
  rewrite E. cbn [rbind]. rewrite IH. f_equal. now rewrite <- app_assoc.
Qed.

Lemma makes_calls_unique : forall r cs cs', makes_calls r cs -> makes_calls r cs' -> cs = cs'.
Proof.
  intros r cs cs' H H'. specialize (H CollectS []). specialize (H' CollectS []).
  rewrite H in H'. rewrite !collect_run in H'. cbn in H'. congruence.
Qed.

Lemma crate_request_calls : forall r l, crate_request r l -> makes_calls r (calls_of l).
Proof.
  intros r l H. induction H.
  - exact unit_calls.
  - intros S s. exact (unit_calls S s).
  - intros S s. exact (IHcrate_request S s).
  - intros S s. exact (IHcrate_request S s).
  - intros S s. exact (IHcrate_request S s).
  - apply AssertSorted_calls.
  - apply AssertSorted_calls.
Qed.

(** ** Recorder *)

Lemma recorder_run : forall cs (h : RecorderS) h',
  run_calls cs h = Ok h' <-> Forall displays_ok cs /\ h' = h ++ map recorded cs.
Proof.
  induction cs as [|c cs IH]; intros h h'.
  - cbn. split; [intros H; inversion H; split; [constructor|now rewrite app_nil_r]|].
    intros [_ ->]. now rewrite app_nil_r.
  - cbn [run_calls map]. rewrite Forall_cons_iff.
    assert (HC : forall x : RecorderS, run_call c h = Ok x <-> displays_ok c /\ x = h ++ [recorded c]).
    { intros x. destruct c as [k v|k v|p].
      - cbn [run_call sr_parameter RecorderS displays_ok recorded]. split.
        + intros H. apply rbind_ok in H as [s [H1 H2]]. apply to_string_inv in H1 as [D ->]. inversion H2. auto.
        + intros [D ->]. rewrite to_string_ok by auto. reflexivity.
      - cbn [run_call sr_parameter_encoded RecorderS displays_ok recorded]. split.
        + intros H. apply rbind_ok in H as [s [H1 H2]]. apply to_string_inv in H1 as [D ->]. inversion H2. auto.
        + intros [D ->]. rewrite to_string_ok by auto. reflexivity.
      - destruct p; cbn; (split; [intros H; inversion H; auto|intros [_ ->]; reflexivity]). }
    split.
    + intros H. apply rbind_ok in H as [x [H1 H2]]. apply HC in H1 as [D ->]. apply IH in H2 as [D2 ->].
      split; auto. now rewrite <- app_assoc.
    + intros [[D1 D2] ->]. rewrite (proj2 (HC (h ++ [recorded c])) (conj D1 eq_refl)). cbn [rbind].
      apply IH. split; auto. now rewrite <- app_assoc.
Qed.

Lemma recorder_exact : forall r cs h, makes_calls r cs ->
  (r RecorderS Recorder_new = Ok h <-> Forall displays_ok cs /\ h = map recorded cs).
Proof.
  intros r cs h HM. rewrite (HM RecorderS). split.
  - intros H. apply rbind_ok in H as [x [H1 H2]]. apply recorder_run in H1 as [D ->]. inversion H2. auto.
  - intros [D ->]. rewrite (proj2 (recorder_run cs Recorder_new _) (conj D eq_refl)). reflexivity.
Qed.

Lemma record_eq_spec : forall a b, record_eq a b = true <-> rec_text a = rec_text b.
Proof.
  assert (HV : forall k1 v1 k2 v2,
    bseqb k1 k2 && match fmt_cmp v1 v2 with Eq => true | _ => false end = true <-> k1 = k2 /\ dtext v1 = dtext v2).
  { intros. unfold fmt_cmp. rewrite andb_true_iff, bseqb_eq, <- (bcmp_eq_iff (dtext v1)).
    destruct (bcmp (dtext v1) (dtext v2)); intuition discriminate. }
  intros a b. destruct a, b; cbn [record_eq rec_text]; try rewrite HV;
    (split; [first [discriminate | intros [-> ->]; reflexivity | reflexivity]
            | first [discriminate | intros H; inversion H; auto]]).
Qed.

Lemma replayed_same : forall c, displays_ok c -> same_call c (replayed (recorded c)).
Proof.
  intros [k v|k v|p] D; cbn [recorded replayed].
  - constructor. split; [now rewrite dtext_dstr|]. rewrite D. reflexivity.
  - constructor. split; [now rewrite dtext_dstr|]. rewrite D. reflexivity.
  - destruct p; constructor.
Qed.

Lemma recorded_replayed : forall r, recorded (replayed r) = r.
Proof. intros []; cbn [replayed recorded]; rewrite ?dtext_dstr; reflexivity. Qed.

Lemma replay_calls : forall h, makes_calls (replay h) (map replayed h).
Proof. intros h S s. reflexivity. Qed.

(** ** Equivalent calls *)

Lemma same_call_fields : forall x y, same_call x y ->
  form_fields [x] = form_fields [y] /\ (forall cf, signed_fields cf [x] = signed_fields cf [y])
  /\ (displays_ok x <-> displays_ok y) /\ call_key x = call_key y
  /\ call_protos [x] = call_protos [y].
Proof.
  intros x y H. destruct H as [k v v' [E F]|k v v' [E F]|k v v' E F|k v v' E F|p];
    cbn [form_fields signed_fields call_protos flat_map app displays_ok call_key]; unfold dok;
    try rewrite E; try rewrite F; repeat split; auto; tauto.
Qed.

Lemma same_calls_fields : forall cs cs', same_calls cs cs' ->
  form_fields cs = form_fields cs' /\ (forall cf, signed_fields cf cs = signed_fields cf cs')
  /\ (Forall displays_ok cs <-> Forall displays_ok cs') /\ map call_key cs = map call_key cs'
  /\ call_protos cs = call_protos cs'.
Proof.
  intros cs cs' H. induction H as [|x y cs cs' H H1 IH]; [repeat split; auto; tauto|].
  destruct IH as [I1 [I2 [I3 [I4 I5]]]].
  destruct (same_call_fields x y H) as [J1 [J2 [J3 [J4 J5]]]].
  split; [|split; [|split; [|split]]].
  - change (form_fields (x :: cs)) with (form_fields ([x] ++ cs)). change (form_fields (y :: cs')) with (form_fields ([y] ++ cs')).
    unfold form_fields in *. rewrite !flat_map_app. congruence.
  - intros cf. change (x :: cs) with ([x] ++ cs). change (y :: cs') with ([y] ++ cs').
    specialize (I2 cf). specialize (J2 cf). unfold signed_fields in *. rewrite !flat_map_app. congruence.
  - rewrite !Forall_cons_iff. tauto.
  - cbn [map]. congruence.
  - change (x :: cs) with ([x] ++ cs). change (y :: cs') with ([y] ++ cs'). rewrite !call_protos_app. congruence.
Qed.

Lemma same_call_sym : forall x y, same_call x y -> same_call y x.
Proof.
  intros x y H. destruct H; try (constructor; auto; fail).
  - destruct H. constructor. split; auto.
  - destruct H. constructor. split; auto.
Qed.

Lemma same_calls_sym : forall cs cs', same_calls cs cs' -> same_calls cs' cs.
Proof. intros cs cs' H. induction H; constructor; auto using same_call_sym. Qed.

Lemma same_to_form : forall r cs r' cs' out, makes_calls r cs -> makes_calls r' cs' -> same_calls cs cs' ->
  (to_form r = Ok out <-> to_form r' = Ok out).
Proof.
  intros r cs r' cs' out H H' HS. rewrite (to_form_exact r cs), (to_form_exact r' cs') by auto.
  destruct (same_calls_fields cs cs' HS) as [E1 [_ [E3 _]]]. now rewrite E1, E3.
Qed.

Lemma same_to_query : forall r cs r' cs' uri out, makes_calls r cs -> makes_calls r' cs' -> same_calls cs cs' ->
  (to_query uri r = Ok out <-> to_query uri r' = Ok out).
Proof.
  intros r cs r' cs' uri out H H' HS. rewrite (to_query_exact r cs), (to_query_exact r' cs') by auto.
  destruct (same_calls_fields cs cs' HS) as [E1 [_ [E3 _]]]. now rewrite E1, E3.
Qed.
