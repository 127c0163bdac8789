(** Authorizations with an arbitrary signature method. *)
From Coq Require Import String.
From Coq Require Import Lia Arith Sorted Permutation.
From Verif Require Import Bytes Crypto Spec MFmt MPercent MSerializer MSign MRequest MCredentials MAuth MBuilder
  SpecFmt SpecCalls SpecCalls2 SpecAuth SpecBuild SpecForm SpecServer SpecSign
  LBytes LFmt LPercent LTrace LAuth LSign LBuild LForm LBase LReq LReq2 LPanic LTop.

(** ** The calls are the documented ones *)

Lemma feed_of_0 : forall cf p v, feed_of cf 0 p v = proto_feed cf p v.
Proof. intros cf p v. destruct p; reflexivity. Qed.

Lemma steps0_feeds : forall cf cs, map st_feed (flat_map (steps0 cf) cs) = param_feeds cf cs.
Proof.
  intros cf. induction cs as [|x cs IH]; [reflexivity|]. unfold param_feeds in *. cbn [flat_map].
  rewrite map_app, IH. f_equal. destruct x as [k v|k v|p]; try reflexivity.
  unfold steps0. cbn [steps_of]. destruct (sent cf 0 0 p); [|reflexivity]. cbn [map st_feed].
  now rewrite feed_of_0.
Qed.

Lemma feeds_delimited : forall sts,
  feeds false sts = delimited (map st_feed sts)
  /\ feeds true sts = flat_map (fun x => [SDelim; x]) (map st_feed sts).
Proof.
  assert (H2 : forall sts, feeds true sts = flat_map (fun x => [SDelim; x]) (map st_feed sts)).
  { induction sts as [|st sts IH]; [reflexivity|]. cbn [feeds map flat_map app]. now rewrite IH. }
  assert (H3 : forall x xs, delimited (x :: xs) = x :: flat_map (fun x => [SDelim; x]) xs).
  { intros x xs. revert x. induction xs as [|y xs IH]; intros x; [reflexivity|].
    change (delimited (x :: y :: xs)) with (x :: SDelim :: delimited (y :: xs)). rewrite IH. reflexivity. }
  intros sts. split; auto. destruct sts as [|st sts]; [reflexivity|].
  cbn [feeds map app]. rewrite H3, H2. reflexivity.
Qed.

Lemma documented : forall cf method uri cs, NoDup (call_protos cs) ->
  start_calls method uri ++ feeds false (all_steps cf 0 0 cs) = documented_calls cf method uri cs.
Proof.
  intros cf method uri cs HN. unfold documented_calls, start_calls. cbn [app]. do 2 f_equal.
  rewrite (proj1 (feeds_delimited _)), all_steps_once, steps0_feeds by auto. reflexivity.
Qed.

Definition with_std (c : cfg) : cfg := {| cf_debug := cf_debug c; cf_alloc := cf_alloc c; cf_std := true |}.

Section Std.
  Context {sg : Sign} {w : Writer}.
  Variables (c : cfg) (e : env).

  Lemma run_call_std : forall x (a b : Authorizer sg w),
    run_call (S := AuthorizerS sg w c e) x a = Ok b ->
    run_call (S := AuthorizerS sg w (with_std c) e) x a = Ok b.
  Proof.
    intros x a b H. destruct x as [k v|k v|p]; try exact H. destruct p; try exact H.
    cbn [run_call AuthorizerS sr_oauth_timestamp] in *. unfold au_oauth_timestamp in *.
    destruct (sg_use_timestamp (au_sign a)); [|exact H].
    destruct (op_timestamp (au_options a)); [exact H|].
    unfold get_current_timestamp in *. destruct (cf_std c); [exact H|discriminate].
  Qed.

  Lemma needs_clock : forall P un ut nm, steady P un ut nm -> forall cs (a b : Authorizer sg w),
    P (au_sign a) -> run_calls (S := AuthorizerS sg w c e) cs a = Ok b -> In PTimestamp (call_protos cs) ->
    cf_std c = true \/ op_timestamp (au_options a) <> None \/ ut = false.
  Proof.
    intros P un ut nm HS. induction cs as [|x cs IH]; intros a b HP H HI; [destruct HI|].
    cbn [run_calls] in H. apply rbind_ok in H as [a1 [H1 H2]].
    change (x :: cs) with ([x] ++ cs) in HI. rewrite call_protos_app, in_app_iff in HI. destruct HI as [HI|HI].
    - destruct x as [| |p]; [destruct HI..|]. destruct HI as [HI|[]]. subst p.
      cbn [run_call AuthorizerS sr_oauth_timestamp] in H1. unfold au_oauth_timestamp in H1.
      rewrite (sd_timestamp _ _ _ _ HS _ HP) in H1. destruct ut; [|auto].
      destruct (op_timestamp (au_options a)); [right; left; congruence|left].
      apply rbind_ok in H1 as [[t a2] [H1 _]]. apply rbind_ok in H1 as [n [H1 _]].
      unfold get_current_timestamp in H1. destruct (cf_std c); [reflexivity|discriminate].
    - rewrite <- (run_call_options c e x a a1 H1). eapply IH; eauto.
      pose (cf := {| cn_client := au_consumer_key a; cn_token := au_token a; cn_options := au_options a;
        cn_use_nonce := un; cn_use_timestamp := ut; cn_name := nm; cn_env := e |}).
      assert (HM : matches e cf (au_draws a) (au_ticks a) a) by (constructor; try reflexivity; apply HS; auto).
      apply run_call_std in H1.
      rewrite (call_steps (with_std c) e cf _ _ x a HM) in H1 by (left; reflexivity).
      apply (do_steps_steady (with_std c) P un ut nm HS) in H1; auto.
      unfold bump. destruct x as [| |p]; auto. destruct p; auto;
        [destruct (cn_use_nonce cf), (op_nonce (cn_options cf))|destruct (cn_use_timestamp cf), (op_timestamp (cn_options cf))]; auto.
  Qed.

  Lemma au_end_string : forall (a : Authorizer sg StringW) out, au_end a = Ok out <->
    exists d, sg_end (au_sign a) = Ok d /\ dok d /\
      out = data_buf (au_data a) ++ end_text (au_data a) (dtext d).
  Proof.
    intros a out. unfold au_end. destruct (au_data a) as [h|u]; cbn [data_buf end_text].
    - rewrite (write_unwrap_string _ h (dok_dstr _)). cbn [rbind]. split.
      + intros H. apply rbind_ok in H as [d [H1 H2]]. exists d. split; auto.
        apply write_unwrap_string_inv in H2 as [HD HE].
        apply dok_dseq_inv in HD as [_ HD]. apply dok_dseq_inv in HD as [HD _]. split; auto.
        rewrite HE, !dtext_dseq, !dtext_dstr by auto using dok_dstr, dok_dseq. now rewrite <- app_assoc.
      + intros [d [H1 [HD ->]]]. rewrite H1. cbn [rbind].
        rewrite write_unwrap_string by auto using dok_dstr, dok_dseq.
        rewrite !dtext_dseq, !dtext_dstr by auto using dok_dstr, dok_dseq. now rewrite <- app_assoc.
    - split.
      + intros H. apply rbind_ok in H as [d [H1 H]]. apply rbind_ok in H as [u' [H2 H]]. inversion H; subst out.
        exists d. split; auto. rewrite ue_enc_string in H2. unfold dok.
        destruct (dfinal d) as [[]|]; try discriminate. split; auto. inversion H2. reflexivity.
      + intros [d [H1 [HD ->]]]. rewrite H1. cbn [rbind]. rewrite ue_enc_string. unfold dok in HD. rewrite HD.
        reflexivity.
  Qed.
End Std.

Lemma data_rel_string : forall (d d' : Data StringW) fields sig, data_rel d d' fields ->
  data_buf d' ++ end_text d' sig = data_buf d ++ added_text d fields sig.
Proof.
  intros d d' fields sig H. destruct d as [h|u]; cbn [data_rel] in H.
  - destruct H as [h' [ch [-> [W C]]]]. apply writes_ok_string in W. cbn [data_buf end_text added_text].
    rewrite W, C. now rewrite <- app_assoc.
  - destruct H as [x [ch [-> [W C]]]]. apply writes_ok_string in W. cbn [data_buf end_text added_text ue_data ue_next_append].
    rewrite W, C, ue_added_app. now rewrite <- app_assoc.
Qed.

Section Any.
  Variables (c : cfg) (e : env) (b : Builder) (un ut : bool) (name : bytes).
  Hypothesis HF : constant_flags (bd_signature_method b) un ut name.
  Let cf := conf_with un ut name e b.
  Variables (r : Request) (cs : list call).
  Hypothesis HM : makes_calls r cs.
  Hypothesis HP : Permutation (call_protos cs) all_protos.

  Lemma any_nodup : NoDup (call_protos cs).
  Proof. eapply Permutation_NoDup; [apply Permutation_sym, HP|apply all_protos_nodup]. Qed.

  (** The signature state and text after a run. *)
  Definition signs_to (method : bytes) (uri : disp) (d : disp) : Prop :=
    exists s0 sf, sm_sign_with (bd_signature_method b) (client_secret b) (token_secret b) = Ok s0
      /\ run_scalls s0 (documented_calls cf method uri cs) = Ok sf /\ sg_end sf = Ok d.

  (** Soundness for every writer. *)
  Lemma any_sound : forall (w : Writer) (data : Data w) method uri out,
    go c e b data method uri r = Ok out ->
    timestamp_available c cf /\ (cf_debug c = true -> ~ has_question (dtext uri) /\ dok uri)
    /\ (cf_alloc c = true -> cf_debug c = true -> ascending (map fst (signed_fields cf cs)))
    /\ exists d, signs_to method uri d
       /\ (dok d -> propagates d -> exists ch, writes_ok (data_buf data) ch out
             /\ concat ch = added_text data (wire_fields cf (call_protos cs)) (dtext d)).
  Proof.
    intros w data method uri out H. pose proof any_nodup as HN. unfold go in H.
    apply rbind_ok in H as [s1 [H1 H2]]. apply make_sign_spec in H1 as [HQ [s0 [HS0 HS1]]].
    rewrite (HM (AuthorizerS (sm_sign (bd_signature_method b)) w c e)) in H2. cbn [sr_end AuthorizerS] in H2.
    destruct HF as [P [P0 [P1 P2]]].
    assert (HS : steady P un ut name).
    { constructor; auto; intros s Hs; apply P2; auto. }
    assert (HP1 : P s1).
    { eapply (run_scalls_steady P _ _ _ HS); [|exact HS1]. eapply P0; eauto. }
    assert (HT : timestamp_available c cf).
    { apply rbind_ok in H2 as [b1 [H2 _]].
      apply (needs_clock c e P un ut name HS cs _ b1) in H2; auto.
      rewrite HP. cbn. tauto. }
    split; auto. split; auto.
    apply (run_sound c e cf data s1 (bd_client b) (bd_token b) (bd_options b) P) in H2
      as [sf [d [R1 [R2 [R3 R4]]]]]; auto.
    split; auto. exists d. split; auto. exists s0, sf. split; auto. split; auto.
    rewrite <- documented by auto. rewrite run_scalls_app, HS1. exact R1.
  Qed.

  (** With a [String], exactly. *)
  Lemma any_exact : forall (data : Data StringW) method uri out,
    go c e b data method uri r = Ok out <->
    timestamp_available c cf /\ (cf_debug c = true -> ~ has_question (dtext uri) /\ dok uri)
    /\ (cf_alloc c = true -> cf_debug c = true -> ascending (map fst (signed_fields cf cs)))
    /\ exists d, signs_to method uri d /\ dok d
       /\ out = data_buf data ++ added_text data (wire_fields cf (call_protos cs)) (dtext d).
  Proof.
    intros data method uri out. pose proof any_nodup as HN. split.
    - intros H. pose proof (any_sound _ _ _ _ _ H) as [HT [HQ [HO _]]]. split; auto. split; auto. split; auto.
      unfold go in H. apply rbind_ok in H as [s1 [H1 H2]]. apply make_sign_spec in H1 as [_ [s0 [HS0 HS1]]].
      rewrite (HM (AuthorizerS (sm_sign (bd_signature_method b)) StringW c e)) in H2. cbn [sr_end AuthorizerS] in H2.
      destruct HF as [P [P0 [P1 P2]]].
      assert (HS : steady P un ut name) by (constructor; auto; intros s Hs; apply P2; auto).
      assert (HP1 : P s1) by (eapply (run_scalls_steady P _ _ _ HS); [|exact HS1]; eapply P0; eauto).
      assert (HMt : matches e cf 0 0 (au_new (w := StringW) data s1 (bd_client b) (bd_token b) (bd_options b)))
        by (apply (matches_new e cf data s1 _ _ _ P); auto).
      assert (E : (s <- run_calls (S := AuthorizerS (sm_sign (bd_signature_method b)) StringW c e) cs
                   (au_new (w := StringW) data s1 (bd_client b) (bd_token b) (bd_options b)) ;; au_end s)
                  = (b0 <- do_steps c (all_steps cf 0 0 cs) (au_new (w := StringW) data s1 (bd_client b) (bd_token b) (bd_options b)) ;; au_end b0))
        by exact (run_calls_end c e P cf HS HT cs 0 0 _ HMt HP1).
      pose proof (eq_trans (eq_sym E) H2) as H3. clear H2 E.
      apply rbind_ok in H3 as [a1 [H3 H4]].
      apply do_steps_sound in H3 as [J1 [J2 _]]; [|apply all_steps_shows_ok].
      cbn [au_new au_sign au_append_delim au_data] in J1, J2. rewrite all_steps_once, shown_text_once in J2 by auto.
      apply au_end_string in H4 as [d [K1 [K2 K3]]]. exists d. split; [|split; auto].
      + exists s0, (au_sign a1). split; auto. split; auto.
        rewrite <- documented by auto. rewrite run_scalls_app, HS1. exact J1.
      + rewrite K3. now apply data_rel_string.
    - intros [HT [HQ [HO [d [[s0 [sf [S0 [S1 S2]]]] [HD ->]]]]]].
      rewrite <- documented in S1 by auto. rewrite run_scalls_app in S1. apply rbind_ok in S1 as [s1 [RS RF]].
      destruct HF as [P [P0 [P1 P2]]].
      assert (HS : steady P un ut name) by (constructor; auto; intros s Hs; apply P2; auto).
      assert (HP1 : P s1) by (eapply (run_scalls_steady P _ _ _ HS); [|exact RS]; eapply P0; eauto).
      unfold go.
      assert (HMS : make_sign c (bd_signature_method b) method uri (bd_client b) (bd_token b) = Ok s1).
      { apply make_sign_spec. split; auto. exists s0. auto. }
      rewrite HMS. cbn [rbind].
      rewrite (HM (AuthorizerS (sm_sign (bd_signature_method b)) StringW c e)). cbn [sr_end AuthorizerS].
      assert (HMt : matches e cf 0 0 (au_new (w := StringW) data s1 (bd_client b) (bd_token b) (bd_options b)))
        by (apply (matches_new e cf data s1 _ _ _ P); auto).
      etransitivity; [exact (run_calls_end c e P cf HS HT cs 0 0 _ HMt HP1)|].
      destruct (do_steps_complete c (all_steps cf 0 0 cs)
                  (au_new (w := StringW) data s1 (bd_client b) (bd_token b) (bd_options b)) sf infallible_string
                  (all_steps_shows_ok cf cs 0 0) RF) as [a1 Ha].
      { intros HX. apply andb_true_iff in HX as [HX1 HX2]. cbn [au_new au_prev_key].
        rewrite all_steps_once, steps0_keys by auto. apply ascending_nil_cons. auto. }
      rewrite Ha. cbn [rbind]. apply do_steps_sound in Ha as [J1 [J2 _]]; [|apply all_steps_shows_ok].
      cbn [au_new au_sign au_append_delim au_data] in J1, J2. rewrite all_steps_once, shown_text_once in J2 by auto.
      rewrite RF in J1. inversion J1; subst sf. apply au_end_string. exists d. split; auto. split; auto.
      symmetry. now apply data_rel_string.
  Qed.
End Any.

(** ** The crate's methods have constant flags *)

Lemma constant_any : forall sm un ut nm,
  (forall s : sm_sign sm, sg_use_nonce s = un /\ sg_use_timestamp s = ut /\ sg_name s = nm) ->
  constant_flags sm un ut nm.
Proof. intros sm un ut nm H. exists (fun _ => True). auto. Qed.

Lemma constant_builtin : forall sm name strict f, builtin sm name strict f -> constant_flags sm true true name.
Proof. intros sm name strict f H. apply constant_any. apply (sa_flags _ _ _ _ (builtin_signs_as _ _ _ _ H)). Qed.

Lemma constant_reveal : forall name, constant_flags (Reveal name) true true name.
Proof. intros. apply constant_any. intros s. repeat split. Qed.

Lemma constant_trace : forall un ut name fin, constant_flags (TraceMethod un ut name fin) un ut name.
Proof. intros. apply constant_any. intros s. repeat split. Qed.

Lemma constant_left : forall l R un ut nm, constant_flags l un ut nm -> constant_flags (Either_Left l R) un ut nm.
Proof.
  intros l R un ut nm [P [P0 [P1 P2]]].
  exists (fun s : sm_sign (Either_Left l R) => match s with inl s => P s | inr _ => False end). split; [|split].
  - intros cs ts s H. cbn in H. apply rbind_ok in H as [s0 [H1 H2]]. inversion H2; subst. eapply P0; eauto.
  - intros s x s' HP H. destruct s as [s|s]; [|destruct HP].
    destruct x; cbn [run_scall Either_Left sm_sign EitherSign sg_request_method sg_uri sg_parameter sg_delimiter
      sg_callback sg_consumer_key sg_nonce sg_signature_method sg_timestamp sg_token sg_verifier sg_version
      either_mut] in H; apply rbind_ok in H as [s1 [H1 H2]]; inversion H2; subst;
      try (eapply (P1 s (SMethod _) s1); [exact HP|exact H1]);
      try (eapply (P1 s (SUri _) s1); [exact HP|exact H1]);
      try (eapply (P1 s SDelim s1); [exact HP|exact H1]);
      try (eapply (P1 s (SParam _ _) s1); [exact HP|exact H1]);
      try (eapply (P1 s (SCallback _) s1); [exact HP|exact H1]);
      try (eapply (P1 s (SNonce _) s1); [exact HP|exact H1]);
      try (eapply (P1 s SSignatureMethod s1); [exact HP|exact H1]);
      try (eapply (P1 s (STimestamp _) s1); [exact HP|exact H1]);
      try (eapply (P1 s (SToken _) s1); [exact HP|exact H1]);
      try (eapply (P1 s (SVerifier _) s1); [exact HP|exact H1]);
      try (eapply (P1 s SVersion s1); [exact HP|exact H1]).
  - intros s HP. destruct s as [s|s]; [|destruct HP]. cbn. now apply P2.
Qed.

Lemma constant_right : forall L r un ut nm, constant_flags r un ut nm -> constant_flags (Either_Right L r) un ut nm.
Proof.
  intros L r un ut nm [P [P0 [P1 P2]]].
  exists (fun s : sm_sign (Either_Right L r) => match s with inr s => P s | inl _ => False end). split; [|split].
  - intros cs ts s H. cbn in H. apply rbind_ok in H as [s0 [H1 H2]]. inversion H2; subst. eapply P0; eauto.
  - intros s x s' HP H. destruct s as [s|s]; [destruct HP|].
    destruct x; cbn [run_scall Either_Right sm_sign EitherSign sg_request_method sg_uri sg_parameter sg_delimiter
      sg_callback sg_consumer_key sg_nonce sg_signature_method sg_timestamp sg_token sg_verifier sg_version
      either_mut] in H; apply rbind_ok in H as [s1 [H1 H2]]; inversion H2; subst;
      try (eapply (P1 s (SMethod _) s1); [exact HP|exact H1]);
      try (eapply (P1 s (SUri _) s1); [exact HP|exact H1]);
      try (eapply (P1 s SDelim s1); [exact HP|exact H1]);
      try (eapply (P1 s (SParam _ _) s1); [exact HP|exact H1]);
      try (eapply (P1 s (SCallback _) s1); [exact HP|exact H1]);
      try (eapply (P1 s (SNonce _) s1); [exact HP|exact H1]);
      try (eapply (P1 s SSignatureMethod s1); [exact HP|exact H1]);
      try (eapply (P1 s (STimestamp _) s1); [exact HP|exact H1]);
      try (eapply (P1 s (SToken _) s1); [exact HP|exact H1]);
      try (eapply (P1 s (SVerifier _) s1); [exact HP|exact H1]);
      try (eapply (P1 s SVersion s1); [exact HP|exact H1]).
  - intros s HP. destruct s as [s|s]; [destruct HP|]. cbn. now apply P2.
Qed.
