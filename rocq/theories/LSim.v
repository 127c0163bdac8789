(** A map between signature states that commutes with every method of [Sign] commutes with whole
    authorizations. *)
From Coq Require Import String.
From Coq Require Import Lia Arith.
From Verif Require Import Bytes Crypto Spec MFmt MPercent MSerializer MSign MRequest MCredentials MAuth MBuilder
  SpecCalls SpecAuth SpecBuild SpecSign LBytes LFmt LTrace LBuild LBuf.

Record sign_steps (s1 s2 : Sign) (g : s1 -> s2) : Prop := {
  sm_step : forall s x, run_scall (g s) x = rmap g (run_scall s x);
  sm_name : forall s, sg_name (g s) = sg_name s;
  sm_use_nonce : forall s, sg_use_nonce (g s) = sg_use_nonce s;
  sm_use_timestamp : forall s, sg_use_timestamp (g s) = sg_use_timestamp s;
}.

Record sign_morphism (s1 s2 : Sign) (g : s1 -> s2) : Prop := {
  sm_steps :> sign_steps s1 s2 g;
  sm_end : forall s, sg_end (g s) = sg_end s;
}.

Section Sim.
  Variables (s1 s2 : Sign) (w : Writer) (c : cfg) (e : env) (g : s1 -> s2).
  Hypothesis HG : sign_steps s1 s2 g.
  Let A1 := Authorizer s1 w.
  Let A2 := Authorizer s2 w.

  Definition lift (a : A1) : A2 :=
    {| au_consumer_key := au_consumer_key a; au_token := au_token a; au_options := au_options a;
       au_data := au_data a; au_sign := g (au_sign a); au_append_delim := au_append_delim a;
       au_prev_key := au_prev_key a; au_draws := au_draws a; au_ticks := au_ticks a |}.

  Lemma check_lift : forall (a : A1) k, check_dictionary_order c (lift a) k = rmap lift (check_dictionary_order c a k).
  Proof.
    intros a k. unfold check_dictionary_order. cbn [lift au_prev_key].
    destruct (cf_alloc c && cf_debug c); [|reflexivity]. destruct (bleb (au_prev_key a) k); reflexivity.
  Qed.

  Lemma delim_lift : forall a : A1, sign_delimiter (lift a) = rmap lift (sign_delimiter a).
  Proof.
    intros a. unfold sign_delimiter. cbn [lift au_append_delim au_sign].
    destruct (au_append_delim a); [|reflexivity].
    apply rbind_rmap with (g := g); [exact (sm_step _ _ _ HG (au_sign a) SDelim)|reflexivity].
  Qed.

  Lemma step_lift : forall (a : A1) f1 f2, (forall s, f2 (g s) = rmap g (f1 s)) ->
    sign_step (lift a) f2 = rmap lift (sign_step a f1).
  Proof.
    intros a f1 f2 H. unfold sign_step. cbn [lift au_sign]. apply rbind_rmap with (g := g); [apply H|reflexivity].
  Qed.

  Lemma append_enc_lift : forall (a : A1) k v,
    append_to_header_encoded c (lift a) k v = rmap lift (append_to_header_encoded c a k v).
  Proof.
    intros a k v. unfold append_to_header_encoded. apply rbind_rmap with (g := lift); [apply check_lift|].
    intros a1. apply rbind_rmap with (g := lift); [|apply delim_lift].
    change (au_data (lift a1)) with (au_data a1).
    destruct (au_data a1) as [h|u].
    - apply rbind_rmap with (g := fun x => x); [destruct (write_unwrap _ h); reflexivity|reflexivity].
    - apply rbind_rmap with (g := fun x => x); [destruct (ue_parameter_encoded u k v); reflexivity|reflexivity].
  Qed.

  Lemma append_lift : forall (a : A1) k f1 f2 v, (forall s d, f2 (g s) d = rmap g (f1 s d)) ->
    append_to_header c (lift a) k f2 v = rmap lift (append_to_header c a k f1 v).
  Proof.
    intros a k f1 f2 v H. unfold append_to_header. apply rbind_rmap with (g := lift); [apply append_enc_lift|].
    intros. apply step_lift. intros s. apply H.
  Qed.

  Lemma call_lift : forall x (a : A1),
    run_call (S := AuthorizerS s2 w c e) x (lift a) = rmap lift (run_call (S := AuthorizerS s1 w c e) x a).
  Proof.
    pose proof (sm_step _ _ _ HG) as HS.
    assert (HE : forall (a : A1) k v f1 f2, (forall s, f2 (g s) = rmap g (f1 s)) ->
      (a1 <- append_to_header_encoded c (lift a) k v ;; sign_step a1 f2)
      = rmap lift (a1 <- append_to_header_encoded c a k v ;; sign_step a1 f1)).
    { intros a k v f1 f2 H. apply rbind_rmap with (g := lift); [apply append_enc_lift|]. intros. now apply step_lift. }
    assert (HK : forall (a : A1) k f1 f2, (forall s, f2 (g s) = rmap g (f1 s)) ->
      (a1 <- check_dictionary_order c (lift a) k ;; a2 <- sign_delimiter a1 ;; sign_step a2 f2)
      = rmap lift (a1 <- check_dictionary_order c a k ;; a2 <- sign_delimiter a1 ;; sign_step a2 f1)).
    { intros a k f1 f2 H. apply rbind_rmap with (g := lift); [apply check_lift|]. intros a1.
      apply rbind_rmap with (g := lift); [apply delim_lift|]. intros. now apply step_lift. }
    intros x a. destruct x as [k v|k v|[]]; cbn [run_call AuthorizerS sr_parameter sr_parameter_encoded sr_oauth_callback
      sr_oauth_consumer_key sr_oauth_nonce sr_oauth_signature_method sr_oauth_timestamp sr_oauth_token
      sr_oauth_verifier sr_oauth_version].
    - apply HK. intros s. exact (HS s (SParam k (DoublePercentEncode v))).
    - apply HK. intros s. exact (HS s (SParam k (PercentEncode v))).
    - unfold au_oauth_callback. change (au_options (lift a)) with (au_options a).
      destruct (op_callback (au_options a)); [|reflexivity]. apply append_lift. intros s d. exact (HS s (SCallback d)).
    - apply append_lift. intros s d. exact (HS s (SConsumerKey d)).
    - unfold au_oauth_nonce. change (au_options (lift a)) with (au_options a).
      change (au_sign (lift a)) with (g (au_sign a)). rewrite (sm_use_nonce _ _ _ HG).
      destruct (sg_use_nonce (au_sign a)); [|reflexivity]. destruct (op_nonce (au_options a)).
      { apply append_lift. intros s d. exact (HS s (SNonce d)). }
      change (au_draws (lift a)) with (au_draws a). destruct (gen_nonce (draw e (au_draws a))) as [n|]; [|reflexivity].
      cbn [rbind]. apply (HE (with_draw a)). intros s. exact (HS s (SNonce (dstr n))).
    - unfold au_oauth_signature_method. change (au_sign (lift a)) with (g (au_sign a)). rewrite (sm_name _ _ _ HG).
      apply HE. intros s. exact (HS s SSignatureMethod).
    - unfold au_oauth_timestamp. change (au_options (lift a)) with (au_options a).
      change (au_sign (lift a)) with (g (au_sign a)). rewrite (sm_use_timestamp _ _ _ HG).
      destruct (sg_use_timestamp (au_sign a)); [|reflexivity]. destruct (op_timestamp (au_options a)) as [t|]; cbn [rbind].
      + apply HE. intros s. exact (HS s (STimestamp t)).
      + change (au_ticks (lift a)) with (au_ticks a).
        destruct (get_current_timestamp c (env_clock e (au_ticks a))) as [t|]; [|reflexivity]. cbn [rbind].
        apply (HE (with_tick a)). intros s. exact (HS s (STimestamp t)).
    - unfold au_oauth_token. change (au_token (lift a)) with (au_token a).
      destruct (au_token a); [|reflexivity]. apply append_lift. intros s d. exact (HS s (SToken d)).
    - unfold au_oauth_verifier. change (au_options (lift a)) with (au_options a).
      destruct (op_verifier (au_options a)); [|reflexivity]. apply append_lift. intros s d. exact (HS s (SVerifier d)).
    - unfold au_oauth_version. change (au_options (lift a)) with (au_options a).
      destruct (op_version (au_options a)); [|reflexivity]. apply HE. intros s. exact (HS s SVersion).
  Qed.

  Lemma calls_lift : forall cs (a : A1),
    run_calls (S := AuthorizerS s2 w c e) cs (lift a) = rmap lift (run_calls (S := AuthorizerS s1 w c e) cs a).
  Proof.
    induction cs as [|x cs IH]; intros a; [reflexivity|]. cbn [run_calls].
    apply rbind_rmap with (g := lift); [apply call_lift|exact IH].
  Qed.

  Lemma end_lift : sign_morphism s1 s2 g -> forall a : A1, au_end (lift a) = au_end a.
  Proof.
    intros HM a. unfold au_end. cbn [lift au_data au_sign]. now rewrite (sm_end _ _ _ HM).
  Qed.
End Sim.

Lemma go_morphism : forall m1 m2 (g : sm_sign m1 -> sm_sign m2), sign_morphism _ _ g ->
  (forall cs ts, sm_sign_with m2 cs ts = rmap g (sm_sign_with m1 cs ts)) ->
  forall c e b (w : Writer) (data : Data w) method uri r cs, makes_calls r cs ->
  go c e (with_method m2 b) data method uri r = go c e (with_method m1 b) data method uri r.
Proof.
  intros m1 m2 g HG HS c e b w data method uri r cs HM. unfold go.
  cbn [with_method bd_signature_method bd_client bd_token bd_options].
  assert (HMS : make_sign c m2 method uri (bd_client b) (bd_token b) = rmap g (make_sign c m1 method uri (bd_client b) (bd_token b))).
  { unfold make_sign. destruct (if cf_debug c then _ else _); [|reflexivity]. cbn [rbind].
    apply rbind_rmap with (g := g); [apply HS|]. intros s.
    apply rbind_rmap with (g := g); [exact (sm_step _ _ _ HG s (SMethod method))|]. intros s'.
    exact (sm_step _ _ _ HG s' (SUri (PercentEncode uri))). }
  rewrite HMS. destruct (make_sign c m1 method uri (bd_client b) (bd_token b)) as [s|]; [|reflexivity]. cbn [rmap rbind].
  rewrite (HM (AuthorizerS (sm_sign m2) w c e)), (HM (AuthorizerS (sm_sign m1) w c e)).
  pose proof (calls_lift _ _ w c e g HG cs (au_new data s (bd_client b) (bd_token b) (bd_options b))) as HC.
  change (lift _ _ w g (au_new data s (bd_client b) (bd_token b) (bd_options b)))
    with (au_new data (g s) (bd_client b) (bd_token b) (bd_options b)) in HC.
  rewrite HC. cbn [sr_end AuthorizerS].
  destruct (run_calls (S := AuthorizerS (sm_sign m1) w c e) cs _) as [a|]; [|reflexivity]. cbn [rmap rbind].
  apply end_lift, HG.
Qed.

Lemma morphism_outputs : forall m1 m2 (g : sm_sign m1 -> sm_sign m2), sign_morphism _ _ g ->
  (forall cs ts, sm_sign_with m2 cs ts = rmap g (sm_sign_with m1 cs ts)) -> same_outputs m1 m2.
Proof.
  intros m1 m2 g HG HS c e b method r cs HM.
  assert (H : forall (w : Writer) (data : Data w) uri,
    go c e (with_method m1 b) data method uri r = go c e (with_method m2 b) data method uri r)
    by (intros; symmetry; eapply go_morphism; eauto).
  split; [|split; [|split; [|split]]]; intros.
  - rewrite !authorize_go. exact (H StringW _ _).
  - rewrite !to_form_go. exact (H StringW _ _).
  - rewrite !to_query_go. apply H.
  - rewrite !authorize_with_buf_go. destruct (write_unwrap (dstr (lit "OAuth ")) buf); [apply H|reflexivity].
  - rewrite !to_form_with_buf_go. apply H.
Qed.
