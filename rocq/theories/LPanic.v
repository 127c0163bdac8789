(** When an authorization panics, and with which message. *)
From Coq Require Import String.
From Coq Require Import Lia Arith Sorted Permutation.
From Verif Require Import Bytes Crypto Spec MFmt MPercent MSign MSerializer MRequest MCredentials MAuth MBuilder
  SpecFmt SpecCalls SpecCalls2 SpecAuth SpecBuild SpecForm
  LBytes LFmt LPercent LCrypto LTrace LAuth LSign LBuild LForm LReq LReq2.

Section Panics.
  Context {sg : Sign} {w : Writer}.
  Variables (c : cfg) (e : env).

  (** ** Options never change *)

  Lemma append_enc_static : forall (a b : Authorizer sg w) k v, append_to_header_encoded c a k v = Ok b ->
    same_static b a.
  Proof.
    intros a b k v H. unfold append_to_header_encoded in H.
    apply rbind_ok in H as [a1 [H1 H]]. apply rbind_ok in H as [a2 [H2 H]].
    apply check_static in H1 as [H1 _]. apply delim_static in H as [H _].
    assert (same_static a2 a1).
    { destruct (au_data a1); apply rbind_ok in H2 as [x [_ H2]]; inversion H2; constructor; reflexivity. }
    eauto using same_static_trans.
  Qed.

  Lemma append_static : forall (a b : Authorizer sg w) k f v, append_to_header c a k f v = Ok b ->
    same_static b a.
  Proof.
    intros a b k f v H. unfold append_to_header in H. apply rbind_ok in H as [a1 [H1 H2]].
    apply append_enc_static in H1. apply sign_static in H2 as [H2 _]. eauto using same_static_trans.
  Qed.

  Lemma run_call_options : forall x (a b : Authorizer sg w),
    run_call (S := AuthorizerS sg w c e) x a = Ok b -> au_options b = au_options a.
  Proof.
    assert (HA : forall (a b : Authorizer sg w) k v f,
      (a <- append_to_header_encoded c a k v ;; sign_step a f) = Ok b -> au_options b = au_options a).
    { intros a b k v f H. apply rbind_ok in H as [a1 [H1 H2]]. apply append_enc_static in H1.
      apply sign_static in H2 as [H2 _]. destruct H1, H2. congruence. }
    intros x a b H. destruct x as [k v|k v|p].
    - cbn [run_call sr_parameter AuthorizerS] in H. unfold au_parameter in H.
      apply rbind_ok in H as [a1 [H1 H]]. apply rbind_ok in H as [a2 [H2 H]].
      apply check_static in H1 as [[_ _ H1 _ _] _]. apply delim_static in H2 as [[_ _ H2 _ _] _].
      apply sign_static in H as [[_ _ H _ _] _]. congruence.
    - cbn [run_call sr_parameter_encoded AuthorizerS] in H. unfold au_parameter_encoded in H.
      apply rbind_ok in H as [a1 [H1 H]]. apply rbind_ok in H as [a2 [H2 H]].
      apply check_static in H1 as [[_ _ H1 _ _] _]. apply delim_static in H2 as [[_ _ H2 _ _] _].
      apply sign_static in H as [[_ _ H _ _] _]. congruence.
    - destruct p; cbn [run_call AuthorizerS sr_oauth_callback sr_oauth_consumer_key sr_oauth_nonce
        sr_oauth_signature_method sr_oauth_timestamp sr_oauth_token sr_oauth_verifier sr_oauth_version] in H.
      + unfold au_oauth_callback in H. destruct (op_callback (au_options a)); [|now inversion H].
        apply append_static in H as []. auto.
      + apply append_static in H as []. auto.
      + unfold au_oauth_nonce in H. destruct (sg_use_nonce (au_sign a)); [|now inversion H].
        destruct (op_nonce (au_options a)); [apply append_static in H as []; auto|].
        apply rbind_ok in H as [n [_ H]]. apply HA in H. exact H.
      + apply HA in H. exact H.
      + unfold au_oauth_timestamp in H. destruct (sg_use_timestamp (au_sign a)); [|now inversion H].
        destruct (op_timestamp (au_options a)); cbn [rbind] in H; [apply HA in H; exact H|].
        apply rbind_ok in H as [[t a1] [H1 H]]. apply rbind_ok in H1 as [n [_ H1]]. inversion H1; subst.
        apply HA in H. exact H.
      + unfold au_oauth_token in H. destruct (au_token a); [|now inversion H].
        apply append_static in H as []. auto.
      + unfold au_oauth_verifier in H. destruct (op_verifier (au_options a)); [|now inversion H].
        apply append_static in H as []. auto.
      + unfold au_oauth_version in H. destruct (op_version (au_options a)); [|now inversion H].
        apply HA in H. exact H.
  Qed.

  (** Without a clock and a configured timestamp, asking for one panics. *)
  Lemma timestamp_needed : forall cs (a b : Authorizer sg w),
    (forall s : sg, sg_use_timestamp s = true) ->
    run_calls (S := AuthorizerS sg w c e) cs a = Ok b -> In PTimestamp (call_protos cs) ->
    cf_std c = true \/ op_timestamp (au_options a) <> None.
  Proof.
    induction cs as [|x cs IH]; intros a b HU H HI; [destruct HI|].
    cbn [run_calls] in H. apply rbind_ok in H as [a1 [H1 H2]].
    change (x :: cs) with ([x] ++ cs) in HI. rewrite call_protos_app, in_app_iff in HI. destruct HI as [HI|HI].
    - destruct x as [| |p]; try destruct HI. cbn in H. subst p. 
      cbn [run_call AuthorizerS sr_oauth_timestamp] in H1. unfold au_oauth_timestamp in H1.
      rewrite HU in H1. destruct (op_timestamp (au_options a)); [right; congruence|left].
      apply rbind_ok in H1 as [[t a2] [H1 _]]. apply rbind_ok in H1 as [n [H1 _]].
      unfold get_current_timestamp in H1. destruct (cf_std c); [reflexivity|discriminate].
      destruct H.
    - rewrite <- (run_call_options x a a1 H1). eapply IH; eauto.
  Qed.

  (** ** The order check *)

  Lemma do_step_prev : forall st (a b : Authorizer sg w), do_step c st a = Ok b ->
    cf_alloc c && cf_debug c = true -> au_prev_key b = st_key st.
  Proof.
    unfold do_step. intros st a b H HX.
    apply rbind_ok in H as [a1 [H1 H]]. apply rbind_ok in H as [a2 [H2 H]].
    apply rbind_ok in H as [a3 [H3 H]].
    apply delim_static in H3 as [_ [_ [P3 _]]]. apply sign_static in H as [_ [_ [P4 _]]].
    unfold check_dictionary_order in H1. rewrite HX in H1. destruct (bleb _ _); inversion H1; subst a1.
    assert (au_prev_key a2 = st_key st).
    { destruct (st_show st); [apply show_static in H2 as [_ [_ [_ H2]]]; rewrite H2; reflexivity|].
      inversion H2. reflexivity. }
    congruence.
  Qed.

  Lemma do_steps_disorder : forall sts (a : Authorizer sg w) s', infallible w -> shows_ok sts ->
    run_scalls (au_sign a) (feeds (au_append_delim a) sts) = Ok s' ->
    cf_alloc c && cf_debug c = true -> ~ ascending (au_prev_key a :: map st_key sts) ->
    do_steps c sts a = Panic PDictOrder.
  Proof.
    induction sts as [|st sts IH]; intros a s' HW HS HR HX HO.
    - exfalso. apply HO. repeat constructor.
    - cbn [do_steps map] in *. destruct (bleb (au_prev_key a) (st_key st)) eqn:EB.
      + cbn [feeds] in HR. change (st_feed st :: feeds true sts) with ([st_feed st] ++ feeds true sts) in HR.
        rewrite app_assoc, run_scalls_app in HR. apply rbind_ok in HR as [s1 [HR1 HR2]].
        destruct (do_steps_complete c [st] a s1 HW) as [a1 H1].
        { intros k v Hk. apply (HS k v). unfold shown in *. cbn [flat_map] in *. rewrite app_nil_r in Hk.
          apply in_app_iff. now left. }
        { exact HR1. }
        { intros _. cbn [map]. constructor; [repeat constructor|]. repeat constructor. exact EB. }
        rewrite do_steps_one in H1. rewrite H1. cbn [rbind].
        pose proof (do_step_sign c _ _ _ H1) as [J1 J2]. rewrite HR1 in J1. inversion J1; subst s1.
        apply (IH a1 s'); auto.
        * now apply shows_ok_cons in HS.
        * rewrite J2. exact HR2.
        * rewrite (do_step_prev st a a1 H1 HX). intros HA. apply HO. now apply ascending_cons2.
      + unfold do_step, check_dictionary_order. rewrite HX, EB. reflexivity.
  Qed.
End Panics.

(** ** Whole authorizations, without assuming a clock *)

Section Exact.
  Variables (c : cfg) (e : env) (b : Builder) (name : bytes) (strict : bool)
    (f : bytes -> option bytes -> bytes -> option bytes).
  Hypothesis HF : signs_as (bd_signature_method b) name strict f.
  Let cf := conf_of name e b.

  Lemma go_needs_timestamp : forall (w : Writer) (data : Data w) method uri r cs out,
    makes_calls r cs -> In PTimestamp (call_protos cs) -> go c e b data method uri r = Ok out ->
    timestamp_available c cf.
  Proof.
    intros w data method uri r cs out HM HI H. unfold go in H. apply rbind_ok in H as [s1 [_ H]].
    rewrite (HM (AuthorizerS (sm_sign (bd_signature_method b)) w c e)) in H.
    apply rbind_ok in H as [a [H _]].
    apply timestamp_needed in H as [H|H]; auto; [left; auto|right; left; exact H|].
    intros s. apply (sa_flags _ _ _ _ HF).
  Qed.

  Lemma go_disorder : forall (w : Writer) (data : Data w) method uri r cs,
    infallible w -> makes_calls r cs -> NoDup (call_protos cs) -> timestamp_available c cf ->
    (strict = true \/ cf_debug c = true -> dok uri) -> ~ has_question (dtext uri) ->
    (strict = true -> Forall displays_ok cs) ->
    cf_alloc c = true -> cf_debug c = true -> ~ ascending (map fst (signed_fields cf cs)) ->
    go c e b data method uri r = Panic PDictOrder.
  Proof.
    intros w data method uri r cs HW HM HN HT V1 V2 V3 HA HD HO. unfold go.
    destruct (sa_start _ _ _ _ HF (cr_secret (bd_client b)) (option_map cr_secret (bd_token b)))
      as [s0 [T0 [T1 T2]]].
    destruct (T1 (start_calls method uri ++ feeds false (all_steps cf 0 0 cs))) as [sf [R1 _]].
    { intros HX. apply start_and_feeds_ok. auto. }
    rewrite run_scalls_app in R1. apply rbind_ok in R1 as [s1 [RS RF]].
    assert (HMS : make_sign c (bd_signature_method b) method uri (bd_client b) (bd_token b) = Ok s1).
    { apply make_sign_spec. split; [auto|]. exists s0. auto. }
    rewrite HMS. cbn [rbind].
    rewrite (HM (AuthorizerS (sm_sign (bd_signature_method b)) w c e)). cbn [sr_end AuthorizerS].
    pose proof (sa_steady _ _ _ _ HF) as HS.
    assert (HMt : matches e cf 0 0 (au_new (w := w) data s1 (bd_client b) (bd_token b) (bd_options b))).
    { apply (matches_new e cf data s1 (bd_client b) (bd_token b) (bd_options b) (fun _ => True)); auto. }
    etransitivity; [exact (run_calls_end c e (fun _ => True) cf HS HT cs 0 0 _ HMt I)|].
    rewrite (do_steps_disorder c (all_steps cf 0 0 cs)
               (au_new (w := w) data s1 (bd_client b) (bd_token b) (bd_options b)) sf HW
               (all_steps_shows_ok cf cs 0 0) RF); auto.
    - now rewrite HA, HD.
    - cbn [au_new au_prev_key]. rewrite all_steps_once, steps0_keys by auto. intros HX.
      apply HO, ascending_nil_cons. exact HX.
  Qed.

  Lemma go_question : forall (w : Writer) (data : Data w) method uri r,
    cf_debug c = true -> has_question (dtext uri) -> go c e b data method uri r = Panic PUriQuery.
  Proof.
    intros w data method uri r HD HQ. unfold go, make_sign. rewrite HD. unfold write_unwrap.
    rewrite question_run. apply contains_question_in in HQ. rewrite HQ. reflexivity.
  Qed.

  (** The full characterisation for [String] output. *)
  Lemma go_exact : forall (data : Data StringW) method uri r cs out,
    makes_calls r cs -> Permutation (call_protos cs) all_protos ->
    (go c e b data method uri r = Ok out <->
     timestamp_available c cf /\ valid_for strict c cf uri cs /\
     exists sig, f (client_secret b) (token_secret b) (hashed_text method (dtext uri) (signed_fields cf cs)) = Some sig
       /\ out = data_buf data ++ added_text data (wire_fields cf (call_protos cs)) sig).
  Proof.
    intros data method uri r cs out HM HP.
    assert (HN : NoDup (call_protos cs)).
    { eapply Permutation_NoDup; [apply Permutation_sym; eauto|]. repeat (constructor; [cbn; intuition discriminate|]). constructor. }
    assert (HI : In PTimestamp (call_protos cs)).
    { eapply Permutation_in; [apply Permutation_sym; eauto|]. cbn. tauto. }
    split.
    - intros H. pose proof (go_needs_timestamp _ _ _ _ _ _ _ HM HI H) as HT. split; auto.
      apply (go_string c e b name strict f HF HT) with (cs := cs) in H; auto.
    - intros [HT H]. apply (go_string c e b name strict f HF HT) with (cs := cs); auto.
  Qed.
End Exact.

(** ** Built-in methods *)

Lemma builtin_signs_as : forall sm name strict f, builtin sm name strict f -> signs_as sm name strict f.
Proof.
  intros sm name strict f H. destruct H.
  - apply HMAC_signs_as.
  - apply PLAINTEXT_signs_as.
  - apply RSA_signs_as.
  - apply RSA_ref_signs_as.
Qed.

(** ** Keys of signed fields *)

Lemma signed_keys_ascending : forall cf cs, ascending (map call_key cs) -> ascending (map fst (signed_fields cf cs)).
Proof.
  intros cf. induction cs as [|x cs IH]; intros H; [constructor|].
  inversion H as [|? ? H1 H2]; subst. specialize (IH H1).
  unfold signed_fields in *. cbn [flat_map]. rewrite map_app.
  assert (HK : forall f, In f (flat_map
    (fun c => match c with CParam k v => [(k, pct_encode (dtext v))] | CParamEnc k v => [(k, dtext v)]
      | CProto p => match sent cf 0 0 p with Some v => [(proto_key p, pct_encode v)] | None => [] end end) cs) ->
    bleb (call_key x) (fst f) = true).
  { intros f Hf. apply in_flat_map in Hf as [y [Hy Hf]]. rewrite Forall_forall in H2.
    replace (fst f) with (call_key y); [apply H2, in_map, Hy|].
    destruct y as [k v|k v|p]; cbn in *; try (destruct Hf as [<-|[]]; reflexivity).
    destruct (sent cf 0 0 p); [destruct Hf as [<-|[]]; reflexivity|destruct Hf]. }
  assert (HC : forall k v, k = call_key x -> ascending (map fst [(k, v) : pair] ++ map fst (flat_map
    (fun c => match c with CParam k v => [(k, pct_encode (dtext v))] | CParamEnc k v => [(k, dtext v)]
      | CProto p => match sent cf 0 0 p with Some v => [(proto_key p, pct_encode v)] | None => [] end end) cs))).
  { intros k v ->. cbn [map fst app]. constructor; auto. apply Forall_forall. intros y Hy.
    apply in_map_iff in Hy as [f [<- Hf]]. auto. }
  destruct x as [k v|k v|p]; [apply HC; reflexivity|apply HC; reflexivity|].
  destruct (sent cf 0 0 p); [apply HC; reflexivity|exact IH].
Qed.

(** If the parameters themselves are out of order, so are the signed fields. *)
Lemma signed_keys_ascending_inv : forall cf cs,
  ascending (map fst (signed_fields cf cs)) -> ascending (map fst (form_fields cs)).
Proof.
  intros cf. induction cs as [|x cs IH]; intros H; [constructor|].
  unfold signed_fields in H. cbn [flat_map] in H. rewrite map_app in H. apply ascending_app in H as [H1 [H2 H3]].
  specialize (IH H2).
  assert (HC : forall k, map fst (form_fields (x :: cs)) = k :: map fst (form_fields cs) ->
    In k (map fst (match x with CParam k v => [(k, pct_encode (dtext v))] | CParamEnc k v => [(k, dtext v)]
      | CProto p => match sent cf 0 0 p with Some v => [(proto_key p, pct_encode v)] | None => [] end end)) ->
    ascending (map fst (form_fields (x :: cs)))).
  { intros k -> HI. constructor; auto. apply Forall_forall. intros y Hy. apply H3 with (x := k); auto.
    apply in_map_iff in Hy as [g [<- Hg]]. apply in_map. unfold form_fields in Hg. apply in_flat_map in Hg as [z [Hz Hg]].
    apply in_flat_map. exists z. split; auto. destruct z; auto. destruct Hg. }
  destruct x as [k v|k v|p].
  - apply (HC k); auto. now left.
  - apply (HC k); auto. now left.
  - exact IH.
Qed.

Lemma map_fst_form_calls_of : forall l, map fst (form_fields (calls_of l)) = map fst l.
Proof. intros l. rewrite form_fields_calls_of, map_map. reflexivity. Qed.

Lemma calls_of_signed_order : forall cf l,
  ascending (map fst (signed_fields cf (calls_of l))) <-> ascending (map fst l).
Proof.
  intros cf l. split; intros H.
  - apply signed_keys_ascending_inv in H. now rewrite map_fst_form_calls_of in H.
  - now apply signed_keys_ascending, calls_of_ascending.
Qed.
