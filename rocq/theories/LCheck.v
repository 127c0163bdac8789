(** The checks made in debug builds only. *)
From Coq Require Import String.
From Coq Require Import Lia Arith Sorted Permutation.
From Verif Require Import Bytes Crypto Spec MFmt MPercent MSign MSerializer MRequest MCredentials MAuth MBuilder
  SpecFmt SpecCalls SpecCalls2 SpecAuth SpecBuild SpecForm SpecSign SpecPanic
  LBytes LFmt LPercent LCrypto LTrace LAuth LSign LBuild LForm LBase LReq LReq2 LPanic LTop LAny LBuf.

(** ** One family *)

Definition kind_data (k : kind) : res (Data (kind_writer k)) :=
  match k return res (Data (kind_writer k)) with
  | KAuthorize _ => Ok (Authorization (lit "OAuth " : StringW))
  | KForm _ => Ok (Urlencode ue_form)
  | KAuthorizeBuf w buf _ => h <- write_unwrap (dstr (lit "OAuth ")) buf ;; Ok (Authorization h)
  | KFormBuf w buf _ => Ok (Urlencode (ue_form_with_buf buf))
  | KQuery w show uri => Ok (Urlencode (ue_query uri))
  end.

Lemma run_go : forall c e b k method r,
  run c e b k method r = (d <- kind_data k ;; go c e b d method (kind_uri k) r).
Proof.
  intros c e b k method r. destruct k; cbn [run kind_data kind_uri rbind kind_writer].
  - apply authorize_go.
  - apply to_form_go.
  - rewrite authorize_with_buf_go. destruct (write_unwrap (dstr (lit "OAuth ")) buf); reflexivity.
  - apply to_form_with_buf_go.
  - apply to_query_go.
Qed.

Lemma kind_data_ok : forall k, takes_prefix k <-> exists d, kind_data k = Ok d.
Proof.
  intros []; cbn [takes_prefix kind_data]; try (split; [intros _; eexists; reflexivity|auto; fail]).
  split.
  - intros [h H]. rewrite H. eexists. reflexivity.
  - intros [d H]. apply rbind_ok in H as [h [H _]]. now exists h.
Qed.

(** ** The query check *)

Lemma make_sign_release : forall c sm method uri client token,
  (cf_debug c = true -> dok uri /\ ~ has_question (dtext uri)) ->
  make_sign c sm method uri client token = make_sign (release c) sm method uri client token.
Proof.
  intros c sm method uri client token H. unfold make_sign. cbn [release cf_debug].
  destruct (cf_debug c); [|reflexivity]. destruct (H eq_refl) as [HD HQ].
  destruct (question_check uri) as [_ HC]. rewrite HC by auto. reflexivity.
Qed.

Lemma go_no_alloc : forall std e b (w : Writer) (data : Data w) method uri r,
  dok uri -> ~ has_question (dtext uri) ->
  go {| cf_debug := true; cf_alloc := false; cf_std := std |} e b data method uri r
  = go {| cf_debug := false; cf_alloc := false; cf_std := std |} e b data method uri r.
Proof.
  intros std e b w data method uri r HD HQ. unfold go. rewrite make_sign_release by auto. reflexivity.
Qed.

(** ** The ordering check *)

Section Order.
  Context {sg : Sign} {w : Writer}.
  Variable c : cfg.
  Hypothesis HX : cf_alloc c && cf_debug c = true.

  Definition set_prev (k : bytes) (a : Authorizer sg w) : Authorizer sg w :=
    {| au_consumer_key := au_consumer_key a; au_token := au_token a; au_options := au_options a;
       au_data := au_data a; au_sign := au_sign a; au_append_delim := au_append_delim a;
       au_prev_key := k; au_draws := au_draws a; au_ticks := au_ticks a |}.

  Lemma release_off : cf_alloc (release c) && cf_debug (release c) = false.
  Proof. cbn. apply andb_false_r. Qed.

  Lemma step_prev : forall st (a : Authorizer sg w) k, bleb k (st_key st) = true ->
    do_step c st (set_prev k a) = rmap (set_prev (st_key st)) (do_step (release c) st a).
  Proof.
    intros st a k H. unfold do_step, check_dictionary_order. rewrite HX, release_off.
    cbn [set_prev au_prev_key]. rewrite H. cbn [rbind].
    apply rbind_rmap with (g := set_prev (st_key st)).
    - destruct (st_show st) as [v|]; [|reflexivity]. unfold show_step. cbn [set_prev with_prev au_data].
      destruct (au_data a) as [h|u].
      + destruct (write_unwrap _ h); reflexivity.
      + destruct (ue_parameter_encoded u (st_key st) v); reflexivity.
    - intros a1. apply rbind_rmap with (g := set_prev (st_key st)).
      + unfold sign_delimiter. cbn [set_prev au_append_delim au_sign].
        destruct (au_append_delim a1); [|reflexivity]. destruct (sg_delimiter (au_sign a1)); reflexivity.
      + intros a2. unfold sign_step. cbn [set_prev au_sign]. destruct (run_scall (au_sign a2) (st_feed st)); reflexivity.
  Qed.

  Lemma steps_in_order : forall sts (a : Authorizer sg w) k, ascending (k :: map st_key sts) ->
    exists k', do_steps c sts (set_prev k a) = rmap (set_prev k') (do_steps (release c) sts a).
  Proof.
    induction sts as [|st sts IH]; intros a k H; [now exists k|]. cbn [do_steps map] in *.
    apply ascending_drop2 in H as [H1 H2]. rewrite step_prev by auto.
    destruct (do_step (release c) st a) as [a1|p]; cbn [rmap rbind]; [apply IH, H2|now exists k].
  Qed.

  Lemma steps_disorder : forall sts (a b : Authorizer sg w) k, ~ ascending (k :: map st_key sts) ->
    do_steps (release c) sts a = Ok b -> do_steps c sts (set_prev k a) = Panic PDictOrder.
  Proof.
    induction sts as [|st sts IH]; intros a b k HN H; [exfalso; apply HN; repeat constructor|]. cbn [do_steps map] in *.
    apply rbind_ok in H as [a1 [H1 H2]]. destruct (bleb k (st_key st)) eqn:E.
    - rewrite step_prev, H1 by auto. cbn [rmap rbind]. eapply IH; eauto.
      intros HA. apply HN. now apply ascending_cons2.
    - unfold do_step, check_dictionary_order. rewrite HX. cbn [set_prev au_prev_key]. rewrite E. reflexivity.
  Qed.

  Lemma end_prev : forall k (a : Authorizer sg w), au_end (set_prev k a) = au_end a.
  Proof. reflexivity. Qed.
End Order.

Section Any.
  Variables (c : cfg) (e : env) (b : Builder) (un ut : bool) (name : bytes).
  Hypothesis HF : constant_flags (bd_signature_method b) un ut name.
  Let cf := conf_with un ut name e b.
  Variables (r : Request) (cs : list call).
  Hypothesis HM : makes_calls r cs.
  Hypothesis HN : NoDup (call_protos cs).
  Hypothesis HT : timestamp_available c cf.

  Lemma go_steps : forall c', timestamp_available c' cf -> forall (w : Writer) (data : Data w) method uri,
    go c' e b data method uri r
    = (s <- make_sign c' (bd_signature_method b) method uri (bd_client b) (bd_token b) ;;
       a <- do_steps c' (all_steps cf 0 0 cs) (au_new data s (bd_client b) (bd_token b) (bd_options b)) ;;
       au_end a).
  Proof.
    intros c' HT' w data method uri. unfold go.
    destruct (make_sign c' (bd_signature_method b) method uri (bd_client b) (bd_token b)) as [s1|] eqn:E; [|reflexivity].
    cbn [rbind]. apply make_sign_spec in E as [_ [s0 [HS0 HS1]]].
    destruct HF as [P [P0 [P1 P2]]].
    assert (HS : steady P un ut name) by (constructor; auto; intros s Hs; apply P2; auto).
    assert (HP1 : P s1) by (eapply (run_scalls_steady P _ _ _ HS); [|exact HS1]; eapply P0; eauto).
    rewrite (HM (AuthorizerS (sm_sign (bd_signature_method b)) w c' e)). cbn [sr_end AuthorizerS].
    exact (run_calls_end c' e P cf HS HT' cs 0 0 _ (matches_new e cf data s1 _ _ _ P eq_refl HS HP1) HP1).
  Qed.

  Lemma go_in_order : forall (w : Writer) (data : Data w) method uri,
    (cf_debug c = true -> dok uri /\ ~ has_question (dtext uri)) ->
    (cf_alloc c = true -> cf_debug c = true -> ascending (map fst (signed_fields cf cs))) ->
    go c e b data method uri r = go (release c) e b data method uri r.
  Proof.
    intros w data method uri HQ HA. rewrite (go_steps c HT), (go_steps (release c) HT).
    rewrite <- make_sign_release by auto.
    destruct (make_sign c (bd_signature_method b) method uri (bd_client b) (bd_token b)) as [s|]; [|reflexivity].
    cbn [rbind]. set (a := au_new data s (bd_client b) (bd_token b) (bd_options b)).
    destruct (cf_alloc c && cf_debug c) eqn:EX.
    - apply andb_true_iff in EX as EX'. destruct EX' as [E1 E2]. specialize (HA E1 E2).
      destruct (steps_in_order c EX (all_steps cf 0 0 cs) a []) as [k' H].
      { rewrite all_steps_once, steps0_keys by auto. now apply ascending_nil_cons. }
      change (set_prev [] a) with a in H. rewrite H.
      destruct (do_steps (release c) (all_steps cf 0 0 cs) a); reflexivity.
    - assert (H : forall sts (a : Authorizer (sm_sign (bd_signature_method b)) w), do_steps c sts a = do_steps (release c) sts a).
      { clear a. induction sts as [|st sts IH]; intros a; [reflexivity|]. cbn [do_steps].
        assert (HC : do_step c st a = do_step (release c) st a)
          by (unfold do_step, check_dictionary_order; now rewrite EX, release_off).
        rewrite HC. destruct (do_step (release c) st a); [apply IH|reflexivity]. }
      now rewrite H.
  Qed.

  Lemma go_out_of_order : forall (w : Writer) (data : Data w) method uri out,
    dok uri -> ~ has_question (dtext uri) -> cf_alloc c = true -> cf_debug c = true ->
    ~ ascending (map fst (signed_fields cf cs)) ->
    go (release c) e b data method uri r = Ok out -> go c e b data method uri r = Panic PDictOrder.
  Proof.
    intros w data method uri out HD HQ E1 E2 HA. rewrite (go_steps c HT), (go_steps (release c) HT).
    rewrite <- make_sign_release by auto. intros H. apply rbind_ok in H as [s [HS H]]. rewrite HS. cbn [rbind].
    apply rbind_ok in H as [a1 [H _]].
    assert (EX : cf_alloc c && cf_debug c = true) by now rewrite E1, E2.
    apply (steps_disorder c EX _ _ _ []) in H.
    - change (set_prev [] ?a) with a in H. now rewrite H.
    - rewrite all_steps_once, steps0_keys by auto. now rewrite ascending_nil_cons.
  Qed.
End Any.
