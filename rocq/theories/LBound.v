(** Buffers that accept only some texts, compared with [String]: what a call writes does not depend on
    the buffer. *)
From Coq Require Import String.
From Coq Require Import Lia Arith Sorted Permutation.
From Verif Require Import Bytes Crypto Spec MFmt MPercent MSerializer MSign MRequest MCredentials MAuth MBuilder
  SpecCalls LForm SpecLimit LBytes LFmt LPercent LTrace LBuild LBuf.

Section Limit.
  Variables (w : Writer) (text : w -> bytes) (fits : bytes -> Prop).
  Hypothesis HL : limited w text fits.

  (** The string computation only appends. *)
  Definition grows {Y} (t : Y -> bytes) (s : bytes) (n : res Y) : Prop :=
    forall y, n = Ok y -> exists x, t y = s ++ x.

  Definition simul {X Y} (rel : X -> Y -> Prop) (t : Y -> bytes) (m : res X) (n : res Y) : Prop :=
    (forall x, m = Ok x -> exists y, n = Ok y /\ rel x y)
    /\ (forall y, n = Ok y -> fits (t y) -> exists x, m = Ok x /\ rel x y)
    /\ (forall p, m = Panic p -> p = PFmt \/ n = Panic p).

  Lemma simul_bind : forall {X Y X2 Y2} (rel : X -> Y -> Prop) (rel2 : X2 -> Y2 -> Prop) t t2 m n f g,
    simul rel t m n -> (forall y, grows t2 (t y) (g y)) -> (forall x y, rel x y -> simul rel2 t2 (f x) (g y)) ->
    simul rel2 t2 (rbind m f) (rbind n g).
  Proof.
    intros X Y X2 Y2 rel rel2 t t2 m n f g [A [B C]] HG HS. split; [|split].
    - intros x H. apply rbind_ok in H as [x1 [H1 H2]]. destruct (A x1 H1) as [y1 [E R]]. rewrite E. cbn [rbind].
      exact (proj1 (HS x1 y1 R) x H2).
    - intros y H HF. apply rbind_ok in H as [y1 [H1 H2]].
      destruct (HG y1 y H2) as [z E]. pose proof HF as HF1. rewrite E in HF1. apply (lm_prefix _ _ _ HL) in HF1.
      destruct (B y1 H1 HF1) as [x1 [E1 R]]. rewrite E1. cbn [rbind]. exact (proj1 (proj2 (HS x1 y1 R)) y H2 HF).
    - intros p H. destruct m as [x1|q].
      + destruct (A x1 eq_refl) as [y1 [E R]]. rewrite E. cbn [rbind] in *. exact (proj2 (proj2 (HS x1 y1 R)) p H).
      + cbn [rbind] in H. injection H as <-. destruct (C q eq_refl) as [->|E]; [now left|]. right. now rewrite E.
  Qed.

  Lemma simul_ret : forall {X Y} (rel : X -> Y -> Prop) t x y, rel x y -> simul rel t (Ok x) (Ok y).
  Proof.
    intros X Y rel t x y R. split; [|split].
    - intros z H. injection H as <-. eauto.
    - intros z H. injection H as <-. eauto.
    - intros p H. discriminate H.
  Qed.

  Lemma simul_panic : forall {X Y} (rel : X -> Y -> Prop) t p, simul rel t (Panic p) (Panic p).
  Proof. intros. split; [|split]; try (intros; discriminate). intros q H. injection H as <-. now right. Qed.

  Definition holds (x : w) (y : bytes) : Prop := text x = y /\ fits y.

  Lemma limit_writes : forall s cs s', writes_ok s cs s' -> fits (text s) -> text s' = text s ++ concat cs /\ fits (text s').
  Proof.
    induction 1 as [s|s x s1 cs s2 H1 _ IH]; intros HF; cbn [concat].
    - now rewrite app_nil_r.
    - apply (lm_only _ _ _ HL) in H1 as [E F]. rewrite E in IH. destruct (IH F) as [E2 F2]. split; [|exact F2].
      now rewrite E2, <- app_assoc.
  Qed.

  Lemma limit_run : forall d (s : w), fits (text s ++ dtext d) ->
    match dfinal d with
    | Ok b => exists s', run_disp d s = Ok (s', b) /\ text s' = text s ++ dtext d
    | Panic p => run_disp d s = Panic p
    end.
  Proof.
    induction d as [b|p|x k IH]; intros s HF; cbn [dtext dfinal run_disp] in *.
    - exists s. now rewrite app_nil_r.
    - reflexivity.
    - rewrite app_assoc in HF. destruct (lm_accepts _ _ _ HL s x (lm_prefix _ _ _ HL _ _ HF)) as [s1 [E T]].
      rewrite E. cbn [rbind]. rewrite <- T in HF. specialize (IH true s1 HF). destruct (dfinal (k true)) as [b|p].
      + destruct IH as [s' [-> T']]. exists s'. split; [reflexivity|]. now rewrite T', T, <- app_assoc.
      + exact IH.
  Qed.

  Lemma run_returns : forall d (s : w), no_panic d -> exists s' ok, run_disp d s = Ok (s', ok).
  Proof.
    induction d as [b|p|x k IH]; intros s H; cbn [run_disp no_panic] in *; [eauto|contradiction|].
    destruct (lm_returns _ _ _ HL s x) as [s' [ok E]]. rewrite E. cbn [rbind]. apply IH. destruct ok; tauto.
  Qed.

  Lemma simul_write : forall d x y, well_behaved d -> holds x y ->
    simul holds (fun s => s) (write_unwrap d x) (write_unwrap (w := StringW) d y).
  Proof.
    intros d x y [HP HN] [HT HF]. subst y. split; [|split].
    - intros x' H. apply write_unwrap_propagates in H as [HD [cs [HC W]]]; [|exact HP].
      destruct (limit_writes _ _ _ W HF) as [E F]. exists (text x'). unfold write_unwrap. rewrite run_disp_string. unfold dok in HD. rewrite HD.
      cbn [rbind]. rewrite E, HC. split; [reflexivity|]. split; [now rewrite E, HC|]. now rewrite <- HC, <- E.
    - intros y H HY. unfold write_unwrap in *. rewrite run_disp_string in H.
      destruct (dfinal d) as [[|]|] eqn:ED; cbn [rbind] in H; try discriminate H. injection H as <-.
      pose proof (limit_run d x HY) as K. rewrite ED in K. destruct K as [s' [-> T]]. cbn [rbind].
      exists s'. split; [reflexivity|]. split; [exact T|exact HY].
    - intros p H. left. unfold write_unwrap in H. destruct (run_returns d x HN) as [s' [ok E]]. rewrite E in H. cbn [rbind] in H.
      destruct ok; [discriminate H|]. now injection H as <-.
  Qed.

  Lemma wb_dstr : forall s, well_behaved (dstr s).
  Proof. intros s. split; [apply propagates_dstr|repeat split]. Qed.
  Lemma wb_dseq : forall d1 d2, well_behaved d1 -> well_behaved d2 -> well_behaved (dseq d1 d2).
  Proof.
    intros d1 d2 [P1 N1] [P2 N2]. split; [now apply propagates_dseq|]. unfold dseq. clear P1.
    induction d1 as [b|p|x k IH]; cbn [dbind no_panic] in *; [destruct b; auto; exact I|contradiction|].
    split; apply IH; tauto.
  Qed.
  Lemma wb_dchunks : forall cs, well_behaved (dchunks cs).
  Proof. induction cs as [|x cs IH]; [repeat split|]. apply wb_dseq; auto using wb_dstr. Qed.
  Lemma wb_percent_encode : forall s, well_behaved (percent_encode s).
  Proof. intros. apply wb_dchunks. Qed.

  Lemma wb_PercentEncode : forall d, well_behaved d -> well_behaved (PercentEncode d).
  Proof. intros d [P N]. split; [now apply propagates_PercentEncode|now apply no_panic_PercentEncode]. Qed.

  Lemma grows_write : forall d y, grows (fun s => s) y (write_unwrap (w := StringW) d y).
  Proof.
    intros d y z H. unfold write_unwrap in H. rewrite run_disp_string in H.
    destruct (dfinal d) as [[|]|]; cbn [rbind] in H; try discriminate H. injection H as <-. eauto.
  Qed.

  (** ** [Urlencoder] *)

  Definition ue_holds (u : Urlencoder w) (v : Urlencoder StringW) : Prop :=
    holds (ue_data u) (ue_data v) /\ ue_next_append u = ue_next_append v.
  Definition ue_text (v : Urlencoder StringW) : bytes := ue_data v.

  Lemma grows_prefixed : forall {A} (t : A -> bytes) (pre : bytes -> A -> A) (strip : A -> A) (F : A -> res A),
    (forall a, a = pre (t a) (strip a)) -> (forall p a, exists x, t (pre p a) = p ++ x) ->
    (forall p a, F (pre p a) = rmap (pre p) (F a)) -> forall a, grows t (t a) (F a).
  Proof.
    intros A t pre strip F HS HT HF a y H. rewrite (HS a) in H. rewrite HF in H.
    destruct (F (strip a)) as [z|]; cbn [rmap] in H; [|discriminate H]. injection H as <-. apply HT.
  Qed.

  Lemma ue_grows : forall (F : Urlencoder StringW -> res (Urlencoder StringW)),
    (forall p u, F (preu p u) = rmap (preu p) (F u)) -> forall u, grows ue_text (ue_text u) (F u).
  Proof.
    intros F HF. apply grows_prefixed with (pre := preu)
      (strip := fun u => Build_Urlencoder (w := StringW) [] (ue_next_append u)); [|eauto|exact HF].
    intros [d n]. unfold preu, ue_text. cbn. now rewrite app_nil_r.
    intros p a. unfold ue_text. cbn. eauto.
  Qed.

  Lemma ue_delim_simul : forall u v, ue_holds u v -> simul ue_holds ue_text (ue_append_delim u) (ue_append_delim v).
  Proof.
    intros u v [HD HN]. unfold ue_append_delim. rewrite HN. destruct (ue_next_append v) eqn:EN.
    - apply simul_ret. split; assumption || reflexivity.
    - eapply simul_bind; [apply simul_write; [apply wb_dstr|exact HD]| |].
      + intros y z H. injection H as <-. exists []. unfold ue_text. cbn. now rewrite app_nil_r.
      + intros x y HR. apply simul_ret. split; [exact HR|reflexivity].
    - eapply simul_bind; [apply simul_write; [apply wb_dstr|exact HD]| |].
      + intros y z H. injection H as <-. exists []. unfold ue_text. cbn. now rewrite app_nil_r.
      + intros x y HR. apply simul_ret. split; [exact HR|reflexivity].
  Qed.

  Lemma ue_write_simul : forall d u v, well_behaved d -> ue_holds u v ->
    simul ue_holds ue_text (x <- write_unwrap d (ue_data u) ;; Ok (Build_Urlencoder x (ue_next_append u)))
      (x <- write_unwrap (w := StringW) d (ue_data v) ;; Ok (Build_Urlencoder (w := StringW) x (ue_next_append v))).
  Proof.
    intros d u v HP [HD HN]. eapply simul_bind; [apply simul_write; [exact HP|exact HD]| |].
    - intros y z H. injection H as <-. exists []. unfold ue_text. cbn. now rewrite app_nil_r.
    - intros x y HR. apply simul_ret. split; [exact HR|exact HN].
  Qed.

  Lemma ue_enc_simul : forall u v k d, well_behaved d -> ue_holds u v ->
    simul ue_holds ue_text (ue_parameter_encoded u k d) (ue_parameter_encoded v k d).
  Proof.
    intros u v k d HP HR. unfold ue_parameter_encoded. eapply simul_bind; [apply ue_delim_simul, HR| |].
    - apply ue_grows. intros p y. apply rbind_rmap with (g := app p); [apply write_prefix|reflexivity].
    - intros x y R. apply ue_write_simul; [|exact R]. repeat apply wb_dseq; auto using wb_dstr.
  Qed.

  Lemma ue_param_simul : forall u v k d, well_behaved d -> ue_holds u v ->
    simul ue_holds ue_text (ue_parameter u k d) (ue_parameter v k d).
  Proof.
    intros u v k d HP HR. unfold ue_parameter. eapply simul_bind; [apply ue_delim_simul, HR| |].
    - apply ue_grows. intros p y. apply rbind_rmap with (g := app p); [apply write_prefix|reflexivity].
    - intros x y R. apply ue_write_simul; [|exact R]. repeat apply wb_dseq; auto using wb_dstr, wb_PercentEncode.
  Qed.

  Lemma ue_calls_simul : forall cs u v, Forall values_well_behaved cs -> ue_holds u v ->
    simul ue_holds ue_text (run_calls (S := UrlencoderS w) cs u) (run_calls (S := UrlencoderS StringW) cs v).
  Proof.
    induction cs as [|x cs IH]; intros u v HP HR; [now apply simul_ret|]. inversion HP as [|? ? HX HC]; subst. cbn [run_calls].
    eapply simul_bind with (rel := ue_holds) (t := ue_text).
    - destruct x as [k d|k d|[]]; cbn [run_call]; try (now apply simul_ret); [apply ue_param_simul|apply ue_enc_simul]; auto.
    - apply (ue_grows (run_calls (S := UrlencoderS StringW) cs)). intros p y. apply ue_calls_prefix.
    - intros y z R. now apply IH.
  Qed.

  (** ** [Authorizer] *)

  Section Auth.
    Variables (sg : Sign) (c : cfg) (e : env).

    Definition d_holds (d : Data w) (d' : Data StringW) : Prop :=
      match d, d' with
      | Authorization h, Authorization h' => holds h h'
      | Urlencode u, Urlencode u' => ue_holds u u'
      | _, _ => False
      end.
    Definition d_text (d : Data StringW) : bytes := match d with Authorization h => h | Urlencode u => ue_data u end.

    Record a_holds (a : Authorizer sg w) (a' : Authorizer sg StringW) : Prop := {
      ah_key : au_consumer_key a = au_consumer_key a';
      ah_token : au_token a = au_token a';
      ah_options : au_options a = au_options a';
      ah_data : d_holds (au_data a) (au_data a');
      ah_sign : au_sign a = au_sign a';
      ah_delim : au_append_delim a = au_append_delim a';
      ah_prev : au_prev_key a = au_prev_key a';
      ah_draws : au_draws a = au_draws a';
      ah_ticks : au_ticks a = au_ticks a'
    }.
    Definition a_text (a : Authorizer sg StringW) : bytes := d_text (au_data a).

    Definition strip (a : Authorizer sg StringW) : Authorizer sg StringW :=
      with_data a (match au_data a with
                   | Authorization _ => Authorization (w := StringW) []
                   | Urlencode u => Urlencode (Build_Urlencoder (w := StringW) [] (ue_next_append u))
                   end).

    Lemma a_pre : forall a, a = prea sg (a_text a) (strip a).
    Proof. intros [ck tk op [h|[d n]] si ad pk dr ti]; unfold prea, strip, a_text, pred, preu; cbn; now rewrite app_nil_r. Qed.

    Lemma a_pre_text : forall p a, exists x, a_text (prea sg p a) = p ++ x.
    Proof. intros p [ck tk op [h|[d n]] si ad pk dr ti]; unfold prea, a_text; cbn; eauto. Qed.

    Lemma a_grows : forall F : Authorizer sg StringW -> res (Authorizer sg StringW),
      (forall p a, F (prea sg p a) = rmap (prea sg p) (F a)) -> forall a, grows a_text (a_text a) (F a).
    Proof. intros F HF. apply grows_prefixed with (pre := prea sg) (strip := strip); auto using a_pre, a_pre_text. Qed.

    Lemma check_simul : forall a a' k, a_holds a a' ->
      simul a_holds a_text (check_dictionary_order c a k) (check_dictionary_order c a' k).
    Proof.
      intros a a' k H. unfold check_dictionary_order. rewrite (ah_prev _ _ H).
      destruct (cf_alloc c && cf_debug c); [|now apply simul_ret]. destruct (bleb (au_prev_key a') k); [|apply simul_panic].
      apply simul_ret. destruct H. constructor; assumption || reflexivity.
    Qed.

    Lemma delim_simul : forall a a', a_holds a a' -> simul a_holds a_text (sign_delimiter a) (sign_delimiter a').
    Proof.
      intros a a' H. unfold sign_delimiter. rewrite (ah_delim _ _ H), (ah_sign _ _ H).
      destruct (au_append_delim a'); [destruct (sg_delimiter (au_sign a')); [cbn [rbind]|apply simul_panic]|];
        apply simul_ret; destruct H; constructor; assumption || reflexivity.
    Qed.

    Lemma step_simul : forall a a' f, a_holds a a' -> simul a_holds a_text (sign_step a f) (sign_step a' f).
    Proof.
      intros a a' f H. unfold sign_step. rewrite (ah_sign _ _ H). destruct (f (au_sign a')); [|apply simul_panic]. cbn [rbind].
      apply simul_ret. destruct H; constructor; assumption || reflexivity.
    Qed.

    Lemma append_enc_simul : forall a a' k v, well_behaved v -> a_holds a a' ->
      simul a_holds a_text (append_to_header_encoded c a k v) (append_to_header_encoded c a' k v).
    Proof.
      intros a a' k v HP H. unfold append_to_header_encoded. eapply simul_bind; [apply check_simul, H| |].
      { apply a_grows. intros p a1. apply rbind_rmap with (g := prea sg p); [|apply delim_prefix].
        destruct a1 as [ck tk op data sign ad pk dr ti]. unfold prea. cbn [with_data au_data].
        destruct data as [h|u]; cbn [pred].
        - apply rbind_rmap with (g := app p); [apply write_prefix|reflexivity].
        - apply rbind_rmap with (g := preu p); [apply ue_enc_prefix|reflexivity]. }
      intros a1 a2 H1. eapply simul_bind with (rel := a_holds) (t := a_text).
      2:{ apply a_grows. intros p a3. apply delim_prefix. }
      2:{ intros x y. apply delim_simul. }
      pose proof (ah_data _ _ H1) as HD. destruct (au_data a1) as [h|u], (au_data a2) as [h'|u']; cbn [d_holds] in HD; try contradiction.
      - eapply simul_bind; [apply simul_write; [|exact HD]| |].
        + repeat apply wb_dseq; auto using wb_dstr.
        + intros y z E. injection E as <-. exists []. unfold a_text. cbn. now rewrite app_nil_r.
        + intros x y R. apply simul_ret. destruct H1; constructor; assumption || exact R.
      - eapply simul_bind; [apply ue_enc_simul; [exact HP|exact HD]| |].
        + intros y z E. injection E as <-. exists []. unfold a_text. cbn. now rewrite app_nil_r.
        + intros x y R. apply simul_ret. destruct H1; constructor; assumption || exact R.
    Qed.

    Lemma HE : forall a a' k v f, well_behaved v -> a_holds a a' ->
      simul a_holds a_text (a1 <- append_to_header_encoded c a k v ;; sign_step a1 f)
        (a1 <- append_to_header_encoded c a' k v ;; sign_step a1 f).
    Proof.
      intros a a' k v f HP H. eapply simul_bind; [apply append_enc_simul; [exact HP|exact H]| |].
      - apply (a_grows (fun a => sign_step a f)). intros p y. apply step_prefix.
      - intros x y. apply step_simul.
    Qed.

    Lemma HK : forall a a' k f, a_holds a a' ->
      simul a_holds a_text (a1 <- check_dictionary_order c a k ;; a2 <- sign_delimiter a1 ;; sign_step a2 f)
        (a1 <- check_dictionary_order c a' k ;; a2 <- sign_delimiter a1 ;; sign_step a2 f).
    Proof.
      intros a a' k f H. eapply simul_bind; [apply check_simul, H| |].
      - apply a_grows. intros p y. apply rbind_rmap with (g := prea sg p); [apply delim_prefix|intros; apply step_prefix].
      - intros x y R. eapply simul_bind; [apply delim_simul, R| |].
        + apply (a_grows (fun a => sign_step a f)). intros p z. apply step_prefix.
        + intros x1 y1. apply step_simul.
    Qed.

    Lemma call_simul : forall x a a', a_holds a a' ->
      simul a_holds a_text (run_call (S := AuthorizerS sg w c e) x a) (run_call (S := AuthorizerS sg StringW c e) x a').
    Proof.
      intros x a a' H. pose proof (wb_percent_encode) as PE. pose proof wb_dstr as PD.
      destruct x as [k v|k v|[]]; cbn [run_call AuthorizerS sr_parameter sr_parameter_encoded sr_oauth_callback
        sr_oauth_consumer_key sr_oauth_nonce sr_oauth_signature_method sr_oauth_timestamp sr_oauth_token
        sr_oauth_verifier sr_oauth_version].
      - now apply HK.
      - now apply HK.
      - unfold au_oauth_callback. rewrite (ah_options _ _ H). destruct (op_callback (au_options a')); [now apply HE|now apply simul_ret].
      - unfold au_oauth_consumer_key. rewrite (ah_key _ _ H). now apply HE.
      - unfold au_oauth_nonce. rewrite (ah_options _ _ H), (ah_sign _ _ H), (ah_draws _ _ H).
        destruct (sg_use_nonce (au_sign a')); [|now apply simul_ret]. destruct (op_nonce (au_options a')); [now apply HE|].
        destruct (gen_nonce (draw e (au_draws a'))) as [n|]; [|apply simul_panic]. cbn [rbind]. apply HE; [solve [apply PE | apply PD]|].
        destruct H; constructor; try assumption; cbn; now f_equal.
      - unfold au_oauth_signature_method. rewrite (ah_sign _ _ H). now apply HE.
      - unfold au_oauth_timestamp. rewrite (ah_options _ _ H), (ah_sign _ _ H), (ah_ticks _ _ H).
        destruct (sg_use_timestamp (au_sign a')); [|now apply simul_ret]. destruct (op_timestamp (au_options a')); cbn [rbind]; [now apply HE|].
        destruct (get_current_timestamp c (env_clock e (au_ticks a'))) as [n|]; [|apply simul_panic]. cbn [rbind]. apply HE; [solve [apply PE | apply PD]|].
        destruct H; constructor; try assumption; cbn; now f_equal.
      - unfold au_oauth_token. rewrite (ah_token _ _ H). destruct (au_token a'); [now apply HE|now apply simul_ret].
      - unfold au_oauth_verifier. rewrite (ah_options _ _ H). destruct (op_verifier (au_options a')); [now apply HE|now apply simul_ret].
      - unfold au_oauth_version. rewrite (ah_options _ _ H). destruct (op_version (au_options a')); [now apply HE|now apply simul_ret].
    Qed.

    Lemma calls_simul : forall cs a a', a_holds a a' ->
      simul a_holds a_text (run_calls (S := AuthorizerS sg w c e) cs a) (run_calls (S := AuthorizerS sg StringW c e) cs a').
    Proof.
      induction cs as [|x cs IH]; intros a a' H; [now apply simul_ret|]. cbn [run_calls].
      eapply simul_bind; [apply call_simul, H| |exact IH].
      apply (a_grows (run_calls (S := AuthorizerS sg StringW c e) cs)). intros p y. apply calls_prefix.
    Qed.

    Lemma end_simul : forall a a', (forall s d, sg_end (s := sg) s = Ok d -> well_behaved d) -> a_holds a a' ->
      simul holds (fun s => s) (au_end a) (au_end a').
    Proof.
      intros a a' HP H. unfold au_end. rewrite (ah_sign _ _ H). pose proof (ah_data _ _ H) as HD.
      destruct (au_data a) as [h|u], (au_data a') as [h'|u']; cbn [d_holds] in HD; try contradiction.
      - eapply simul_bind; [apply simul_write; [apply wb_dstr|exact HD]| |].
        + intros y z E. apply rbind_ok in E as [d [_ E]]. now apply grows_write in E.
        + intros x y R. destruct (sg_end (au_sign a')) as [d|] eqn:ED; [cbn [rbind]|apply simul_panic]. apply simul_write; [|exact R].
          repeat apply wb_dseq; auto using wb_dstr. eauto.
      - destruct (sg_end (au_sign a')) as [d|] eqn:ED; [cbn [rbind]|apply simul_panic].
        eapply simul_bind; [apply ue_enc_simul; [eauto|exact HD]| |].
        + intros y z E. injection E as <-. exists []. unfold ue_text. now rewrite app_nil_r.
        + intros x y [R _]. now apply simul_ret.
    Qed.
  End Auth.

  Lemma go_simul : forall c e b (d : Data w) (d' : Data StringW) method uri r cs, makes_calls r cs ->
    (forall s x, sg_end (s := sm_sign (bd_signature_method b)) s = Ok x -> well_behaved x) -> d_holds d d' ->
    simul holds (fun s => s) (go c e b d method uri r) (go c e b d' method uri r).
  Proof.
    intros c e b d d' method uri r cs HM HP HD. unfold go.
    destruct (make_sign c (bd_signature_method b) method uri (bd_client b) (bd_token b)) as [s|]; [|apply simul_panic]. cbn [rbind].
    rewrite (HM (AuthorizerS (sm_sign (bd_signature_method b)) w c e)), (HM (AuthorizerS (sm_sign (bd_signature_method b)) StringW c e)).
    eapply simul_bind.
    - apply calls_simul. constructor; try reflexivity. exact HD.
    - intros y z E. cbn in E.
      rewrite (a_pre _ y) in E. rewrite end_prefix in E. destruct (au_end (strip _ y)); cbn [rmap] in E; [|discriminate E]. injection E as <-. eauto.
    - intros x y R. now apply end_simul.
  Qed.
End Limit.
