(** The authorizer: exact output and exact calls on the signature state. *)
From Coq Require Import String.
From Coq Require Import Lia Arith Sorted.
From Verif Require Import Bytes Crypto Spec MFmt MPercent MSign MSerializer MRequest MCredentials MAuth
  SpecCalls SpecAuth LBytes LFmt LPercent LCrypto LTrace.

Lemma drop_zeroes_trim : forall r, drop_zeroes r = trim_zeroes r.
Proof. reflexivity. Qed.

Lemma nonce_of_bytes_text : forall r, nonce_of_bytes r = nonce_text r.
Proof. reflexivity. Qed.

Lemma random_bytes_draw : forall e n, draw e n = random_bytes e n.
Proof. reflexivity. Qed.

(** ** Resolving calls to steps *)

Record step := { st_key : bytes; st_show : option disp; st_feed : scall }.

(** The disp written for protocol parameter [p] with value [v], and the call on the sign. *)
Definition show_of (cf : conf) (p : proto) (v : bytes) : disp :=
  match p with
  | PNonce => match op_nonce (cn_options cf) with Some _ => percent_encode v | None => dstr v end
  | PSignatureMethod | PTimestamp | PVersion => dstr v
  | _ => percent_encode v
  end.

Definition feed_of (cf : conf) (t : nat) (p : proto) (v : bytes) : scall :=
  match p with
  | PCallback => SCallback (DoublePercentEncode (dstr v))
  | PConsumerKey => SConsumerKey (DoublePercentEncode (dstr v))
  | PNonce => SNonce (match op_nonce (cn_options cf) with
                      | Some _ => DoublePercentEncode (dstr v) | None => dstr v end)
  | PSignatureMethod => SSignatureMethod
  | PTimestamp => STimestamp (timestamp_value cf t)
  | PToken => SToken (DoublePercentEncode (dstr v))
  | PVerifier => SVerifier (DoublePercentEncode (dstr v))
  | PVersion => SVersion
  end.

Definition bump_nonce (cf : conf) (c : call) (n : nat) : nat :=
  match c with
  | CProto PNonce =>
      if cn_use_nonce cf then match op_nonce (cn_options cf) with Some _ => n | None => S n end else n
  | _ => n
  end.
Definition bump_time (cf : conf) (c : call) (t : nat) : nat :=
  match c with
  | CProto PTimestamp =>
      if cn_use_timestamp cf then match op_timestamp (cn_options cf) with Some _ => t | None => S t end
      else t
  | _ => t
  end.

Definition steps_of (cf : conf) (n t : nat) (c : call) : list step :=
  match c with
  | CParam k v => [{| st_key := k; st_show := None; st_feed := SParam k (DoublePercentEncode v) |}]
  | CParamEnc k v => [{| st_key := k; st_show := None; st_feed := SParam k (PercentEncode v) |}]
  | CProto p =>
      match sent cf n t p with
      | Some v => [{| st_key := proto_key p; st_show := Some (show_of cf p v);
                      st_feed := feed_of cf t p v |}]
      | None => []
      end
  end.

Fixpoint all_steps (cf : conf) (n t : nat) (cs : list call) : list step :=
  match cs with
  | [] => []
  | c :: cs' => steps_of cf n t c ++ all_steps cf (bump_nonce cf c n) (bump_time cf c t) cs'
  end.

(** ** Performing steps *)

Section Steps.
  Context {sg : Sign} {w : Writer}.
  Variable c : cfg.

  Definition show_step (a : Authorizer sg w) (k : bytes) (v : disp) : res (Authorizer sg w) :=
    match au_data a with
    | Authorization header =>
        h <- write_unwrap
               (dseq (dstr k) (dseq (dstr (lit "=""")) (dseq v (dstr (lit ""","))))) header ;;
        Ok (with_data a (Authorization h))
    | Urlencode encoder =>
        u <- ue_parameter_encoded encoder k v ;;
        Ok (with_data a (Urlencode u))
    end.

  Definition do_step (st : step) (a : Authorizer sg w) : res (Authorizer sg w) :=
    a <- check_dictionary_order c a (st_key st) ;;
    a <- match st_show st with Some v => show_step a (st_key st) v | None => Ok a end ;;
    a <- sign_delimiter a ;;
    sign_step a (fun s => run_scall s (st_feed st)).

  Fixpoint do_steps (sts : list step) (a : Authorizer sg w) : res (Authorizer sg w) :=
    match sts with
    | [] => Ok a
    | st :: sts' => a <- do_step st a ;; do_steps sts' a
    end.

  Lemma do_steps_app : forall s1 s2 a,
    do_steps (s1 ++ s2) a = (a <- do_steps s1 a ;; do_steps s2 a).
  Proof.
    induction s1; intros s2 b; simpl; auto. destruct (do_step a b); simpl; auto.
  Qed.

  (** The fields no step changes. *)
  Record same_static (a b : Authorizer sg w) : Prop := {
    ss_client : au_consumer_key a = au_consumer_key b;
    ss_token : au_token a = au_token b;
    ss_options : au_options a = au_options b;
    ss_draws : au_draws a = au_draws b;
    ss_ticks : au_ticks a = au_ticks b;
  }.

  Lemma same_static_refl : forall a, same_static a a.
  Proof. intros; constructor; reflexivity. Qed.
  Lemma same_static_trans : forall a b d, same_static a b -> same_static b d -> same_static a d.
  Proof. intros a b d [] []; constructor; congruence. Qed.

  Lemma check_static : forall a k b, check_dictionary_order c a k = Ok b ->
    same_static b a /\ au_sign b = au_sign a /\ au_data b = au_data a
    /\ au_append_delim b = au_append_delim a.
  Proof.
    unfold check_dictionary_order. intros a k b H.
    destruct (cf_alloc c && cf_debug c); [destruct (bleb _ _)|]; inversion H; subst; repeat split.
  Qed.

  Lemma show_static : forall a k v b, show_step a k v = Ok b ->
    same_static b a /\ au_sign b = au_sign a /\ au_append_delim b = au_append_delim a
    /\ au_prev_key b = au_prev_key a.
  Proof.
    unfold show_step. intros a k v b H. destruct (au_data a);
      apply rbind_ok in H as [x [_ H]]; inversion H; subst; repeat split.
  Qed.

  Lemma delim_static : forall (a b : Authorizer sg w), sign_delimiter a = Ok b ->
    same_static b a /\ au_data b = au_data a /\ au_prev_key b = au_prev_key a
    /\ au_append_delim b = true
    /\ run_scalls (au_sign a) (if au_append_delim a then [SDelim] else []) = Ok (au_sign b).
  Proof.
    unfold sign_delimiter. intros a b H. destruct (au_append_delim a) eqn:E.
    - apply rbind_ok in H as [s [H1 H2]]. inversion H2; subst. cbn [run_scalls run_scall].
      rewrite H1. cbn. repeat split; auto.
    - inversion H; subst. repeat split.
  Qed.

  Lemma sign_static : forall (a b : Authorizer sg w) f, sign_step a f = Ok b ->
    same_static b a /\ au_data b = au_data a /\ au_prev_key b = au_prev_key a
    /\ au_append_delim b = au_append_delim a /\ f (au_sign a) = Ok (au_sign b).
  Proof.
    unfold sign_step. intros a b f H. apply rbind_ok in H as [s [H1 H2]]. inversion H2; subst.
    repeat split; auto.
  Qed.

  Lemma do_step_static : forall st a b, do_step st a = Ok b -> same_static b a.
  Proof.
    unfold do_step. intros st a b H.
    apply rbind_ok in H as [a1 [H1 H]]. apply rbind_ok in H as [a2 [H2 H]].
    apply rbind_ok in H as [a3 [H3 H]].
    apply check_static in H1 as [H1 _]. apply delim_static in H3 as [H3 _]. apply sign_static in H as [H _].
    assert (same_static a2 a1).
    { destruct (st_show st); [now apply show_static in H2|]. inversion H2. apply same_static_refl. }
    eauto using same_static_trans.
  Qed.

  (** ** The serializer methods are steps *)

  Variable e : env.

  (** The authorizer's static part is described by [cf]. *)
  Record matches (cf : conf) (n t : nat) (a : Authorizer sg w) : Prop := {
    mt_client : au_consumer_key a = cn_client cf;
    mt_token : au_token a = cn_token cf;
    mt_options : au_options a = cn_options cf;
    mt_nonce : sg_use_nonce (au_sign a) = cn_use_nonce cf;
    mt_timestamp : sg_use_timestamp (au_sign a) = cn_use_timestamp cf;
    mt_name : sg_name (au_sign a) = cn_name cf;
    mt_env : e = cn_env cf;
    mt_draws : au_draws a = n;
    mt_ticks : au_ticks a = t;
  }.

  (** The clock is only needed when a timestamp has to be generated. *)
  Definition clock_ok (cf : conf) : Prop :=
    cf_std c = true \/ op_timestamp (cn_options cf) <> None \/ cn_use_timestamp cf = false.

  Lemma sign_step_ext : forall (a : Authorizer sg w) f g,
    (forall s, f s = g s) -> sign_step a f = sign_step a g.
  Proof. intros a f g H. unfold sign_step. now rewrite H. Qed.

  (** Counter bumps, as the code does them before the step. *)
  Definition bump (cf : conf) (x : call) (a : Authorizer sg w) : Authorizer sg w :=
    match x with
    | CProto PNonce =>
        if cn_use_nonce cf then match op_nonce (cn_options cf) with Some _ => a | None => with_draw a end
        else a
    | CProto PTimestamp =>
        if cn_use_timestamp cf then
          match op_timestamp (cn_options cf) with Some _ => a | None => with_tick a end
        else a
    | _ => a
    end.

  Lemma append_encoded_eq : forall (a : Authorizer sg w) k v f,
    (a <- append_to_header_encoded c a k v ;; sign_step a (fun s => run_scall s f))
    = do_step {| st_key := k; st_show := Some v; st_feed := f |} a.
  Proof.
    intros a k v f. unfold append_to_header_encoded, do_step. cbn [st_key st_show st_feed].
    rewrite rbind_assoc. apply rbind_ext. intros a1 _.
    rewrite rbind_assoc. unfold show_step. reflexivity.
  Qed.

  Lemma append_eq : forall (a : Authorizer sg w) k v (f : disp -> scall) (g : sg -> disp -> res sg),
    (forall s d, g s d = run_scall s (f d)) ->
    append_to_header c a k g v
    = do_step {| st_key := k; st_show := Some (percent_encode v);
                 st_feed := f (DoublePercentEncode (dstr v)) |} a.
  Proof.
    intros a k v f g H. unfold append_to_header. rewrite <- append_encoded_eq.
    apply rbind_ext. intros a1 _. now apply sign_step_ext.
  Qed.

  Lemma do_steps_one : forall st a, do_steps [st] a = do_step st a.
  Proof. intros. cbn [do_steps]. apply rbind_ret. Qed.

  Lemma call_steps : forall cf n t (x : call) (a : Authorizer sg w),
    matches cf n t a -> clock_ok cf ->
    run_call (S := AuthorizerS sg w c e) x a = do_steps (steps_of cf n t x) (bump cf x a).
  Proof.
    intros cf n t x a [M1 M2 M3 M4 M5 M6 M7 M8 M9] HC.
    assert (P : forall k v, run_call (S := AuthorizerS sg w c e) (CParam k v) a
      = do_step {| st_key := k; st_show := None; st_feed := SParam k (DoublePercentEncode v) |} a)
      by reflexivity.
    assert (PE : forall k v, run_call (S := AuthorizerS sg w c e) (CParamEnc k v) a
      = do_step {| st_key := k; st_show := None; st_feed := SParam k (PercentEncode v) |} a)
      by reflexivity.
    destruct x as [k v|k v|p].
    - rewrite P. cbn [steps_of bump]. now rewrite do_steps_one.
    - rewrite PE. cbn [steps_of bump]. now rewrite do_steps_one.
    - clear P PE. destruct p; cbn [run_call AuthorizerS sr_oauth_callback sr_oauth_consumer_key sr_oauth_nonce
        sr_oauth_signature_method sr_oauth_timestamp sr_oauth_token sr_oauth_verifier sr_oauth_version
        steps_of sent bump proto_key show_of feed_of].
      + unfold au_oauth_callback. rewrite M3. destruct (op_callback (cn_options cf)); [|reflexivity].
        rewrite do_steps_one. apply append_eq. reflexivity.
      + unfold au_oauth_consumer_key. rewrite M1, do_steps_one. apply append_eq. reflexivity.
      + unfold au_oauth_nonce, nonce_value. rewrite M4, M3. destruct (cn_use_nonce cf); [|reflexivity].
        destruct (op_nonce (cn_options cf)).
        * rewrite do_steps_one. apply append_eq. reflexivity.
        * rewrite gen_nonce_ok by apply draw_length. cbn [rbind].
          rewrite do_steps_one, M8, M7. rewrite <- append_encoded_eq. reflexivity.
      + unfold au_oauth_signature_method. rewrite M6, do_steps_one, <- append_encoded_eq. reflexivity.
      + unfold au_oauth_timestamp, timestamp_value. rewrite M5, M3. destruct (cn_use_timestamp cf) eqn:U; [|reflexivity].
        destruct (op_timestamp (cn_options cf)) eqn:O; cbn [rbind].
        * rewrite do_steps_one, <- append_encoded_eq. reflexivity.
        * unfold get_current_timestamp. destruct HC as [HC|[HC|HC]]; try congruence.
          rewrite HC, M9, M7. destruct (env_clock (cn_env cf) t); cbn [rbind seconds];
            rewrite do_steps_one, <- append_encoded_eq; reflexivity.
      + unfold au_oauth_token. rewrite M2. destruct (cn_token cf); [|reflexivity].
        rewrite do_steps_one. apply append_eq. reflexivity.
      + unfold au_oauth_verifier. rewrite M3. destruct (op_verifier (cn_options cf)); [|reflexivity].
        rewrite do_steps_one. apply append_eq. reflexivity.
      + unfold au_oauth_version. rewrite M3. destruct (op_version (cn_options cf)); [|reflexivity].
        rewrite do_steps_one, <- append_encoded_eq. reflexivity.
  Qed.

  (** ** A whole call sequence *)

  Definition set_counters (n t : nat) (a : Authorizer sg w) : Authorizer sg w :=
    {| au_consumer_key := au_consumer_key a; au_token := au_token a; au_options := au_options a;
       au_data := au_data a; au_sign := au_sign a; au_append_delim := au_append_delim a;
       au_prev_key := au_prev_key a; au_draws := n; au_ticks := t |}.

  Lemma bump_set : forall cf x n t a, matches cf n t a ->
    bump cf x a = set_counters (bump_nonce cf x n) (bump_time cf x t) a.
  Proof.
    intros cf x n t a [M1 M2 M3 M4 M5 M6 M7 M8 M9]. subst n t.
    destruct x as [k v|k v|p]; try destruct p; cbn [bump bump_nonce bump_time];
      try (destruct a; reflexivity).
    - destruct (cn_use_nonce cf); [destruct (op_nonce (cn_options cf))|]; destruct a; reflexivity.
    - destruct (cn_use_timestamp cf); [destruct (op_timestamp (cn_options cf))|]; destruct a; reflexivity.
  Qed.

  Lemma do_step_counters : forall st n t a,
    do_step st (set_counters n t a) = (b <- do_step st a ;; Ok (set_counters n t b)).
  Proof.
    intros st n t a. unfold do_step, check_dictionary_order.
    change (au_prev_key (set_counters n t a)) with (au_prev_key a).
    assert (Q : forall a, 
      (a0 <- match st_show st with Some v => show_step (set_counters n t a) (st_key st) v
             | None => Ok (set_counters n t a) end ;;
       a0 <- sign_delimiter a0 ;; sign_step a0 (fun s => run_scall s (st_feed st)))
      = (b <- (a0 <- match st_show st with Some v => show_step a (st_key st) v | None => Ok a end ;;
               a0 <- sign_delimiter a0 ;; sign_step a0 (fun s => run_scall s (st_feed st))) ;;
         Ok (set_counters n t b))).
    { clear a. intros a.
      assert (Q1 : forall a, (a0 <- sign_delimiter (set_counters n t a) ;; sign_step a0 (fun s => run_scall s (st_feed st)))
        = (b <- (a0 <- sign_delimiter a ;; sign_step a0 (fun s => run_scall s (st_feed st))) ;;
           Ok (set_counters n t b))).
      { clear a. intros a. unfold sign_delimiter. cbn [au_append_delim set_counters au_sign].
        destruct (au_append_delim a).
        - destruct (sg_delimiter (au_sign a)) as [s1|]; [|reflexivity]. cbn [rbind].
          unfold sign_step. cbn [with_sign au_sign set_counters].
          destruct (run_scall s1 (st_feed st)); reflexivity.
        - cbn [rbind]. unfold sign_step. cbn [with_delim au_sign set_counters].
          destruct (run_scall (au_sign a) (st_feed st)); reflexivity. }
      destruct (st_show st) as [v|]; [|cbn [rbind]; apply Q1].
      unfold show_step. cbn [au_data set_counters]. destruct (au_data a) as [h|u].
      - destruct (write_unwrap _ h) as [h'|]; [|reflexivity]. cbn [rbind]. apply (Q1 (with_data a (Authorization h'))).
      - destruct (ue_parameter_encoded u (st_key st) v) as [u'|]; [|reflexivity]. cbn [rbind].
        apply (Q1 (with_data a (Urlencode u'))). }
    destruct (cf_alloc c && cf_debug c); [destruct (bleb (au_prev_key a) (st_key st))|]; cbn [rbind].
    - apply (Q (with_prev a (st_key st))).
    - reflexivity.
    - apply Q.
  Qed.

  Lemma do_steps_counters : forall sts n t a,
    do_steps sts (set_counters n t a) = (b <- do_steps sts a ;; Ok (set_counters n t b)).
  Proof.
    induction sts as [|st sts IH]; intros n t a; cbn [do_steps]; [reflexivity|].
    rewrite do_step_counters, !rbind_assoc. apply rbind_ext. intros b _. cbn [rbind]. apply IH.
  Qed.

  Lemma set_counters_twice : forall n t n' t' a, set_counters n t (set_counters n' t' a) = set_counters n t a.
  Proof. reflexivity. Qed.

  Lemma set_counters_own : forall a, set_counters (au_draws a) (au_ticks a) a = a.
  Proof. intros a; destruct a; reflexivity. Qed.

  (** The flags and the name do not change while [P] holds, and every call keeps [P]. *)
  Record steady (P : sg -> Prop) (un ut : bool) (nm : bytes) : Prop := {
    sd_step : forall s x s', P s -> run_scall s x = Ok s' -> P s';
    sd_nonce : forall s, P s -> sg_use_nonce s = un;
    sd_timestamp : forall s, P s -> sg_use_timestamp s = ut;
    sd_name : forall s, P s -> sg_name s = nm;
  }.

  Lemma run_scalls_steady : forall P un ut nm, steady P un ut nm ->
    forall cs s s', P s -> run_scalls s cs = Ok s' -> P s'.
  Proof.
    intros P un ut nm HS. induction cs as [|x cs IH]; intros s s' HP H; cbn [run_scalls] in H.
    - inversion H; subst; auto.
    - apply rbind_ok in H as [s1 [H1 H2]]. exact (IH _ _ (sd_step _ _ _ _ HS _ _ _ HP H1) H2).
  Qed.

  Lemma do_step_sign : forall st a b, do_step st a = Ok b ->
    run_scalls (au_sign a) ((if au_append_delim a then [SDelim] else []) ++ [st_feed st]) = Ok (au_sign b)
    /\ au_append_delim b = true.
  Proof.
    unfold do_step. intros st a b H.
    apply rbind_ok in H as [a1 [H1 H]]. apply rbind_ok in H as [a2 [H2 H]].
    apply rbind_ok in H as [a3 [H3 H]].
    apply check_static in H1 as [_ [E1 [_ D1]]].
    assert (au_sign a2 = au_sign a1 /\ au_append_delim a2 = au_append_delim a1) as [E2 D2].
    { destruct (st_show st); [apply show_static in H2; tauto|]. inversion H2. auto. }
    apply delim_static in H3 as [_ [_ [_ [D3 E3]]]]. apply sign_static in H as [_ [_ [_ [D E]]]].
    rewrite D2, D1, E2, E1 in E3. rewrite run_scalls_app, E3. cbn [rbind run_scalls]. rewrite E.
    split; [reflexivity|congruence].
  Qed.

  Lemma do_steps_steady : forall P un ut nm, steady P un ut nm ->
    forall sts a b, P (au_sign a) -> do_steps sts a = Ok b -> P (au_sign b).
  Proof.
    intros P un ut nm HS. induction sts as [|st sts IH]; intros a b HP H; cbn [do_steps] in H.
    - inversion H; subst; auto.
    - apply rbind_ok in H as [a1 [H1 H2]]. eapply IH; [|eauto].
      apply do_step_sign in H1 as [H1 _]. eapply run_scalls_steady; eauto.
  Qed.

  Lemma do_steps_static : forall sts a b, do_steps sts a = Ok b -> same_static b a.
  Proof.
    induction sts as [|st sts IH]; intros a b H; cbn [do_steps] in H.
    - inversion H. apply same_static_refl.
    - apply rbind_ok in H as [a1 [H1 H2]]. eapply same_static_trans; [eapply IH; eauto|].
      eapply do_step_static; eauto.
  Qed.

  Lemma run_calls_steps : forall P cf, steady P (cn_use_nonce cf) (cn_use_timestamp cf) (cn_name cf) ->
    clock_ok cf -> forall cs n t a, matches cf n t a -> P (au_sign a) ->
    exists n' t',
      run_calls (S := AuthorizerS sg w c e) cs a
      = (b <- do_steps (all_steps cf n t cs) a ;; Ok (set_counters n' t' b)).
  Proof.
    intros P cf HS HC. induction cs as [|x cs IH]; intros n t a HM HP.
    - exists n, t. cbn. destruct HM as [M1 M2 M3 M4 M5 M6 M7 M8 M9]. subst n t. now rewrite set_counters_own.
    - cbn [run_calls all_steps]. rewrite (call_steps cf n t x a HM HC).
      rewrite do_steps_app.
      rewrite (bump_set cf x n t a HM), do_steps_counters.
      destruct (do_steps (steps_of cf n t x) a) as [b|] eqn:E; cbn [rbind]; [|exists 0, 0; reflexivity].
      destruct (IH (bump_nonce cf x n) (bump_time cf x t)
                   (set_counters (bump_nonce cf x n) (bump_time cf x t) b)) as [n' [t' H]].
      { pose proof (do_steps_static _ _ _ E) as [S1 S2 S3 S4 S5].
        pose proof (do_steps_steady _ _ _ _ HS _ _ _ HP E) as HPb.
        destruct HM as [M1 M2 M3 M4 M5 M6 M7 M8 M9]. destruct HS as [_ H2 H3 H4].
        constructor; cbn; auto; congruence. }
      { cbn [au_sign set_counters]. eapply do_steps_steady; eauto. }
      exists n', t'. rewrite H, do_steps_counters, rbind_assoc. apply rbind_ext. reflexivity.
  Qed.

  Lemma au_end_counters : forall n t a, au_end (set_counters n t a) = au_end a.
  Proof. reflexivity. Qed.

  Lemma run_calls_end : forall P cf, steady P (cn_use_nonce cf) (cn_use_timestamp cf) (cn_name cf) ->
    clock_ok cf -> forall cs n t a, matches cf n t a -> P (au_sign a) ->
    (s <- run_calls (S := AuthorizerS sg w c e) cs a ;; au_end s)
    = (b <- do_steps (all_steps cf n t cs) a ;; au_end b).
  Proof.
    intros P cf HS HC cs n t a HM HP. destruct (run_calls_steps P cf HS HC cs n t a HM HP) as [n' [t' ->]].
    rewrite rbind_assoc. apply rbind_ext. reflexivity.
  Qed.

  (** ** Effect of the steps *)

  Definition shown (sts : list step) : list (bytes * disp) :=
    flat_map (fun st => match st_show st with Some v => [(st_key st, v)] | None => [] end) sts.
  Definition shown_text (sts : list step) : list pair :=
    map (fun p => (fst p, dtext (snd p))) (shown sts).

  Fixpoint feeds (delim : bool) (sts : list step) : list scall :=
    match sts with
    | [] => []
    | st :: sts' => (if delim then [SDelim] else []) ++ st_feed st :: feeds true sts'
    end.

  Definition shows_ok (sts : list step) : Prop :=
    forall k v, In (k, v) (shown sts) -> dok v /\ propagates v.

  (** The text a form encoder adds for [fields] in state [ap]. *)
  Definition ue_added (ap : Append) (fields : list pair) : bytes :=
    match fields with
    | [] => []
    | _ => match ap with ANone => [] | AQuestion => lit "?" | AAmpersand => lit "&" end
           ++ form_text fields
    end.
  Definition ue_after (ap : Append) (fields : list pair) : Append :=
    match fields with [] => ap | _ => AAmpersand end.

  Definition data_rel (d d' : Data w) (fields : list pair) : Prop :=
    match d with
    | Authorization h => exists h' ch, d' = Authorization h' /\ writes_ok h ch h'
                         /\ concat ch = concat (map header_field fields)
    | Urlencode u => exists x ch, d' = Urlencode (Build_Urlencoder x (ue_after (ue_next_append u) fields))
                         /\ writes_ok (ue_data u) ch x
                         /\ concat ch = ue_added (ue_next_append u) fields
    end.

  Lemma data_rel_refl : forall d, data_rel d d [].
  Proof.
    intros [h|u]; cbn.
    - exists h, []. repeat split. constructor.
    - exists (ue_data u), []. repeat split; [destruct u; reflexivity|constructor].
  Qed.

  Lemma form_text_cons : forall p q l, form_text (p :: q :: l) = form_pair p ++ lit "&" ++ form_text (q :: l).
  Proof. reflexivity. Qed.

  Lemma form_text_app : forall l1 l2, l1 <> [] -> l2 <> [] ->
    form_text (l1 ++ l2) = form_text l1 ++ lit "&" ++ form_text l2.
  Proof.
    intros l1 l2 H1 H2. unfold form_text. rewrite map_app, join_app; auto;
      intros E; apply map_eq_nil in E; contradiction.
  Qed.

  Lemma ue_added_app : forall ap l1 l2,
    ue_added ap (l1 ++ l2) = ue_added ap l1 ++ ue_added (ue_after ap l1) l2.
  Proof.
    intros ap l1 l2. destruct l1 as [|p l1]; [reflexivity|].
    destruct l2 as [|q l2]; [rewrite !app_nil_r; reflexivity|].
    cbn [ue_after]. unfold ue_added at 2 3. unfold ue_added.
    change ((p :: l1) ++ q :: l2) with (p :: (l1 ++ q :: l2)) at 1.
    change (p :: (l1 ++ q :: l2)) with ((p :: l1) ++ q :: l2).
    rewrite form_text_app by discriminate. cbn [app]. rewrite <- !app_assoc. reflexivity.
  Qed.

  Lemma ue_after_app : forall ap l1 l2, ue_after ap (l1 ++ l2) = ue_after (ue_after ap l1) l2.
  Proof. intros ap [|p l1] [|q l2]; reflexivity. Qed.

  Lemma data_rel_trans : forall d1 d2 d3 l1 l2,
    data_rel d1 d2 l1 -> data_rel d2 d3 l2 -> data_rel d1 d3 (l1 ++ l2).
  Proof.
    intros d1 d2 d3 l1 l2 H1 H2. destruct d1 as [h|u]; cbn in *.
    - destruct H1 as [h' [ch [-> [W1 C1]]]]. cbn in H2. destruct H2 as [h2 [ch2 [-> [W2 C2]]]].
      exists h2, (ch ++ ch2). repeat split; eauto using writes_ok_app.
      rewrite concat_app, map_app, concat_app. congruence.
    - destruct H1 as [x [ch [-> [W1 C1]]]]. cbn in H2. destruct H2 as [y [ch2 [-> [W2 C2]]]].
      exists y, (ch ++ ch2). rewrite ue_after_app. repeat split; eauto using writes_ok_app.
      rewrite concat_app, ue_added_app. congruence.
  Qed.

  Lemma ue_parameter_encoded_rel : forall (u u' : Urlencoder w) k v,
    dok v -> propagates v -> ue_parameter_encoded u k v = Ok u' ->
    data_rel (Urlencode u) (Urlencode u') [(k, dtext v)].
  Proof.
    intros u u' k v HK HP H. unfold ue_parameter_encoded in H.
    apply rbind_ok in H as [u1 [H1 H]]. apply rbind_ok in H as [d [H2 H]]. inversion H; subst; clear H.
    apply write_unwrap_propagates in H2 as [_ [ch2 [C2 W2]]];
      [|auto using propagates_dseq, propagates_dstr].
    rewrite !dtext_dseq, !dtext_dstr in C2 by auto using dok_dstr, dok_dseq.
    assert (exists ch1, writes_ok (ue_data u) ch1 (ue_data u1) /\ ue_next_append u1 = AAmpersand
            /\ concat ch1 = match ue_next_append u with ANone => [] | AQuestion => lit "?" | AAmpersand => lit "&" end)
      as [ch1 [W1 [N1 C1]]].
    { unfold ue_append_delim in H1. destruct (ue_next_append u).
      - inversion H1; subst. exists []. repeat split. constructor.
      - apply rbind_ok in H1 as [x [H1 H3]]. inversion H3; subst. 
        apply write_unwrap_propagates in H1 as [_ [ch1 [C1 W1]]]; [|apply propagates_dstr].
        exists ch1. repeat split; auto.
      - apply rbind_ok in H1 as [x [H1 H3]]. inversion H3; subst. 
        apply write_unwrap_propagates in H1 as [_ [ch1 [C1 W1]]]; [|apply propagates_dstr].
        exists ch1. repeat split; auto. }
    cbn. exists d, (ch1 ++ ch2). rewrite N1. repeat split; eauto using writes_ok_app.
    rewrite concat_app, C1, C2. reflexivity.
  Qed.

  Lemma show_step_rel : forall a b k v, dok v -> propagates v -> show_step a k v = Ok b ->
    data_rel (au_data a) (au_data b) [(k, dtext v)].
  Proof.
    intros a b k v HK HP H. unfold show_step in H. destruct (au_data a) as [h|u] eqn:E.
    - apply rbind_ok in H as [h' [H1 H]]. inversion H; subst; clear H.
      apply write_unwrap_propagates in H1 as [_ [ch [C W1]]];
        [|auto 10 using propagates_dseq, propagates_dstr].
      rewrite !dtext_dseq, !dtext_dstr in C by auto using dok_dstr, dok_dseq.
      cbn. exists h', ch. repeat split; auto. rewrite C, app_nil_r. reflexivity.
    - apply rbind_ok in H as [u' [H1 H]]. inversion H; subst; clear H.
      cbn [au_data with_data]. now apply ue_parameter_encoded_rel.
  Qed.

  (** Sorted relative to the previous key, when the check is compiled in. *)
  Definition order_ok (prev : bytes) (ks : list bytes) : Prop :=
    cf_alloc c && cf_debug c = true -> ascending (prev :: ks).

  Lemma ascending_cons2 : forall p k ks, bleb p k = true -> ascending (k :: ks) -> ascending (p :: k :: ks).
  Proof.
    intros p k ks H HA. constructor; auto. constructor; auto.
    inversion HA; subst. rewrite Forall_forall in *. intros x Hx. eapply bleb_trans; eauto.
  Qed.

  Lemma ascending_drop2 : forall p k ks, ascending (p :: k :: ks) -> bleb p k = true /\ ascending (k :: ks).
  Proof. intros p k ks H. inversion H; subst. inversion H3; subst. auto. Qed.

  Lemma shows_ok_cons : forall st sts, shows_ok (st :: sts) ->
    (forall v, st_show st = Some v -> dok v /\ propagates v) /\ shows_ok sts.
  Proof.
    intros st sts H. split.
    - intros v E. apply (H (st_key st)). unfold shown. cbn. rewrite E. now left.
    - intros k v Hv. apply (H k). unfold shown in *. cbn. apply in_app_iff. now right.
  Qed.

  Lemma shown_text_cons : forall st sts,
    shown_text (st :: sts)
    = match st_show st with Some v => [(st_key st, dtext v)] | None => [] end ++ shown_text sts.
  Proof. intros st sts. unfold shown_text, shown. cbn. destruct (st_show st); reflexivity. Qed.

  Lemma do_steps_sound : forall sts a b, shows_ok sts -> do_steps sts a = Ok b ->
    run_scalls (au_sign a) (feeds (au_append_delim a) sts) = Ok (au_sign b)
    /\ data_rel (au_data a) (au_data b) (shown_text sts)
    /\ order_ok (au_prev_key a) (map st_key sts).
  Proof.
    induction sts as [|st sts IH]; intros a b HS H; cbn [do_steps] in H.
    - inversion H; subst. split; [reflexivity|split; [apply data_rel_refl|]].
      intros _. repeat constructor.
    - apply shows_ok_cons in HS as [HS1 HS].
      apply rbind_ok in H as [a1 [H1 H]]. destruct (IH _ _ HS H) as [I1 [I2 I3]].
      pose proof (do_step_sign _ _ _ H1) as [J1 J2].
      rewrite J2 in I1.
      unfold do_step in H1.
      apply rbind_ok in H1 as [b1 [K1 H1]]. apply rbind_ok in H1 as [b2 [K2 H1]].
      apply rbind_ok in H1 as [b3 [K3 H1]].
      pose proof (check_static _ _ _ K1) as [_ [_ [Q1 _]]].
      pose proof (delim_static _ _ K3) as [_ [Q3 [R3 _]]].
      pose proof (sign_static _ _ _ H1) as [_ [Q4 [R4 _]]].
      split; [|split].
      + cbn [feeds]. change (st_feed st :: feeds true sts) with ([st_feed st] ++ feeds true sts).
        rewrite app_assoc, run_scalls_app, J1. exact I1.
      + rewrite shown_text_cons. eapply data_rel_trans; [|exact I2].
        rewrite Q4, Q3, <- Q1. destruct (st_show st) as [v|].
        * destruct (HS1 v eq_refl). now apply show_step_rel.
        * inversion K2. apply data_rel_refl.
      + intros HD. specialize (I3 HD). cbn [map].
        unfold check_dictionary_order in K1. rewrite HD in K1.
        destruct (bleb (au_prev_key a) (st_key st)) eqn:EB; [|discriminate].
        inversion K1; subst b1.
        assert (au_prev_key b2 = st_key st) as R2.
        { destruct (st_show st); [apply show_static in K2 as [_ [_ [_ K2]]]; rewrite K2; reflexivity|].
          inversion K2. reflexivity. }
        rewrite R4, R3, R2 in I3. now apply ascending_cons2.
  Qed.

  (** With an infallible writer, only the order check and the signature can stop a run. *)

  Lemma write_unwrap_infallible : forall d (s : w), infallible w -> dok d ->
    exists s', write_unwrap d s = Ok s'.
  Proof.
    intros d s HW HD. unfold write_unwrap.
    assert (exists s', run_disp d s = Ok (s', true)) as [s' E].
    { unfold dok in HD. revert s. induction d as [b0|p|ch k IH]; cbn in *; intros s.
      - inversion HD. eauto.
      - discriminate.
      - destruct (HW s ch) as [s1 ->]. cbn. now apply IH. }
    rewrite E. cbn. eauto.
  Qed.

  Lemma ue_parameter_encoded_total : forall (u : Urlencoder w) k v, infallible w -> dok v ->
    exists u', ue_parameter_encoded u k v = Ok u'.
  Proof.
    intros u k v HW HD. unfold ue_parameter_encoded.
    assert (exists u1, ue_append_delim u = Ok u1) as [u1 ->].
    { unfold ue_append_delim. destruct (ue_next_append u); eauto;
      match goal with |- context[write_unwrap ?d ?s] =>
        destruct (write_unwrap_infallible d s HW (dok_dstr _)) as [x ->] end; cbn; eauto. }
    cbn [rbind].
    destruct (write_unwrap_infallible (dseq (dstr k) (dseq (dstr (lit "=")) v)) (ue_data u1) HW) as [x ->].
    { auto using dok_dseq, dok_dstr. }
    cbn. eauto.
  Qed.

  Lemma show_step_total : forall a k v, infallible w -> dok v -> exists b, show_step a k v = Ok b.
  Proof.
    intros a k v HW HD. unfold show_step. destruct (au_data a) as [h|u].
    - match goal with |- context[write_unwrap ?d ?s] =>
        destruct (write_unwrap_infallible d s HW) as [x ->] end; [auto 10 using dok_dseq, dok_dstr|].
      cbn. eauto.
    - destruct (ue_parameter_encoded_total u k v HW HD) as [u' ->]. cbn. eauto.
  Qed.

  Lemma do_steps_complete : forall sts a s', infallible w -> shows_ok sts ->
    run_scalls (au_sign a) (feeds (au_append_delim a) sts) = Ok s' ->
    order_ok (au_prev_key a) (map st_key sts) ->
    exists b, do_steps sts a = Ok b.
  Proof.
    induction sts as [|st sts IH]; intros a s' HW HS HR HO; [cbn; eauto|].
    apply shows_ok_cons in HS as [HS1 HS].
    cbn [do_steps feeds map] in *. change (st_feed st :: feeds true sts) with ([st_feed st] ++ feeds true sts) in HR.
    rewrite app_assoc, run_scalls_app in HR. apply rbind_ok in HR as [s1 [HR1 HR2]].
    assert (HB : exists a1, do_step st a = Ok a1 /\ (cf_alloc c && cf_debug c = true -> au_prev_key a1 = st_key st)).
    { unfold do_step.
      assert (exists b1, check_dictionary_order c a (st_key st) = Ok b1
              /\ (cf_alloc c && cf_debug c = true -> au_prev_key b1 = st_key st)) as [b1 [K1 P1]].
      { unfold check_dictionary_order. unfold order_ok in HO. destruct (cf_alloc c && cf_debug c) eqn:ED.
        - specialize (HO eq_refl) as HA. apply ascending_drop2 in HA as [HA _]. rewrite HA. eauto.
        - eexists; split; eauto. congruence. }
      rewrite K1. cbn [rbind]. pose proof (check_static _ _ _ K1) as [_ [E1 [_ D1]]].
      assert (exists b2, match st_show st with Some v => show_step b1 (st_key st) v | None => Ok b1 end = Ok b2
              /\ au_sign b2 = au_sign b1 /\ au_append_delim b2 = au_append_delim b1
              /\ au_prev_key b2 = au_prev_key b1) as [b2 [K2 [E2 [D2 P2]]]].
      { destruct (st_show st) as [v|]; [|eauto]. destruct (HS1 v eq_refl) as [HD _].
        destruct (show_step_total b1 (st_key st) v HW HD) as [b2 K2]. exists b2. split; auto.
        apply show_static in K2. tauto. }
      rewrite K2. cbn [rbind]. rewrite run_scalls_app in HR1. apply rbind_ok in HR1 as [s0 [HR0 HR1]].
      assert (exists b3, sign_delimiter b2 = Ok b3 /\ au_sign b3 = s0 /\ au_prev_key b3 = au_prev_key b2) as [b3 [K3 [E3 P3]]].
      { unfold sign_delimiter. rewrite D2, D1, E2, E1. destruct (au_append_delim a).
        - cbn [run_scalls run_scall] in HR0. apply rbind_ok in HR0 as [s2 [HR0 HR0']]. inversion HR0'; subst.
          rewrite HR0. cbn. eauto.
        - cbn in HR0. inversion HR0; subst. eexists; split; [reflexivity|]. cbn. split; congruence. }
      rewrite K3. cbn [rbind]. unfold sign_step. rewrite E3.
      cbn [run_scalls] in HR1. apply rbind_ok in HR1 as [s2 [HR1 HR1']]. rewrite HR1. cbn.
      eexists; split; [reflexivity|]. cbn. intros HX. rewrite P3, P2. auto. }
    destruct HB as [a1 [HB HP]]. rewrite HB. cbn [rbind].
    pose proof (do_step_sign _ _ _ HB) as [J1 J2]. rewrite HR1 in J1. inversion J1; subst s1.
    apply (IH a1 s'); auto.
    - rewrite J2. exact HR2.
    - intros HX. rewrite (HP HX). specialize (HO HX). now apply ascending_drop2 in HO.
  Qed.

  (** ** [end] *)

  Definition end_text (d : Data w) (signature : bytes) : bytes :=
    match d with
    | Authorization _ => lit "oauth_signature=""" ++ signature ++ lit """"
    | Urlencode u => ue_added (ue_next_append u) [(lit "oauth_signature", signature)]
    end.
  Definition data_buf (d : Data w) : w :=
    match d with Authorization h => h | Urlencode u => ue_data u end.

  Lemma au_end_sound : forall (a : Authorizer sg w) out, au_end a = Ok out ->
    exists d, sg_end (au_sign a) = Ok d /\
      (dok d -> propagates d ->
       exists ch, writes_ok (data_buf (au_data a)) ch out
                  /\ concat ch = end_text (au_data a) (dtext d)).
  Proof.
    intros a out H. unfold au_end in H. destruct (au_data a) as [h|u] eqn:E.
    - apply rbind_ok in H as [h1 [H1 H]]. apply rbind_ok in H as [d [H2 H]].
      exists d. split; auto. intros HD HP.
      apply write_unwrap_propagates in H1 as [_ [ch1 [C1 W1]]]; [|apply propagates_dstr].
      apply write_unwrap_propagates in H as [_ [ch2 [C2 W2]]];
        [|auto using propagates_dseq, propagates_dstr].
      rewrite !dtext_dseq, !dtext_dstr in C2 by auto using dok_dstr, dok_dseq.
      exists (ch1 ++ ch2). split; [eapply writes_ok_app; eauto|].
      rewrite concat_app, C1, C2. cbn [end_text]. reflexivity.
    - apply rbind_ok in H as [d [H1 H]]. apply rbind_ok in H as [u' [H2 H]]. inversion H; subst; clear H.
      exists d. split; auto. intros HD HP.
      apply ue_parameter_encoded_rel in H2; auto. cbn in H2. destruct H2 as [x [ch [E2 [W2 C2]]]].
      inversion E2; subst. exists ch. auto.
  Qed.

  Lemma au_end_complete : forall (a : Authorizer sg w) d, infallible w ->
    sg_end (au_sign a) = Ok d -> dok d -> exists out, au_end a = Ok out.
  Proof.
    intros a d HW H HD. unfold au_end. destruct (au_data a) as [h|u].
    - destruct (write_unwrap_infallible (dstr (lit "oauth_signature=")) h HW (dok_dstr _)) as [h1 ->].
      cbn [rbind]. rewrite H. cbn [rbind].
      apply write_unwrap_infallible; auto using dok_dseq, dok_dstr.
    - rewrite H. cbn [rbind]. destruct (ue_parameter_encoded_total u (lit "oauth_signature") d HW HD) as [u' ->].
      cbn. eauto.
  Qed.

End Steps.
