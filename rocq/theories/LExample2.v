(** Exactly which requests the example server accepts. *)
From Coq Require Import String.
From Coq Require Import Lia Arith Sorted Permutation NArith.
From Verif Require Import Bytes Crypto Spec MFmt MPercent MSerializer MSign MRequest MCredentials MAuth MBuilder
  SpecFmt SpecCalls SpecCalls2 SpecAuth SpecBuild SpecForm SpecServer SpecParams SpecHttp
  LBytes LFmt LPercent LTrace LCrypto LAuth LSign LBuild LForm LBase LBase2 LReq LReq2 LPanic LTop LParams LServer
  MHttp LHttp LText MServer LGrammar SpecExample LExample.

(** ** Headers and parameters *)

Lemma scheme_dec : forall h, has_scheme (lit "OAuth") h \/ ~ has_scheme (lit "OAuth") h.
Proof.
  intros h. destruct (auth_scheme h) as [[rest scheme]|] eqn:E.
  - destruct (bseqb scheme (lit "OAuth")) eqn:EB.
    + apply bseqb_eq in EB. subst. left. apply has_scheme_iff in E as [H1 [H2 H3]]. split; auto. exists rest.
      split; auto. now apply stops_tchar.
    + right. intros [H1 [r [-> H2]]]. apply stops_tchar in H2.
      assert (E' : auth_scheme (lit "OAuth" ++ r) = Some (r, lit "OAuth")) by now apply token_app.
      rewrite E in E'. inversion E'; subst. now rewrite bseqb_refl in EB.
  - right. intros [H1 [r [-> H2]]]. apply stops_tchar in H2.
    assert (E' : auth_scheme (lit "OAuth" ++ r) = Some (r, lit "OAuth")) by now apply token_app. congruence.
Qed.

Lemma collect_auth_iff : forall eo hs l, collect_auth_params eo hs = Some l <-> oauth_header eo hs l.
Proof.
  intros eo. induction hs as [|h hs IH]; intros l.
  - cbn [collect_auth_params]. split; [intros E; inversion E; constructor|now inversion 1].
  - destruct (scheme_dec h) as [H|H].
    + rewrite (collect_oauth eo h hs l H). split.
      * intros [l' [H' ->]]. apply (hp_oauth eo h hs l'); auto. now apply pairs_read_iff.
      * intros HP. inversion HP as [|? ? ? HN|? ? l' ? H1 H2 H3]; subst; [contradiction|]. apply pairs_read_iff in H3 as <-. eauto.
    + rewrite (collect_other eo h hs H), IH. split.
      * intros HP. now constructor.
      * intros HP. inversion HP; subst; [auto|contradiction].
Qed.

(** The parameters that the server collects. *)
Definition form_of (req : http_request) : option bytes :=
  if match rq_content_type req with
     | Some v => bseqb v APPLICATION_WWW_FORM_URLENCODED
     | None => false end then rq_body req else Some [].

Lemma form_body_iff : forall req form, form_body req form <-> exists body, form_of req = Some body /\ form = form_parse body.
Proof.
  intros req form. unfold form_of. split.
  - intros [body l E1 E2 EL|E].
    + apply form_reads_iff in EL as <-. rewrite E1. change APPLICATION_WWW_FORM_URLENCODED with (lit "application/x-www-form-urlencoded").
      rewrite bseqb_refl. eauto.
    + exists []. split; [|reflexivity]. destruct (rq_content_type req) as [v|]; [|reflexivity].
      destruct (bseqb v APPLICATION_WWW_FORM_URLENCODED) eqn:EB; [|reflexivity].
      apply bseqb_eq in EB. subst. now contradiction E.
  - intros [body [E ->]]. destruct (rq_content_type req) as [v|] eqn:EC.
    + destruct (bseqb v APPLICATION_WWW_FORM_URLENCODED) eqn:EB.
      * apply bseqb_eq in EB. subst. apply (fb_form req body); auto. now apply form_reads_iff.
      * inversion E; subst. apply fb_other. rewrite EC. intros X. inversion X; subst. discriminate EB.
    + inversion E; subst. apply fb_other. congruence.
Qed.

Definition params_of (wd : world) (req : http_request) : option (list pair) :=
  match form_of req with
  | Some form => collect_params (wd_empty_ok wd) req form
  | None => None
  end.

Lemma params_of_iff : forall wd req params, params_of wd req = Some params <->
  exists l, request_params (wd_empty_ok wd) req l /\ params = sort_pairs l.
Proof.
  intros wd req params. unfold params_of, request_params, collect_params. split.
  - destruct (form_of req) as [form|] eqn:EF; [|discriminate].
    destruct (collect_auth_params (wd_empty_ok wd) (rq_authorization req)) as [auth|] eqn:EA; [|discriminate].
    intros E. inversion E; subst. rewrite sort_params_eq. eexists. split; [|reflexivity].
    eexists auth, (form_parse form), _. split; [now apply collect_auth_iff|].
    split; [apply form_body_iff; eauto|]. split; [now apply form_reads_iff|reflexivity].
  - intros [l [[auth [form [query [HA [HF [HQ ->]]]]]] ->]]. apply form_body_iff in HF as [body [-> ->]].
    apply form_reads_iff in HQ as <-.
    apply collect_auth_iff in HA. rewrite HA, sort_params_eq. reflexivity.
Qed.

(** ** Values *)

Lemma sorted_first : forall l key v, StronglySorted pair_le l -> find_value key l = Some v ->
  forall v', In (key, v') l -> bleb v v' = true.
Proof.
  induction l as [|[k w] l IH]; intros key v HS HF v' Hv'; [destruct Hv'|].
  inversion HS as [|? ? H1 H2]; subst. rewrite find_value_cons in HF. destruct (bseqb k key) eqn:E.
  - apply bseqb_eq in E. inversion HF; subst. destruct Hv' as [Hv'|Hv'].
    + inversion Hv'; subst. apply bleb_refl.
    + rewrite Forall_forall in H2. specialize (H2 _ Hv'). apply pair_le_spec in H2. cbn [fst snd] in H2.
      destruct H2 as [H2|[_ H2]]; [|exact H2]. now rewrite bltb_irrefl in H2.
  - destruct Hv' as [Hv'|Hv']; [inversion Hv'; subst; now rewrite bseqb_refl in E|]. eauto.
Qed.

Lemma find_value_absent : forall key l, find_value key l = None -> forall v, ~ In (key, v) l.
Proof.
  intros key. induction l as [|[k w] l IH]; intros H v HI; [destruct HI|]. rewrite find_value_cons in H.
  destruct (bseqb k key) eqn:E; [discriminate|]. destruct HI as [HI|HI].
  - inversion HI; subst. now rewrite bseqb_refl in E.
  - now apply (IH H v).
Qed.

Lemma has_value_fun : forall l key o o', has_value l key o -> has_value l key o' -> o = o'.
Proof.
  intros l key [v|] [v'|] H H'; cbn in *; auto.
  - destruct H as [H1 H2], H' as [H1' H2']. f_equal. apply bleb_antisym; auto.
  - exfalso. now apply (H' v).
  - exfalso. now apply (H v').
Qed.

Lemma has_value_iff : forall l key o, has_value l key o <-> find_value key (sort_pairs l) = o.
Proof.
  assert (HF : forall l key, has_value l key (find_value key (sort_pairs l))).
  { intros l key. destruct (find_value key (sort_pairs l)) as [v|] eqn:E; cbn.
    - split.
      + apply find_value_in in E. eapply Permutation_in; [|exact E]. symmetry. apply sort_perm.
      + intros v' Hv'. apply (sorted_first (sort_pairs l) key); auto; [apply sort_sorted|].
        eapply Permutation_in; [|exact Hv']. apply sort_perm.
    - intros v HI. apply (find_value_absent _ _ E v). eapply Permutation_in; [|exact HI]. apply sort_perm. }
  intros l key o. split.
  - intros H. eapply has_value_fun; eauto.
  - intros <-. apply HF.
Qed.

Lemma read_from_none : forall s, read_from None s = None.
Proof. induction s as [|b s IH]; auto. Qed.
Lemma parse_digits_inv : forall s acc n, parse_digits acc s = Some n -> (acc < 2 ^ 64)%N ->
  read_from (Some acc) s = Some n /\ (n < 2 ^ 64)%N.
Proof.
  induction s as [|b s IH]; intros acc n H HA; cbn [parse_digits] in H.
  - inversion H; subst. now split.
  - unfold read_from. cbn [fold_left]. change (dec_digit b) with (digit_val b) in H.
    destruct (digit_val b) as [d|]; [|discriminate].
    destruct (N.ltb_spec (acc * 10 + d) (2 ^ 64)) as [HL|HL]; [|discriminate]. now apply IH.
Qed.
Lemma parse_digits_iff : forall s n, parse_digits 0 s = Some n <-> read_decimal s = Some n /\ (n < 2 ^ 64)%N.
Proof.
  intros s n. split.
  - intros H. apply parse_digits_inv in H; [exact H|reflexivity].
  - intros [H1 H2]. apply parse_digits_read; auto. reflexivity.
Qed.
Lemma number_iff : forall s n, parse_u64 s = Some n <-> number s n.
Proof.
  intros s n. unfold number. split.
  - intros H. destruct s as [|b s]; [discriminate|]. cbn [parse_u64] in H.
    destruct (beqb b "+") eqn:E.
    + apply beqb_eq in E. subst. destruct s as [|d s]; [discriminate|]. apply parse_digits_iff in H as [H1 H2].
      exists (d :: s). repeat split; auto. discriminate.
    + apply parse_digits_iff in H as [H1 H2]. exists (b :: s). repeat split; auto. discriminate.
  - intros [digits [[->| ->] [HN [HR HL]]]].
    + destruct digits as [|b s]; [congruence|]. cbn [parse_u64].
      assert (beqb b "+" = false) as ->.
      { apply beqb_neq. intros ->. unfold read_decimal in HR. cbn [fold_left] in HR.
        change (read_from None s = Some n) in HR. now rewrite read_from_none in HR. }
      now apply parse_digits_iff.
    + destruct digits as [|b s]; [congruence|]. now apply (parse_digits_iff (b :: s)).
Qed.

(** ** Reading the protocol parameters, when the callback may be repeated *)

(** One of the values, if there is any. *)
Definition some_value (l : list pair) (key : bytes) (o : option bytes) : Prop :=
  match o with Some v => In (key, v) l | None => forall v, ~ In (key, v) l end.

Definition read_params (callback : option bytes) (params : list pair) : OAuthParams + status :=
  match find_value (lit "oauth_consumer_key") params with
  | None => inr StUnauthorized
  | Some consumer_key =>
      match find_value (lit "oauth_signature") params with
      | None => inr StBadRequest
      | Some signature =>
          match find_value (lit "oauth_signature_method") params with
          | None => inr StBadRequest
          | Some signature_method =>
              match match find_value (lit "oauth_timestamp") params with
                    | Some v => match parse_u64 v with Some t => inl (Some t) | None => inr StBadRequest end
                    | None => inl None
                    end with
              | inr e => inr e
              | inl timestamp =>
                  inl {| oa_consumer_key := consumer_key; oa_token := find_value (lit "oauth_token") params;
                         oa_signature_method := signature_method; oa_timestamp := timestamp;
                         oa_nonce := find_value (lit "oauth_nonce") params; oa_signature := signature;
                         oa_callback := callback;
                         oa_verifier := find_value (lit "oauth_verifier") params |}
              end
          end
      end
  end.

Lemma get_step' : forall l0 l key, ascending (map fst l) ->
  (forall key', bltb key key' = true -> find_value key' l = find_value key' l0) ->
  exists rest, get l key = (find_value key l, rest) /\ ascending (map fst rest)
    /\ (forall key', bltb key key' = true -> find_value key' rest = find_value key' l0).
Proof.
  intros l0 l key HA HK. destruct (get_spec l key HA) as [H1 [H2 [H3 _]]].
  exists (snd (get l key)). split.
  - rewrite <- H1. now destruct (get l key).
  - split; auto. intros key' H. rewrite H3 by auto. now apply HK.
Qed.

Lemma collect_any : forall search params, search_ok search -> ascending (map fst params) ->
  exists callback, some_value params (lit "oauth_callback") callback
    /\ collect_oauth_params search params = read_params callback params.
Proof.
  intros search params HS HA. unfold collect_oauth_params, read_params.
  match goal with |- context [get ?x (lit "oauth_callback")] => set (l0 := x) end.
  assert (HA0 : ascending (map fst l0)) by (apply ascending_skipn; exact HA).
  assert (H0 : forall key', bltb (lit "oauth_callback") key' = true ->
    find_value key' l0 = find_value key' params).
  { unfold l0. intros key' H. now apply search_find. }
  exists (find_value (lit "oauth_callback") l0). split.
  { unfold some_value. destruct (find_value (lit "oauth_callback") l0) as [v|] eqn:E.
    - apply find_value_in in E. unfold l0 in E. eapply skipn_in; eauto.
    - intros v HI. destruct (HS (lit "oauth_callback") params HA) as [[w H]|[HN _]].
      + apply (find_value_absent _ _ E w). unfold l0. apply nth_error_split in H as [l1 [l2 [E' EL]]].
        rewrite <- EL, E'. rewrite skipn_app_length. now left.
      + apply HN. apply (in_map fst) in HI. exact HI. }
  destruct (get_step' params _ _ HA0 H0) as [l1 [-> [HA1 H1]]].
  destruct (get_step params l1 (lit "oauth_consumer_key") HA1) as [l2 [-> [HA2 H2]]].
  { intros k [Hk|<-]; apply H1; [|reflexivity]. eapply bltb_trans; [|exact Hk]. reflexivity. }
  destruct (find_value (lit "oauth_consumer_key") params); [|reflexivity].
  destruct (get_step params l2 (lit "oauth_nonce") HA2) as [l3 [-> [HA3 H3]]].
  { intros k [Hk|<-]; apply H2; [|reflexivity]. eapply bltb_trans; [|exact Hk]. reflexivity. }
  destruct (get_step params l3 (lit "oauth_signature") HA3) as [l4 [-> [HA4 H4]]].
  { intros k [Hk|<-]; apply H3; [|reflexivity]. eapply bltb_trans; [|exact Hk]. reflexivity. }
  destruct (find_value (lit "oauth_signature") params); [|reflexivity].
  destruct (get_step params l4 (lit "oauth_signature_method") HA4) as [l5 [-> [HA5 H5]]].
  { intros k [Hk|<-]; apply H4; [|reflexivity]. eapply bltb_trans; [|exact Hk]. reflexivity. }
  destruct (find_value (lit "oauth_signature_method") params); [|reflexivity].
  destruct (get_step params l5 (lit "oauth_timestamp") HA5) as [l6 [-> [HA6 H6]]].
  { intros k [Hk|<-]; apply H5; [|reflexivity]. eapply bltb_trans; [|exact Hk]. reflexivity. }
  destruct (match find_value (lit "oauth_timestamp") params with Some _ => _ | None => _ end); [|reflexivity].
  destruct (get_step params l6 (lit "oauth_token") HA6) as [l7 [-> [HA7 H7]]].
  { intros k [Hk|<-]; apply H6; [|reflexivity]. eapply bltb_trans; [|exact Hk]. reflexivity. }
  destruct (get_step params l7 (lit "oauth_verifier") HA7) as [l8 [-> [HA8 H8]]].
  { intros k [Hk|<-]; apply H7; [|reflexivity]. eapply bltb_trans; [|exact Hk]. reflexivity. }
  reflexivity.
Qed.

(** ** The verdict *)

(** [verify_and_then] up to the call of [f]. *)
Definition verdict (wd : world) (req : http_request) (client : Credentials bytes)
    (token : option (Credentials bytes)) (verifier : option bytes) : outcome (status + list pair * OAuthParams) :=
  match form_of req with
  | None => Crash BodyFailed
  | Some form =>
      match collect_params (wd_empty_ok wd) req form with
      | None => Done_ (inl StBadRequest)
      | Some params =>
          match collect_oauth_params (wd_search wd) params with
          | inr code => Done_ (inl code)
          | inl oa =>
              match inner wd req params oa client token verifier with
              | Crash p => Crash p
              | Done_ None => Done_ (inr (params, oa))
              | Done_ (Some code) => Done_ (inl code)
              end
          end
      end
  end.

Lemma verify_verdict : forall wd req client token verifier f,
  verify_and_then wd req client token verifier f
  = match verdict wd req client token verifier with
    | Crash p => Crash p
    | Done_ (inl code) => Done_ (fail code)
    | Done_ (inr (params, oa)) => Done_ (f params oa)
    end.
Proof.
  intros. unfold verify_and_then, verdict. cbv zeta. fold (form_of req).
  destruct (form_of req) as [form|]; [|reflexivity].
  destruct (collect_params _ req form) as [params|]; [|reflexivity].
  destruct (collect_oauth_params _ params) as [oa|]; [|reflexivity].
  destruct (inner _ _ _ _ _ _ _) as [[code|]|]; reflexivity.
Qed.

Lemma andthen_ok : forall x y, x <> Some StOk -> y <> Some StOk -> andthen x y <> Some StOk.
Proof. intros [x|] y H1 H2; auto. Qed.
Lemma presence_ok : forall {A B} (x : option A) (y : option B), check_presence x y <> Some StOk.
Proof. intros A B [x|] [y|]; discriminate. Qed.
Lemma equal_ok : forall x y, check_equal x y <> Some StOk.
Proof. intros [x|] [y|]; cbn; try discriminate. destruct (bseqb x y); discriminate. Qed.
Lemma signature_not_ok : forall wd req params oa client token, check_signature wd req params oa client token <> Some StOk.
Proof.
  intros. unfold check_signature, check_hmac, check_plaintext.
  destruct (bseqb _ _); [|destruct (bseqb _ _); [destruct (plaintext_matches _ _ _)|]; discriminate].
  destruct (oa_timestamp oa), (oa_nonce oa); try discriminate. destruct (Nat.ltb _ _); [discriminate|].
  destruct (wd_base64 _ _); [|discriminate]. destruct (Nat.eqb _ _); [|discriminate].
  cbv zeta. destruct (bseqb _ _); discriminate.
Qed.

Lemma verdict_status : forall wd req client token verifier code,
  verdict wd req client token verifier = Done_ (inl code) -> code <> StOk.
Proof.
  intros wd req client token verifier code. unfold verdict.
  destruct (form_of req) as [form|]; [|discriminate].
  destruct (collect_params _ req form) as [params|]; [|intros E; inversion E; discriminate].
  destruct (collect_oauth_params _ params) as [oa|x] eqn:EC.
  - destruct (inner _ _ _ _ _ _ _) as [[s|]|] eqn:EI; try discriminate. intros E. inversion E; subst.
    unfold inner in EI. destruct (check_time wd (oa_timestamp oa)) as [x|] eqn:ET; [|discriminate].
    intros ->. injection EI. apply andthen_ok.
    + unfold check_time in ET. destruct (wd_now wd); [|discriminate].
      destruct (oa_timestamp oa); [|inversion ET; discriminate].
      destruct (_ <? 2 ^ 64)%N; [|destruct (wd_debug wd); [discriminate|]];
        inversion ET; destruct (_ <? _)%N; discriminate.
    + repeat apply andthen_ok; auto using @presence_ok, equal_ok, signature_not_ok.
      destruct (bseqb _ _); discriminate.
  - intros E. inversion E; subst. unfold collect_oauth_params in EC.
    destruct (get _ (lit "oauth_callback")) as [cb p1].
    destruct (get p1 (lit "oauth_consumer_key")) as [[ck|] p2]; [|inversion EC; discriminate].
    destruct (get p2 (lit "oauth_nonce")) as [nc p3].
    destruct (get p3 (lit "oauth_signature")) as [[sg|] p4]; [|inversion EC; discriminate].
    destruct (get p4 (lit "oauth_signature_method")) as [[sm|] p5]; [|inversion EC; discriminate].
    destruct (get p5 (lit "oauth_timestamp")) as [[ts|] p6]; [destruct (parse_u64 ts); [|inversion EC; discriminate]|];
      destruct (get p6 (lit "oauth_token")) as [tk p7]; destruct (get p7 (lit "oauth_verifier")); discriminate.
Qed.

(** ** Acceptance *)

Lemma andthen_none : forall x y, andthen x y = None <-> x = None /\ y = None.
Proof. intros [x|] y; cbn; intuition discriminate. Qed.
Lemma equal_none : forall x y, check_presence x y = None /\ check_equal x y = None <-> x = y.
Proof.
  intros [x|] [y|]; cbn; try (intuition discriminate). destruct (bseqb x y) eqn:E.
  - apply bseqb_eq in E. subst. tauto.
  - apply bseqb_neq in E. split; [intros [_ X]; discriminate|]. congruence.
Qed.
Lemma presence_map : forall {A B C} (g : A -> C) (x : option A) (y : option B),
  check_presence (option_map g x) y = check_presence x y.
Proof. intros A B C g [x|] [y|]; reflexivity. Qed.

Lemma check_time_some : forall wd t, (t < 2 ^ 64)%N -> (check_time wd (Some t) = Done_ None <-> in_time wd t).
Proof.
  intros wd t HT. unfold check_time, in_time. destruct (wd_now wd) as [now|].
  2: { split; [discriminate|]. intros [n [E _]]. discriminate. }
  set (two := (2 ^ 64)%N) in *.
  assert (HW : (30 < two)%N) by reflexivity.
  destruct (N.ltb_spec (t + 30) two) as [H|H].
  - rewrite N.mod_small by lia. destruct (N.ltb_spec (t + 30) now) as [H'|H'].
    + split; [discriminate|]. intros [n [E HN]]. inversion E; subst. destruct (wd_debug wd); lia.
    + split; auto. intros _. exists now. split; auto. destruct (wd_debug wd); lia.
  - destruct (wd_debug wd).
    + split; [discriminate|]. intros [n [E HN]]. lia.
    + assert (EM : ((t + 30) mod two = t + 30 - two)%N).
      { symmetry. apply (N.mod_unique _ _ 1%N); lia. }
      rewrite EM. destruct (N.ltb_spec (t + 30 - two) now) as [H'|H'].
      * split; [discriminate|]. intros [n [E HN]]. inversion E; subst. lia.
      * split; auto. intros _. exists now. auto.
Qed.
Lemma check_time_absent : forall wd, check_time wd None = Done_ None <-> wd_now wd <> None.
Proof. intros wd. unfold check_time. destruct (wd_now wd); split; congruence. Qed.

(** What the handler is told about accepted parameters. *)
Record told (l : list pair) (oa : OAuthParams) : Prop := {
  td_client : has_value l (lit "oauth_consumer_key") (Some (oa_consumer_key oa));
  td_token : has_value l (lit "oauth_token") (oa_token oa);
  td_verifier : has_value l (lit "oauth_verifier") (oa_verifier oa);
  td_method : has_value l (lit "oauth_signature_method") (Some (oa_signature_method oa));
  td_signature : has_value l (lit "oauth_signature") (Some (oa_signature oa));
  td_nonce : has_value l (lit "oauth_nonce") (oa_nonce oa);
  td_timestamp : match oa_timestamp oa with
                 | Some t => exists s, has_value l (lit "oauth_timestamp") (Some s) /\ number s t
                 | None => has_value l (lit "oauth_timestamp") None
                 end;
  td_callback : some_value l (lit "oauth_callback") (oa_callback oa);
}.

Lemma read_params_told : forall callback l oa, some_value l (lit "oauth_callback") callback ->
  read_params callback (sort_pairs l) = inl oa -> told l oa.
Proof.
  intros callback l oa HC H. unfold read_params in H.
  destruct (find_value (lit "oauth_consumer_key") (sort_pairs l)) as [ck|] eqn:E1; [|discriminate].
  destruct (find_value (lit "oauth_signature") (sort_pairs l)) as [sg|] eqn:E2; [|discriminate].
  destruct (find_value (lit "oauth_signature_method") (sort_pairs l)) as [sm|] eqn:E3; [|discriminate].
  destruct (find_value (lit "oauth_timestamp") (sort_pairs l)) as [ts|] eqn:E4.
  - destruct (parse_u64 ts) as [t|] eqn:E5; [|discriminate]. inversion H; subst.
    constructor;
      cbn [oa_consumer_key oa_token oa_verifier oa_signature_method oa_signature oa_nonce oa_timestamp oa_callback];
      auto; try (now apply has_value_iff). exists ts. split; [now apply has_value_iff|].
    now apply number_iff.
  - inversion H; subst. constructor;
      cbn [oa_consumer_key oa_token oa_verifier oa_signature_method oa_signature oa_nonce oa_timestamp oa_callback];
      auto; now apply has_value_iff.
Qed.

Lemma told_time : forall wd l oa, told l oa -> (check_time wd (oa_timestamp oa) = Done_ None <-> timely wd l).
Proof.
  intros wd l oa H. pose proof (td_timestamp _ _ H) as HT. unfold timely. destruct (oa_timestamp oa) as [t|].
  - destruct HT as [s [HS HN]]. rewrite check_time_some.
    2: { destruct HN as [? [_ [_ [_ HN]]]]. exact HN. }
    split.
    + intros HI. right. eauto.
    + intros [[HS' _]|[s' [t' [HS' [HN' HI]]]]].
      * pose proof (has_value_fun _ _ _ _ HS HS'). discriminate.
      * pose proof (has_value_fun _ _ _ _ HS HS') as E. inversion E; subst. apply number_iff in HN, HN'. congruence.
  - rewrite check_time_absent. split.
    + intros HW. left. auto.
    + intros [[_ HW]|[s' [t' [HS' _]]]]; auto. pose proof (has_value_fun _ _ _ _ HT HS'). discriminate.
Qed.

Lemma told_signature : forall wd req l oa client token, told l oa ->
  (check_signature wd req (sort_pairs l) oa client token = None <-> signature_ok wd req client token l).
Proof.
  intros wd req l oa client token H. pose proof (td_method _ _ H) as HM. pose proof (td_signature _ _ H) as HG.
  unfold check_signature. split.
  - destruct (bseqb (oa_signature_method oa) (lit "HMAC-SHA1")) eqn:E1.
    + apply bseqb_eq in E1. rewrite E1 in HM. unfold check_hmac. pose proof (td_timestamp _ _ H) as HT.
      pose proof (td_nonce _ _ H) as HN.
      destruct (oa_timestamp oa) as [t|]; [|discriminate]. destruct (oa_nonce oa) as [n|]; [|discriminate].
      destruct (Nat.ltb_spec 28 (length (oa_signature oa))) as [HL|HL]; [discriminate|].
      destruct (wd_base64 wd (oa_signature oa)) as [x|] eqn:EB; [|discriminate].
      destruct (Nat.eqb_spec (length x) 20) as [HX|HX]; [|discriminate]. cbv zeta.
      match goal with |- (if bseqb ?a ?b then _ else _) = _ -> _ => destruct (bseqb a b) eqn:E2; [|discriminate] end.
      intros _. apply bseqb_eq in E2. rewrite create_base_string_spec in E2. destruct HT as [s [HT _]].
      apply (so_hmac _ _ _ _ _ _ s n HM HG HT HN); [lia|]. rewrite EB, E2. reflexivity.
    + destruct (bseqb (oa_signature_method oa) (lit "PLAINTEXT")) eqn:E2; [|discriminate].
      apply bseqb_eq in E2. rewrite E2 in HM. intros _. now apply (so_plaintext _ _ _ _ _ (oa_signature oa)).
  - intros [s t n HM' HG' HT' HN' HL HB|s HM' HG'].
    + pose proof (has_value_fun _ _ _ _ HM HM') as E. inversion E as [E1]. rewrite E1, bseqb_refl.
      pose proof (has_value_fun _ _ _ _ HG HG') as E'. inversion E' as [E2]. unfold check_hmac.
      pose proof (has_value_fun _ _ _ _ (td_nonce _ _ H) HN') as ->. pose proof (td_timestamp _ _ H) as HT.
      destruct (oa_timestamp oa) as [u|].
      2: { pose proof (has_value_fun _ _ _ _ HT HT'). discriminate. }
      rewrite E2. destruct (Nat.ltb_spec 28 (length s)) as [HL'|HL']; [lia|].
      rewrite HB, hmac_length. change (Nat.eqb 20 20) with true. cbv iota zeta.
      rewrite create_base_string_spec. unfold plain_key, secret_of. now rewrite bseqb_refl.
    + pose proof (has_value_fun _ _ _ _ HM HM') as E. inversion E as [E1]. rewrite E1.
      change (bseqb (lit "PLAINTEXT") (lit "HMAC-SHA1")) with false. rewrite bseqb_refl.
      unfold check_plaintext. now destruct (plaintext_matches oa client token).
Qed.

Lemma inner_none : forall wd req l oa client token verifier, told l oa ->
  (inner wd req (sort_pairs l) oa client token verifier = Done_ None <->
   has_value l (lit "oauth_consumer_key") (Some (cr_identifier client))
   /\ has_value l (lit "oauth_token") (option_map cr_identifier token)
   /\ has_value l (lit "oauth_verifier") verifier /\ timely wd l /\ signature_ok wd req client token l).
Proof.
  intros wd req l oa client token verifier H. rewrite <- (told_time wd l oa H), <- (told_signature wd req l oa client token H).
  assert (E1 : has_value l (lit "oauth_consumer_key") (Some (cr_identifier client)) <-> cr_identifier client = oa_consumer_key oa).
  { split.
    - intros X. pose proof (has_value_fun _ _ _ _ X (td_client _ _ H)). congruence.
    - intros ->. apply (td_client _ _ H). }
  assert (E2 : forall key o o', has_value l key o' -> (has_value l key o <-> o = o')).
  { intros key o o' X. split; [|now intros ->]. intros X'. eapply has_value_fun; eauto. }
  rewrite E1, (E2 _ _ _ (td_token _ _ H)), (E2 _ _ _ (td_verifier _ _ H)).
  rewrite <- (equal_none verifier), <- (equal_none (option_map cr_identifier token)), presence_map.
  unfold inner. destruct (check_time wd (oa_timestamp oa)) as [x|p]; [|split; [discriminate|intuition discriminate]].
  split.
  - intros E. injection E as E. rewrite !andthen_none in E. destruct E as [-> [P1 [P2 [P3 [P4 [P5 P6]]]]]].
    destruct (bseqb (cr_identifier client) (oa_consumer_key oa)) eqn:EB; [|discriminate].
    apply bseqb_eq in EB. tauto.
  - intros [P1 [[P2 P3] [[P4 P5] [P6 P7]]]]. injection P6 as ->. rewrite P2, P4, P7, P1, bseqb_refl, P3, P5. reflexivity.
Qed.

Lemma verdict_accept : forall wd req client token verifier params oa, search_ok (wd_search wd) ->
  verdict wd req client token verifier = Done_ (inr (params, oa)) ->
  exists l, authentic wd req client token verifier l /\ params = sort_pairs l /\ told l oa.
Proof.
  intros wd req client token verifier params oa HS H. unfold verdict in H.
  assert (HP : params_of wd req = match form_of req with
    | Some form => collect_params (wd_empty_ok wd) req form | None => None end) by reflexivity.
  destruct (form_of req) as [form|]; [|discriminate].
  destruct (collect_params (wd_empty_ok wd) req form) as [ps|]; [|discriminate].
  apply params_of_iff in HP as [l [HR ->]].
  destruct (collect_any _ (sort_pairs l) HS (sorted_ascending _ (sort_sorted l))) as [cb [HC EC]].
  rewrite EC in H. destruct (read_params cb (sort_pairs l)) as [oa'|] eqn:ER; [|discriminate].
  assert (HC' : some_value l (lit "oauth_callback") cb).
  { destruct cb as [v|]; cbn in *.
    - eapply Permutation_in; [|exact HC]. symmetry. apply sort_perm.
    - intros v HI. apply (HC v). eapply Permutation_in; [|exact HI]. apply sort_perm. }
  pose proof (read_params_told cb l oa' HC' ER) as HT.
  destruct (inner wd req (sort_pairs l) oa' client token verifier) as [[s|]|] eqn:EI; try discriminate.
  injection H as <- <-. apply (inner_none wd req l oa' client token verifier HT) in EI as [P1 [P2 [P3 [P4 P5]]]].
  exists l. split; [now constructor|]. now split.
Qed.

Lemma authentic_accept : forall wd req client token verifier l, search_ok (wd_search wd) ->
  authentic wd req client token verifier l ->
  exists oa, verdict wd req client token verifier = Done_ (inr (sort_pairs l, oa)) /\ told l oa.
Proof.
  intros wd req client token verifier l HS [A1 A2 A3 A4 A5 A6].
  assert (HP : params_of wd req = Some (sort_pairs l)) by (apply params_of_iff; eauto).
  unfold params_of in HP. unfold verdict. destruct (form_of req) as [form|]; [|discriminate]. rewrite HP.
  destruct (collect_any _ (sort_pairs l) HS (sorted_ascending _ (sort_sorted l))) as [cb [HC EC]].
  rewrite EC.
  assert (HC' : some_value l (lit "oauth_callback") cb).
  { destruct cb as [v|]; cbn in *.
    - eapply Permutation_in; [|exact HC]. symmetry. apply sort_perm.
    - intros v HI. apply (HC v). eapply Permutation_in; [|exact HI]. apply sort_perm. }
  destruct (read_params cb (sort_pairs l)) as [oa|code] eqn:ER.
  - pose proof (read_params_told cb l oa HC' ER) as HT. exists oa. split; auto.
    rewrite (proj2 (inner_none wd req l oa client token verifier HT)); auto.
  - exfalso. unfold read_params in ER. apply has_value_iff in A2. rewrite A2 in ER.
    assert (HG : exists s m, has_value l (lit "oauth_signature") (Some s) /\ has_value l (lit "oauth_signature_method") (Some m)).
    { destruct A6; eauto. }
    destruct HG as [s [m [G1 G2]]]. apply has_value_iff in G1, G2. rewrite G1, G2 in ER.
    destruct A5 as [[T1 T2]|[u [t [T1 [T2 _]]]]]; apply has_value_iff in T1; rewrite T1 in ER; [discriminate|].
    apply number_iff in T2. rewrite T2 in ER. discriminate.
Qed.
