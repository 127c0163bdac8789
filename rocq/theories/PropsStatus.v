(** C59 exactly, and C80: which status the example server answers with. *)
From Coq Require Import String.
From Coq Require Import Lia Arith Sorted Permutation NArith ZifyN.
From Verif Require Import Bytes Crypto Spec MFmt MPercent MSerializer MSign MRequest MCredentials MAuth MBuilder
  SpecFmt SpecCalls SpecCalls2 SpecAuth SpecBuild SpecForm SpecServer SpecParams SpecSign SpecHttp
  LBytes LFmt LPercent LBase LBase2 MHttp LHttp MServer LGrammar SpecExample LExample LExample2 PropsExample.

(** ** Specification *)

(** The three endpoints, and whom they expect. *)
Inductive endpoint (req : http_request) : Credentials bytes -> option (Credentials bytes) -> option bytes -> Prop :=
  | ep_echo : In (rq_method req) [lit "GET"; lit "POST"] -> rq_path req = lit "/echo" ->
      endpoint req (Cred (lit "client") (lit "client_secret")) (Some (Cred (lit "token") (lit "token_secret"))) None
  | ep_temporary : rq_method req = lit "POST" -> rq_path req = lit "/request_temp_credentials" ->
      endpoint req (Cred (lit "client") (lit "client_secret")) None None
  | ep_token : rq_method req = lit "POST" -> rq_path req = lit "/request_token" ->
      endpoint req (Cred (lit "client") (lit "client_secret")) (Some (Cred (lit "request") (lit "request_secret")))
        (Some (lit "verifier")).

Definition lacks (l : list pair) (key : string) : Prop := has_value l (lit key) None.
Definition gives (l : list pair) (key : string) (v : bytes) : Prop := has_value l (lit key) (Some v).

(** What may be wrong with the parameters, in the order in which it is noticed. *)
Definition too_old (wd : world) (t : N) : Prop :=
  exists now, wd_now wd = Some now /\ ((if wd_debug wd then t + 30 else (t + 30) mod 2 ^ 64) < now)%N.

Definition form_problems (l : list pair) : list (Prop * status) :=
  [ (lacks l "oauth_consumer_key", StUnauthorized);
    (lacks l "oauth_signature", StBadRequest);
    (lacks l "oauth_signature_method", StBadRequest);
    (exists s, gives l "oauth_timestamp" s /\ forall t, ~ number s t, StBadRequest) ].

Definition problems (wd : world) (req : http_request) (client : Credentials bytes)
    (token : option (Credentials bytes)) (verifier : option bytes) (l : list pair) : list (Prop * status) :=
  form_problems l ++
  [ (exists s t, gives l "oauth_timestamp" s /\ number s t /\ too_old wd t, StUnauthorized);
    (token <> None /\ lacks l "oauth_token", StUnauthorized);
    (token = None /\ ~ lacks l "oauth_token", StBadRequest);
    (verifier <> None /\ lacks l "oauth_verifier", StUnauthorized);
    (verifier = None /\ ~ lacks l "oauth_verifier", StBadRequest);
    (~ gives l "oauth_signature_method" (lit "HMAC-SHA1") /\ ~ gives l "oauth_signature_method" (lit "PLAINTEXT"),
     StBadRequest);
    (gives l "oauth_signature_method" (lit "HMAC-SHA1") /\ (lacks l "oauth_timestamp" \/ lacks l "oauth_nonce"),
     StBadRequest);
    (gives l "oauth_signature_method" (lit "HMAC-SHA1")
     /\ exists s, gives l "oauth_signature" s
        /\ (28 < length s \/ forall x, wd_base64 wd s = Some x -> length x <> 20), StBadRequest);
    (gives l "oauth_signature_method" (lit "HMAC-SHA1")
     /\ exists s x, gives l "oauth_signature" s /\ wd_base64 wd s = Some x
        /\ x <> hmac_sha1 (plain_key (cr_secret client) (secret_of token))
                  (raw_base_string (rq_method req) (origin ++ rq_path req) (without_signature l)), StUnauthorized);
    (~ gives l "oauth_consumer_key" (cr_identifier client), StUnauthorized);
    (exists t, token = Some t /\ ~ gives l "oauth_token" (cr_identifier t), StUnauthorized);
    (exists v, verifier = Some v /\ ~ gives l "oauth_verifier" v, StUnauthorized) ].

(** The first that applies. *)
Inductive first : list (Prop * status) -> option status -> Prop :=
  | first_none : first [] None
  | first_here : forall (P : Prop) s ps, P -> first ((P, s) :: ps) (Some s)
  | first_later : forall (P : Prop) s ps o, ~ P -> first ps o -> first ((P, s) :: ps) o.

Lemma first_fun : forall ps o o', first ps o -> first ps o' -> o = o'.
Proof.
  intros ps o o' H. revert o'. induction H; intros o' H'; inversion H'; subst; auto; contradiction.
Qed.
Lemma first_app : forall ps qs, first ps None -> forall o, first qs o -> first (ps ++ qs) o.
Proof.
  intros ps. induction ps as [|[P s] ps IH]; intros qs H o HQ; auto. inversion H; subst. cbn [app].
  apply first_later; auto.
Qed.
Lemma first_app_some : forall ps qs s, first ps (Some s) -> first (ps ++ qs) (Some s).
Proof.
  intros ps. induction ps as [|[P t] ps IH]; intros qs s H; inversion H; subst; cbn [app].
  - now apply first_here.
  - apply first_later; auto.
Qed.

(** Nothing is missing that is always needed. *)
Definition readable (l : list pair) : Prop := first (form_problems l) None.

(** ** Lemmas *)

Lemma params_unique : forall wd req l l', request_params (wd_empty_ok wd) req l ->
  request_params (wd_empty_ok wd) req l' -> sort_pairs l = sort_pairs l'.
Proof.
  intros wd req l l' H H'.
  assert (E1 : params_of wd req = Some (sort_pairs l)) by (apply params_of_iff; eauto).
  assert (E2 : params_of wd req = Some (sort_pairs l')) by (apply params_of_iff; eauto). congruence.
Qed.

Ltac later := apply first_later; [unfold lacks, gives in *; rewrite ?has_value_iff in *; try congruence|].

Lemma read_params_first : forall cb l,
  match read_params cb (sort_pairs l) with
  | inl oa => readable l
  | inr code => first (form_problems l) (Some code)
  end.
Proof.
  intros cb l. unfold read_params, readable, form_problems.
  destruct (find_value (lit "oauth_consumer_key") (sort_pairs l)) as [ck|] eqn:E1.
  2: { apply first_here. unfold lacks. now apply has_value_iff. }
  destruct (find_value (lit "oauth_signature") (sort_pairs l)) as [sg|] eqn:E2.
  2: { later. apply first_here. unfold lacks. now apply has_value_iff. }
  destruct (find_value (lit "oauth_signature_method") (sort_pairs l)) as [sm|] eqn:E3.
  2: { later. later. apply first_here. unfold lacks. now apply has_value_iff. }
  destruct (find_value (lit "oauth_timestamp") (sort_pairs l)) as [ts|] eqn:E4.
  - destruct (parse_u64 ts) as [t|] eqn:E5.
    + later. later. later. later.
      * intros [s [H1 H2]]. apply has_value_iff in H1. rewrite E4 in H1. injection H1 as <-.
        apply number_iff in E5. now apply (H2 t).
      * constructor.
    + later. later. later. apply first_here. exists ts. split; [now apply has_value_iff|].
      intros t HN. apply number_iff in HN. congruence.
  - later. later. later. later.
    + intros [s [H1 _]]. apply has_value_iff in H1. congruence.
    + constructor.
Qed.

Definition inner_problems (wd : world) (req : http_request) (client : Credentials bytes)
    (token : option (Credentials bytes)) (verifier : option bytes) (l : list pair) : list (Prop * status) :=
  skipn 4 (problems wd req client token verifier l).

Lemma check_hmac_first : forall wd req l oa client token, told l oa -> oa_signature_method oa = lit "HMAC-SHA1" ->
  match check_hmac wd req (sort_pairs l) oa client token with
  | None => oa_timestamp oa <> None /\ oa_nonce oa <> None /\ length (oa_signature oa) <= 28
      /\ wd_base64 wd (oa_signature oa) = Some (hmac_sha1 (plain_key (cr_secret client) (secret_of token))
                  (raw_base_string (rq_method req) (origin ++ rq_path req) (without_signature l)))
  | Some code =>
      (code = StBadRequest /\ (oa_timestamp oa = None \/ oa_nonce oa = None))
      \/ (oa_timestamp oa <> None /\ oa_nonce oa <> None
          /\ ((code = StBadRequest /\ (28 < length (oa_signature oa)
                \/ forall x, wd_base64 wd (oa_signature oa) = Some x -> length x <> 20))
              \/ (code = StUnauthorized /\ length (oa_signature oa) <= 28
                  /\ exists x, wd_base64 wd (oa_signature oa) = Some x /\ length x = 20
                     /\ x <> hmac_sha1 (plain_key (cr_secret client) (secret_of token))
                  (raw_base_string (rq_method req) (origin ++ rq_path req) (without_signature l)))))
  end.
Proof.
  intros wd req l oa client token HT HM. unfold check_hmac.
  destruct (oa_timestamp oa) as [t|]; [|left; auto].
  destruct (oa_nonce oa) as [n|]; [|left; auto].
  destruct (Nat.ltb_spec 28 (length (oa_signature oa))) as [HL|HL].
  { right. repeat split; try discriminate. left. auto. }
  destruct (wd_base64 wd (oa_signature oa)) as [x|] eqn:EB.
  2: { right. repeat split; try discriminate. left. split; auto. right. discriminate. }
  destruct (Nat.eqb_spec (length x) 20) as [HX|HX].
  2: { right. repeat split; try discriminate. left. split; auto. right. intros y E. injection E as <-. exact HX. }
  cbv zeta. rewrite create_base_string_spec. unfold plain_key, secret_of.
  match goal with |- context [bseqb x ?y] => destruct (bseqb x y) eqn:E2 end.
  - apply bseqb_eq in E2. rewrite E2. repeat split; try discriminate. exact HL.
  - right. repeat split; try discriminate. right. repeat split; auto. exists x. repeat split; auto.
    intros ->. now rewrite bseqb_refl in E2.
Qed.

Lemma told_value : forall l key o o', has_value l key o' -> (has_value l key o <-> o = o').
Proof. intros l key o o' X. split; [|now intros ->]. intros X'. eapply has_value_fun; eauto. Qed.

Lemma check_time_first : forall wd l oa, told l oa ->
  match check_time wd (oa_timestamp oa) with
  | Done_ None => wd_now wd <> None /\ ~ (exists s t, gives l "oauth_timestamp" s /\ number s t /\ too_old wd t)
                  /\ (wd_debug wd = false \/ ~ exists s t, gives l "oauth_timestamp" s /\ number s t /\ (2 ^ 64 <= t + 30)%N)
  | Done_ (Some code) => code = StUnauthorized /\ wd_now wd <> None
                  /\ (exists s t, gives l "oauth_timestamp" s /\ number s t /\ too_old wd t)
                  /\ (wd_debug wd = false \/ ~ exists s t, gives l "oauth_timestamp" s /\ number s t /\ (2 ^ 64 <= t + 30)%N)
  | Crash BodyFailed => False
  | Crash ClockBackwards => wd_now wd = None
  | Crash TimestampOverflow => wd_now wd <> None /\ wd_debug wd = true
      /\ exists s t, gives l "oauth_timestamp" s /\ number s t /\ (2 ^ 64 <= t + 30)%N
  end.
Proof.
  intros wd l oa HT. pose proof (td_timestamp _ _ HT) as H. unfold check_time.
  destruct (wd_now wd) as [now|] eqn:EN; [|reflexivity].
  destruct (oa_timestamp oa) as [t|].
  - destruct H as [s [H1 H2]].
    assert (HU : forall s' t', gives l "oauth_timestamp" s' -> number s' t' -> t' = t).
    { intros s' t' G1 G2. pose proof (has_value_fun _ _ _ _ H1 G1) as E. injection E as <-.
      apply number_iff in H2, G2. congruence. }
    assert (HB : (t < 2 ^ 64)%N) by (destruct H2 as [? [_ [_ [_ X]]]]; exact X).
    cbv zeta. set (two := (2 ^ 64)%N) in *. assert (HT2 : (30 < two)%N) by reflexivity.
    destruct (N.ltb_spec (t + 30) two) as [HL|HL].
    + assert (EM : ((t + 30) mod two = t + 30)%N) by (apply N.mod_small; exact HL).
      assert (HO : ~ exists s t, gives l "oauth_timestamp" s /\ number s t /\ (two <= t + 30)%N).
      { intros [s' [t' [G1 [G2 G3]]]]. rewrite (HU s' t' G1 G2) in G3. lia. }
      destruct (N.ltb_spec (t + 30) now) as [HA|HA].
      * repeat split; try congruence; auto. exists s, t. repeat split; auto. all: try apply H1; try apply H2.
        exists now. split; auto. fold two. rewrite EM. now destruct (wd_debug wd).
      * repeat split; try congruence; auto. intros [s' [t' [G1 [G2 [now' [G3 G4]]]]]].
        rewrite (HU s' t' G1 G2) in G4. fold two in G4. rewrite EM in G4. assert (now' = now) by congruence. subst.
        destruct (wd_debug wd); lia.
    + assert (EM : ((t + 30) mod two = t + 30 - two)%N).
      { symmetry. apply (N.mod_unique _ _ 1%N); lia. }
      destruct (wd_debug wd) eqn:ED.
      * repeat split; try congruence. exists s, t. auto.
      * destruct (N.ltb_spec (t + 30 - two) now) as [HA|HA].
        -- repeat split; try congruence; auto. exists s, t. repeat split; auto. all: try apply H1; try apply H2.
           exists now. split; auto. fold two. rewrite ED, EM. exact HA.
        -- repeat split; try congruence; auto. intros [s' [t' [G1 [G2 [now' [G3 G4]]]]]].
           rewrite (HU s' t' G1 G2) in G4. fold two in G4. rewrite ED, EM in G4. assert (now' = now) by congruence.
           subst. lia.
  - repeat split; try congruence.
    + intros [s [t [G _]]]. pose proof (has_value_fun _ _ _ _ H G). discriminate.
    + right. intros [s [t [G _]]]. pose proof (has_value_fun _ _ _ _ H G). discriminate.
Qed.

Lemma inner_first : forall wd req l oa client token verifier, told l oa ->
  match inner wd req (sort_pairs l) oa client token verifier with
  | Done_ o => first (inner_problems wd req client token verifier l) o /\ wd_now wd <> None
      /\ (wd_debug wd = false \/ ~ exists s t, gives l "oauth_timestamp" s /\ number s t /\ (2 ^ 64 <= t + 30)%N)
  | Crash BodyFailed => False
  | Crash ClockBackwards => wd_now wd = None
  | Crash TimestampOverflow => wd_now wd <> None /\ wd_debug wd = true
      /\ exists s t, gives l "oauth_timestamp" s /\ number s t /\ (2 ^ 64 <= t + 30)%N
  end.
Proof.
  intros wd req l oa client token verifier HT. unfold inner.
  pose proof (check_time_first wd l oa HT) as HTM.
  destruct (check_time wd (oa_timestamp oa)) as [[code|]|p]; [| |exact HTM].
  { destruct HTM as [-> [H1 [H2 H3]]]. cbn [andthen]. split; [|auto]. apply first_here. exact H2. }
  destruct HTM as [H1 [H2 H3]]. cbn [andthen]. split; [|auto]. clear H1 H3.
  unfold inner_problems, problems, form_problems. cbn [app skipn]. apply first_later; [exact H2|]. clear H2.
  pose proof (fun o => told_value l _ o _ (td_client _ _ HT)) as VC.
  pose proof (fun o => told_value l _ o _ (td_token _ _ HT)) as VT.
  pose proof (fun o => told_value l _ o _ (td_verifier _ _ HT)) as VV.
  pose proof (fun o => told_value l _ o _ (td_method _ _ HT)) as VM.
  pose proof (fun o => told_value l _ o _ (td_signature _ _ HT)) as VS.
  pose proof (fun o => told_value l _ o _ (td_nonce _ _ HT)) as VN.
  assert (VTS : has_value l (lit "oauth_timestamp") None <-> oa_timestamp oa = None).
  { pose proof (td_timestamp _ _ HT) as H. destruct (oa_timestamp oa) as [t|].
    - destruct H as [s [H _]]. split; [|discriminate]. intros G. pose proof (has_value_fun _ _ _ _ H G). discriminate.
    - split; auto. }
  unfold lacks, gives.
  assert (PT : forall ps o, (check_presence token (oa_token oa) = None -> first ps o) ->
    first ((token <> None /\ has_value l (lit "oauth_token") None, StUnauthorized)
           :: (token = None /\ ~ has_value l (lit "oauth_token") None, StBadRequest) :: ps)
      (andthen (check_presence token (oa_token oa)) o)).
  { intros ps o H. destruct token as [tk|], (oa_token oa) as [x|]; cbn [check_presence andthen] in *.
    - apply first_later; [rewrite VT; intuition congruence|]. apply first_later; [intuition congruence|]. auto.
    - apply first_here. rewrite VT. split; congruence.
    - apply first_later; [intuition congruence|]. apply first_here. rewrite VT. split; congruence.
    - apply first_later; [intuition congruence|]. apply first_later; [rewrite VT; intuition congruence|]. auto. }
  apply PT. clear PT. intros HPT.
  assert (PV : forall ps o, (check_presence verifier (oa_verifier oa) = None -> first ps o) ->
    first ((verifier <> None /\ has_value l (lit "oauth_verifier") None, StUnauthorized)
           :: (verifier = None /\ ~ has_value l (lit "oauth_verifier") None, StBadRequest) :: ps)
      (andthen (check_presence verifier (oa_verifier oa)) o)).
  { intros ps o H. destruct verifier as [tk|], (oa_verifier oa) as [x|]; cbn [check_presence andthen] in *.
    - apply first_later; [rewrite VV; intuition congruence|]. apply first_later; [intuition congruence|]. auto.
    - apply first_here. rewrite VV. split; congruence.
    - apply first_later; [intuition congruence|]. apply first_here. rewrite VV. split; congruence.
    - apply first_later; [intuition congruence|]. apply first_later; [rewrite VV; intuition congruence|]. auto. }
  apply PV. clear PV. intros HPV.
  match goal with |- first (_ :: _ :: _ :: _ :: ?t) (andthen _ ?r) =>
    assert (HR : first t r); [|generalize dependent t; generalize r; clear VT VV VC HPT HPV; intros o rest HR] end.
  - assert (EC : bseqb (cr_identifier client) (oa_consumer_key oa) = true <-> has_value l (lit "oauth_consumer_key") (Some (cr_identifier client))).
    { rewrite VC, bseqb_eq. split; congruence. }
    destruct (bseqb (cr_identifier client) (oa_consumer_key oa)); cbn [andthen].
    2: { apply first_here. rewrite <- EC. discriminate. }
    apply first_later; [rewrite <- EC; congruence|].
    assert (HV : first [(exists v, verifier = Some v /\ ~ has_value l (lit "oauth_verifier") (Some v), StUnauthorized)]
                   (check_equal verifier (oa_verifier oa))).
    { destruct verifier as [v|], (oa_verifier oa) as [y|]; try discriminate HPV; cbn [check_equal].
      - destruct (bseqb v y) eqn:E.
        + apply bseqb_eq in E. subst. apply first_later; [|constructor]. intros [v [E H]]. injection E as <-.
          apply H. now apply VV.
        + apply first_here. exists v. split; auto. rewrite VV. intros X. injection X as ->. now rewrite bseqb_refl in E.
      - apply first_later; [|constructor]. intros [v [E _]]. discriminate. }
    destruct token as [v|], (oa_token oa) as [y|]; try discriminate HPT; cbn [check_equal option_map].
    + destruct (bseqb (cr_identifier v) y) eqn:E; cbn [andthen].
      * apply bseqb_eq in E. apply first_later; [|exact HV]. intros [v' [E' H]]. injection E' as <-.
        apply H. apply VT. now rewrite E.
      * apply first_here. exists v. split; auto. rewrite VT. intros X. injection X as X. rewrite X, bseqb_refl in E. discriminate.
    + apply first_later; [|exact HV]. intros [v [E _]]. discriminate.
  - unfold check_signature. destruct (bseqb (oa_signature_method oa) (lit "HMAC-SHA1")) eqn:E1.
    + apply bseqb_eq in E1. assert (GM : has_value l (lit "oauth_signature_method") (Some (lit "HMAC-SHA1"))).
      { apply VM. now rewrite E1. }
      apply first_later; [intros [X _]; contradiction|].
      pose proof (check_hmac_first wd req l oa client token HT E1) as HH.
      destruct (check_hmac wd req (sort_pairs l) oa client token) as [code|]; cbn [andthen].
      * destruct HH as [[-> HH]|[HH1 [HH2 HH]]].
        { apply first_here. split; auto. rewrite VTS, VN. destruct HH as [HH|HH]; auto. }
        apply first_later; [rewrite VTS, VN; intuition congruence|].
        destruct HH as [[-> HH]|[-> [HL [x [HB [HX HN]]]]]].
        { apply first_here. split; auto. exists (oa_signature oa). split; [now apply VS|exact HH]. }
        apply first_later.
        { intros [_ [s [G [G'|G']]]]; apply VS in G; injection G as ->; [lia|]. now apply (G' x). }
        apply first_here. split; auto. exists (oa_signature oa), x. split; [now apply VS|]. split; auto.
      * destruct HH as [HH1 [HH2 [HL HB]]].
        apply first_later; [rewrite VTS, VN; intuition congruence|].
        apply first_later.
        { intros [_ [s [G [G'|G']]]]; apply VS in G; injection G as ->; [lia|]. apply (G' _ HB). apply hmac_length. }
        apply first_later; [|exact HR].
        intros [_ [s [x [G [G' G'']]]]]. apply VS in G. injection G as ->. congruence.
    + assert (GM : ~ has_value l (lit "oauth_signature_method") (Some (lit "HMAC-SHA1"))).
      { rewrite VM. intros X. injection X as X. rewrite <- X, bseqb_refl in E1. discriminate. }
      destruct (bseqb (oa_signature_method oa) (lit "PLAINTEXT")) eqn:E2.
      * apply bseqb_eq in E2.
        assert (EP : check_plaintext oa client token = None) by (unfold check_plaintext; now destruct (plaintext_matches _ _ _)).
        rewrite EP. cbn [andthen]. apply first_later; [intros [_ X]; apply X; apply VM; now rewrite E2|].
        do 3 (apply first_later; [intros [X _]; contradiction|]). exact HR.
      * apply first_here. split; auto. rewrite VM. intros X. injection X as X. rewrite <- X, bseqb_refl in E2. discriminate.
Qed.

(** The verdict on a request whose parameters can be read. *)
Lemma verdict_first : forall wd req client token verifier l, search_ok (wd_search wd) ->
  request_params (wd_empty_ok wd) req l ->
  match verdict wd req client token verifier with
  | Done_ (inl code) => first (problems wd req client token verifier l) (Some code)
      /\ (readable l -> wd_now wd <> None
          /\ (wd_debug wd = false \/ ~ exists s t, gives l "oauth_timestamp" s /\ number s t /\ (2 ^ 64 <= t + 30)%N))
  | Done_ (inr (params, oa)) => first (problems wd req client token verifier l) None /\ told l oa
      /\ params = sort_pairs l /\ wd_now wd <> None
          /\ (wd_debug wd = false \/ ~ exists s t, gives l "oauth_timestamp" s /\ number s t /\ (2 ^ 64 <= t + 30)%N)
  | Crash BodyFailed => False
  | Crash ClockBackwards => readable l /\ wd_now wd = None
  | Crash TimestampOverflow => readable l /\ wd_now wd <> None /\ wd_debug wd = true
      /\ exists s t, gives l "oauth_timestamp" s /\ number s t /\ (2 ^ 64 <= t + 30)%N
  end.
Proof.
  intros wd req client token verifier l HS HP.
  assert (HPO : params_of wd req = Some (sort_pairs l)) by (apply params_of_iff; eauto).
  unfold params_of in HPO. unfold verdict. destruct (form_of req) as [form|]; [|discriminate]. rewrite HPO.
  destruct (collect_any _ (sort_pairs l) HS (sorted_ascending _ (sort_sorted l))) as [cb [HC EC]].
  rewrite EC.
  assert (HC' : some_value l (lit "oauth_callback") cb).
  { destruct cb as [v|]; cbn in *.
    - eapply Permutation_in; [|exact HC]. symmetry. apply sort_perm.
    - intros v HI. apply (HC v). eapply Permutation_in; [|exact HI]. apply sort_perm. }
  pose proof (read_params_first cb l) as HR.
  destruct (read_params cb (sort_pairs l)) as [oa|code] eqn:ER.
  - pose proof (read_params_told cb l oa HC' ER) as HT.
    pose proof (inner_first wd req l oa client token verifier HT) as HI.
    destruct (inner wd req (sort_pairs l) oa client token verifier) as [[code|]|p].
    + destruct HI as [H1 H2]. split; [|auto]. unfold problems. now apply first_app.
    + destruct HI as [H1 H2]. split; [|auto]. unfold problems. now apply first_app.
    + destruct p; [exact HI|auto|auto].
  - split; [unfold problems; now apply first_app_some|]. intros H. pose proof (first_fun _ _ _ HR H). discriminate.
Qed.

(** [service] is one of the three handlers, or nothing. *)
Lemma service_endpoint : forall wd req,
  (exists client token verifier f, endpoint req client token verifier
    /\ service wd req = verify_and_then wd req client token verifier f
    /\ forall params oa, rs_status (f params oa) = StOk
         \/ (rq_path req = lit "/request_temp_credentials" /\ oa_callback oa <> Some (lit "oob")
             /\ f params oa = fail StBadRequest))
  \/ ((forall client token verifier, ~ endpoint req client token verifier) /\ service wd req = Done_ (fail StNotFound)).
Proof.
  intros wd req. unfold service.
  destruct (bseqb (rq_method req) (lit "GET") || bseqb (rq_method req) (lit "POST")) eqn:EM.
  2: { right. apply orb_false_iff in EM as [E1 E2]. rewrite E2. cbn [andb]. split; auto.
    intros client token verifier H.
    assert (HM : In (rq_method req) [lit "GET"; lit "POST"]).
    { destruct H as [H _|H _|H _]; [exact H|rewrite H; right; left; auto|rewrite H; right; left; auto]. }
    destruct HM as [HM|[HM|[]]]; rewrite <- HM in *; [now rewrite bseqb_refl in E1|now rewrite bseqb_refl in E2]. }
  assert (HM : In (rq_method req) [lit "GET"; lit "POST"]).
  { apply orb_true_iff in EM as [E|E]; apply bseqb_eq in E; rewrite E; [now left|right; now left]. }
  cbn [andb]. destruct (bseqb (rq_path req) (lit "/echo")) eqn:EE.
  { apply bseqb_eq in EE. left. do 4 eexists. split; [now apply ep_echo|]. split; [reflexivity|].
    intros params oa. now left. }
  destruct (bseqb (rq_method req) (lit "POST")) eqn:EP; cbn [andb].
  2: { right. split; auto. intros client token verifier H. destruct H as [_ H|H _|H _].
    - rewrite H, bseqb_refl in EE. discriminate.
    - rewrite H, bseqb_refl in EP. discriminate.
    - rewrite H, bseqb_refl in EP. discriminate. }
  apply bseqb_eq in EP. destruct (bseqb (rq_path req) (lit "/request_temp_credentials")) eqn:E2.
  { apply bseqb_eq in E2. left. do 4 eexists. split; [now apply ep_temporary|]. split; [reflexivity|].
    intros params oa. cbn beta. destruct (oa_callback oa) as [cb|]; [|right; repeat split; auto; discriminate].
    destruct (bseqb cb (lit "oob")) eqn:EB; [now left|]. right. repeat split; auto. intros X. injection X as ->.
    now rewrite bseqb_refl in EB. }
  destruct (bseqb (rq_path req) (lit "/request_token")) eqn:E3.
  { apply bseqb_eq in E3. left. do 4 eexists. split; [now apply ep_token|]. split; [reflexivity|].
    intros params oa. now left. }
  right. split; auto. intros client token verifier H. destruct H as [_ H|_ H|_ H].
  - rewrite H, bseqb_refl in EE. discriminate.
  - rewrite H, bseqb_refl in E2. discriminate.
  - rewrite H, bseqb_refl in E3. discriminate.
Qed.

Lemma endpoint_fun : forall req c t v c' t' v', endpoint req c t v -> endpoint req c' t' v' -> c = c' /\ t = t' /\ v = v'.
Proof.
  intros req c t v c' t' v' H H'.
  destruct H as [_ H|_ H|_ H]; destruct H' as [_ H'|_ H'|_ H']; auto; rewrite H in H'; discriminate H'.
Qed.

Lemma form_failed : forall req, form_of req = None <->
  rq_content_type req = Some (lit "application/x-www-form-urlencoded") /\ rq_body req = None.
Proof.
  intros req. unfold form_of. destruct (rq_content_type req) as [v|].
  - destruct (bseqb v APPLICATION_WWW_FORM_URLENCODED) eqn:E.
    + apply bseqb_eq in E. subst. change APPLICATION_WWW_FORM_URLENCODED with (lit "application/x-www-form-urlencoded").
      intuition.
    + split; [discriminate|]. intros [X _]. injection X as ->. now rewrite bseqb_refl in E.
  - split; [discriminate|]. intros [X _]. discriminate.
Qed.

(** ** C59, exactly *)

(** The handler panics for these requests and no others. *)
Inductive crashes (wd : world) (req : http_request) : crash -> Prop :=
  | cs_body : rq_content_type req = Some (lit "application/x-www-form-urlencoded") -> rq_body req = None ->
      crashes wd req BodyFailed
  | cs_clock : forall l, request_params (wd_empty_ok wd) req l -> readable l -> wd_now wd = None ->
      crashes wd req ClockBackwards
  | cs_overflow : forall l s t, request_params (wd_empty_ok wd) req l -> readable l -> wd_now wd <> None ->
      wd_debug wd = true -> gives l "oauth_timestamp" s -> number s t -> (2 ^ 64 <= t + 30)%N ->
      crashes wd req TimestampOverflow.

Theorem C59_exact_partial : forall wd req p, search_ok (wd_search wd) ->
  (service wd req = Crash p <-> (exists client token verifier, endpoint req client token verifier) /\ crashes wd req p).
Proof.
  intros wd req p HS.
  destruct (service_endpoint wd req) as [[client [token [verifier [f [HE [-> _]]]]]]|[HN ->]].
  2: { split; [discriminate|]. intros [[client [token [verifier H]]] _]. now apply HN in H. }
  rewrite verify_verdict.
  assert (EV : match verdict wd req client token verifier with
    | Done_ (inl code) => Done_ (fail code) | Done_ (inr (params, oa)) => Done_ (f params oa) | Crash q => Crash q end = Crash p
    <-> verdict wd req client token verifier = Crash p).
  { destruct (verdict wd req client token verifier) as [[code|[params oa]]|q]; split; congruence. }
  rewrite EV. clear EV. split.
  - intros H. split; [eauto|].
    destruct (params_of wd req) as [ps|] eqn:EP.
    + apply params_of_iff in EP as [l [HP _]]. pose proof (verdict_first wd req client token verifier l HS HP) as HV.
      rewrite H in HV. destruct p.
      * contradiction.
      * destruct HV. now apply (cs_clock wd req l).
      * destruct HV as [H1 [H2 [H3 [s [t [H4 [H5 H6]]]]]]]. now apply (cs_overflow wd req l s t).
    + unfold params_of in EP. unfold verdict in H. destruct (form_of req) as [form|] eqn:EF.
      * rewrite EP in H. discriminate.
      * injection H as <-. apply form_failed in EF as [H1 H2]. now constructor.
  - intros [_ H]. destruct H as [H1 H2|l H1 H2 H3|l s t H1 H2 H3 H4 H5 H6 H7].
    + unfold verdict. now rewrite (proj2 (form_failed req) (conj H1 H2)).
    + pose proof (verdict_first wd req client token verifier l HS H1) as HV.
      destruct (verdict wd req client token verifier) as [[code|[params oa]]|q].
      * destruct HV as [_ HV]. destruct (HV H2). contradiction.
      * destruct HV as [_ [_ [_ [HV _]]]]. contradiction.
      * destruct q; [contradiction|reflexivity|]. destruct HV as [_ [HV _]]. contradiction.
    + assert (HO : exists s t, gives l "oauth_timestamp" s /\ number s t /\ (2 ^ 64 <= t + 30)%N) by eauto.
      pose proof (verdict_first wd req client token verifier l HS H1) as HV.
      destruct (verdict wd req client token verifier) as [[code|[params oa]]|q].
      * destruct HV as [_ HV]. destruct (HV H2) as [_ [X|X]]; [congruence|contradiction].
      * destruct HV as [_ [_ [_ [_ [X|X]]]]]; [congruence|contradiction].
      * destruct q; [contradiction| |reflexivity]. destruct HV as [_ HV]. contradiction.
Qed.
Print Assumptions C59_exact_partial.

(** ** C80 The status tells what is wrong *)

(** 404 exactly for unknown routes. *)
Theorem C80_unknown : forall wd req resp, search_ok (wd_search wd) -> service wd req = Done_ resp ->
  (rs_status resp = StNotFound <-> forall client token verifier, ~ endpoint req client token verifier).
Proof.
  intros wd req resp HS H. destruct (service_endpoint wd req) as [[client [token [verifier [f [HE [E HF]]]]]]|[HN E]].
  - split; [|intros X; now apply X in HE]. intros HX. exfalso. rewrite E, verify_verdict in H.
    assert (HQ : forall code, In code (map snd (problems wd req client token verifier [])) -> code <> StNotFound).
    { cbn. intros code X ->. repeat (destruct X as [X|X]; [discriminate X|]). exact X. }
    assert (HI : forall ps code, first ps (Some code) -> In code (map snd ps)).
    { intros ps. induction ps as [|[P s] ps IH]; intros code X; inversion X; subst; cbn; auto. }
    destruct (verdict wd req client token verifier) as [[code|[params oa]]|q] eqn:EV; [| |discriminate]; injection H as <-.
    + cbn in HX. subst. destruct (params_of wd req) as [ps|] eqn:EP.
      * apply params_of_iff in EP as [l [HP _]]. pose proof (verdict_first wd req client token verifier l HS HP) as HV.
        rewrite EV in HV. destruct HV as [HV _]. apply HI in HV. now apply (HQ StNotFound).
      * unfold params_of in EP. unfold verdict in EV. destruct (form_of req); [|discriminate]. rewrite EP in EV. discriminate.
    + destruct (HF params oa) as [X|[_ [_ X]]]; rewrite X in HX; discriminate.
  - rewrite E in H. injection H as <-. cbn. intuition.
Qed.
Print Assumptions C80_unknown.

(** For the endpoints: 400 if the parameters cannot be read; else the status of the first problem;
    else 200, or 400 because of the callback.  If there are several callbacks the server may look at any. *)
Theorem C80_status : forall wd req client token verifier resp, search_ok (wd_search wd) ->
  endpoint req client token verifier -> service wd req = Done_ resp ->
  ((forall l, ~ request_params (wd_empty_ok wd) req l) /\ rs_status resp = StBadRequest)
  \/ exists l o, request_params (wd_empty_ok wd) req l /\ first (problems wd req client token verifier l) o
     /\ match o with
        | Some code => rs_status resp = code
        | None =>
            if bseqb (rq_path req) (lit "/request_temp_credentials") then
              (In (lit "oauth_callback", lit "oob") l /\ rs_status resp = StOk)
              \/ ((lacks l "oauth_callback" \/ exists v, In (lit "oauth_callback", v) l /\ v <> lit "oob")
                  /\ rs_status resp = StBadRequest)
            else rs_status resp = StOk
        end.
Proof.
  intros wd req client token verifier resp HS HE H.
  destruct (service_endpoint wd req) as [[client' [token' [verifier' [f [HE' [E HF]]]]]]|[HN E]]; [|now apply HN in HE].
  destruct (endpoint_fun _ _ _ _ _ _ _ HE HE') as [<- [<- <-]]. clear HE'.
  pose proof H as HH. rewrite E, verify_verdict in H. destruct (params_of wd req) as [ps|] eqn:EP.
  - right. apply params_of_iff in EP as [l [HP _]]. pose proof (verdict_first wd req client token verifier l HS HP) as HV.
    exists l. destruct (verdict wd req client token verifier) as [[code|[params oa]]|q]; [| |discriminate]; injection H as <-.
    + exists (Some code). split; auto. destruct HV as [HV _]. split; auto.
    + exists None. split; auto. destruct HV as [HV [HT _]]. split; auto. clear HV.
      destruct (bseqb (rq_path req) (lit "/request_temp_credentials")) eqn:EPT.
      * apply bseqb_eq in EPT. destruct (HF params oa) as [X|[_ [X1 X2]]].
        -- left. split; auto. pose proof (C56_sound wd req _ HS HH X) as [l' [answer [HSV _]]].
           destruct HSV as [l' _ HSV _|l' _ _ HA HI|l' _ HSV _]; [rewrite EPT in HSV; discriminate| |rewrite EPT in HSV; discriminate].
           pose proof (params_unique wd req l l' HP (ac_params _ _ _ _ _ _ HA)) as EL.
           eapply Permutation_in; [symmetry; apply sort_perm|]. rewrite EL.
           eapply Permutation_in; [apply sort_perm|]. exact HI.
        -- right. split; [|now rewrite X2]. pose proof (td_callback _ _ HT) as HC. destruct (oa_callback oa) as [v|]; cbn in HC.
           ++ right. exists v. split; auto. congruence.
           ++ left. exact HC.
      * destruct (HF params oa) as [X|[X _]]; auto. rewrite X, bseqb_refl in EPT. discriminate.
  - left. split.
    + intros l HP. assert (X : params_of wd req = Some (sort_pairs l)) by (apply params_of_iff; eauto). congruence.
    + unfold params_of in EP. unfold verdict in H. destruct (form_of req); [|discriminate]. rewrite EP in H.
      injection H as <-. reflexivity.
Qed.
Print Assumptions C80_status.

(** Whatever is refused gets an empty body without a type. *)
Theorem C80_refused : forall wd req resp, service wd req = Done_ resp -> rs_status resp <> StOk ->
  rs_body resp = [] /\ rs_content_type resp = None.
Proof.
  intros wd req resp H HO. destruct (service_endpoint wd req) as [[client [token [verifier [f [_ [E HF]]]]]]|[_ E]].
  - rewrite E, verify_verdict in H.
    destruct (verdict wd req client token verifier) as [[code|[params oa]]|q]; [| |discriminate]; injection H as <-.
    + split; reflexivity.
    + destruct (HF params oa) as [X|[_ [_ X]]]; [contradiction|]. rewrite X. split; reflexivity.
  - rewrite E in H. injection H as <-. split; reflexivity.
Qed.
Print Assumptions C80_refused.

(** Requests that get each of the statuses. *)
Definition status_of (wd : world) (req : http_request) : option status :=
  match service wd req with Done_ resp => Some (rs_status resp) | Crash _ => None end.
Definition header_request (header : string) : http_request :=
  query_request (lit "GET") (lit "/echo") (lit header) None.

Example C80_example :
  let wd := a_world true 1020 false in
  status_of wd (query_request (lit "GET") (lit "/else") [] None) = Some StNotFound
  /\ status_of wd (query_request (lit "PUT") (lit "/echo") [] None) = Some StNotFound
  /\ status_of wd (header_request "OAuth") = Some StUnauthorized
  /\ status_of wd (header_request "OAuth oauth_consumer_key=""client") = Some StBadRequest
  /\ status_of wd (header_request "OAuth oauth_consumer_key=client") = Some StBadRequest
  /\ status_of wd (header_request "OAuth oauth_consumer_key=c,oauth_signature=s,oauth_signature_method=m,oauth_timestamp=x") = Some StBadRequest
  /\ status_of wd (header_request "OAuth oauth_consumer_key=c,oauth_signature=s,oauth_signature_method=m,oauth_timestamp=9") = Some StUnauthorized
  /\ status_of wd (header_request "OAuth oauth_consumer_key=c,oauth_signature=s,oauth_signature_method=m,oauth_token=t") = Some StBadRequest
  /\ status_of wd (header_request "OAuth oauth_consumer_key=c,oauth_signature=s,oauth_signature_method=PLAINTEXT,oauth_token=t") = Some StUnauthorized
  /\ status_of wd (header_request "OAuth oauth_consumer_key=client,oauth_signature=s,oauth_signature_method=PLAINTEXT,oauth_token=token,oauth_verifier=v") = Some StBadRequest
  /\ status_of wd (header_request "OAuth oauth_consumer_key=client,oauth_signature=s,oauth_signature_method=PLAINTEXT,oauth_token=token") = Some StOk.
Proof. vm_compute. repeat split. Qed.

(** Each kind of crash happens. *)
Example C59_exact_example :
  service (a_world true 1020 false) overflow_request = Crash TimestampOverflow
  /\ service {| wd_debug := true; wd_now := None; wd_search := linear_search; wd_base64 := base64_decode; wd_empty_ok := false |}
       (header_request "OAuth oauth_consumer_key=client,oauth_signature=s,oauth_signature_method=PLAINTEXT") = Crash ClockBackwards
  /\ service (a_world true 1020 false)
       {| rq_method := lit "POST"; rq_path := lit "/echo"; rq_query := None; rq_authorization := [];
          rq_content_type := Some (lit "application/x-www-form-urlencoded"); rq_body := None |} = Crash BodyFailed.
Proof. vm_compute. repeat split. Qed.
