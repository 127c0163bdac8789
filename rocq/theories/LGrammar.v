(** The example server's header parser accepts just the documented grammar, up to two deviations. *)
From Coq Require Import String.
From Coq Require Import Lia Arith NArith.
From Verif Require Import Bytes Crypto Spec SpecForm SpecHttp LBytes MFmt MPercent MHttp LHttp MServer.

(** ** Characters *)

Lemma tchar_iff : forall b, is_tchar b = true <-> tchar b.
Proof.
  intros b. unfold is_tchar, tchar, digit, alpha. rewrite orb_true_iff.
  assert (HA : is_alphanumeric b = true <-> between 48 57 b \/ between 65 90 b \/ between 97 122 b).
  { unfold is_alphanumeric, between. rewrite ?orb_true_iff, ?andb_true_iff, ?N.leb_le. tauto. }
  rewrite HA. rewrite existsb_exists. split.
  - intros [H|[x [H E]]]; [tauto|]. apply beqb_eq in E. subst. now left.
  - intros [H|H]; [right|tauto]. exists b. split; auto. apply beqb_refl.
Qed.
Lemma blank_iff : forall b, nom_is_space b = true <-> blank b.
Proof. intros b. unfold nom_is_space, blank. rewrite orb_true_iff, !beqb_eq. tauto. Qed.
Lemma obs_iff : forall b, is_obs_text b = true <-> between 128 255 b.
Proof. intros b. unfold is_obs_text, between. rewrite N.leb_le. pose proof (bn_lt_256 b). lia. Qed.
Lemma b33 : forall b, beqb b "033" = true <-> between 33 33 b.
Proof.
  intros b. rewrite beqb_bn. change (bn "033") with 33%N. rewrite N.eqb_eq. unfold between. lia.
Qed.
Lemma qdtext_iff : forall b, is_qdtext b = true <-> qdtext b.
Proof.
  intros b. unfold is_qdtext, qdtext. rewrite !orb_true_iff, blank_iff, obs_iff, !between_range, b33. tauto.
Qed.
Lemma quotable_iff : forall b, nom_is_space b || is_vchar b || is_obs_text b = true <-> quotable b.
Proof.
  intros b. unfold quotable, is_vchar. rewrite !orb_true_iff, blank_iff, obs_iff, between_range. tauto.
Qed.

(** The first byte, if any, does not satisfy [f]. *)
Definition stops (f : byte -> bool) (s : bytes) : Prop := match s with [] => True | b :: _ => f b = false end.

Lemma take_while_app : forall f a rest, Forall (fun b => f b = true) a -> stops f rest ->
  take_while f (a ++ rest) = (rest, a).
Proof.
  intros f a rest H HS. induction a as [|b a IH]; cbn [app].
  - destruct rest as [|b rest]; [reflexivity|]. cbn [take_while stops] in *. now rewrite HS.
  - inversion H as [|? ? H1 H2]; subst. cbn [take_while]. now rewrite H1, IH.
Qed.
Lemma take_while_spec : forall f s rest o, take_while f s = (rest, o) ->
  s = o ++ rest /\ Forall (fun b => f b = true) o /\ stops f rest.
Proof.
  intros f s. induction s as [|b s IH]; intros rest o H; cbn [take_while] in H.
  - inversion H; subst. now repeat split.
  - destruct (f b) eqn:E.
    + destruct (take_while f s) as [r o'] eqn:T. inversion H; subst. destruct (IH _ _ eq_refl) as [-> [H1 H2]].
      repeat split; auto.
    + inversion H; subst. repeat split; auto.
Qed.
Lemma take_while1_app : forall f a rest, a <> [] -> Forall (fun b => f b = true) a -> stops f rest ->
  take_while1 f (a ++ rest) = Some (rest, a).
Proof.
  intros f a rest HN H HS. unfold take_while1. rewrite take_while_app by auto. now destruct a.
Qed.
Lemma take_while1_spec : forall f s rest o, take_while1 f s = Some (rest, o) ->
  s = o ++ rest /\ o <> [] /\ Forall (fun b => f b = true) o /\ stops f rest.
Proof.
  intros f s rest o H. unfold take_while1 in H. destruct (take_while f s) as [r o'] eqn:T.
  destruct o' as [|b o']; [discriminate|]. inversion H; subst. apply take_while_spec in T as [-> [H1 H2]].
  repeat split; auto. discriminate.
Qed.
Lemma take_while1_stops : forall f s, stops f s -> take_while1 f s = None.
Proof. intros f [|b s] H; [reflexivity|]. unfold take_while1. cbn [take_while stops] in *. now rewrite H. Qed.
Lemma take_while1_none : forall f s, take_while1 f s = None -> stops f s.
Proof.
  intros f [|b s] H; [exact I|]. unfold take_while1 in H. cbn [take_while stops] in *.
  destruct (f b) eqn:E; auto. destruct (take_while f s). discriminate.
Qed.

Lemma nom_tag_iff : forall t s rest, nom_tag t s = Some (rest, tt) <-> s = t ++ rest.
Proof.
  induction t as [|a t IH]; intros s rest; cbn [nom_tag app].
  - split; [now inversion 1|now intros ->].
  - destruct s as [|b s]; [split; discriminate|]. destruct (beqb a b) eqn:E.
    + apply beqb_eq in E. subst. rewrite IH. split; [now intros ->|now inversion 1].
    + apply beqb_neq in E. split; [discriminate|]. inversion 1. congruence.
Qed.
Lemma nom_tag_app : forall t rest, nom_tag t (t ++ rest) = Some (rest, tt).
Proof. intros. now apply nom_tag_iff. Qed.
Lemma nom_tag_some : forall t s x, nom_tag t s = Some x -> s = t ++ fst x.
Proof. intros t s [rest []] H. now apply nom_tag_iff. Qed.

Lemma forall_impl_iff : forall (f : byte -> bool) (P : byte -> Prop) s, (forall b, f b = true <-> P b) ->
  (Forall (fun b => f b = true) s <-> Forall P s).
Proof. intros f P s H. split; apply Forall_impl; intros b; apply H. Qed.

(** ** Tokens and white space *)

Lemma token_app : forall k rest, token_text k -> stops is_tchar rest -> token (k ++ rest) = Some (rest, k).
Proof.
  intros k rest [HN H] HS. apply take_while1_app; auto. now apply (forall_impl_iff _ _ _ tchar_iff).
Qed.
Lemma token_spec : forall s rest k, token s = Some (rest, k) -> s = k ++ rest /\ token_text k /\ stops is_tchar rest.
Proof.
  intros s rest k H. apply take_while1_spec in H as [-> [HN [H1 H2]]]. repeat split; auto.
  now apply (forall_impl_iff _ _ _ tchar_iff).
Qed.
Lemma ows_app : forall o rest, ows_text o -> stops nom_is_space rest -> ows (o ++ rest) = rest.
Proof.
  intros o rest H HS. unfold ows, space0. rewrite take_while_app; auto. now apply (forall_impl_iff _ _ _ blank_iff).
Qed.
Lemma ows_spec : forall s, exists o, s = o ++ ows s /\ ows_text o /\ stops nom_is_space (ows s).
Proof.
  intros s. unfold ows, space0. destruct (take_while nom_is_space s) as [rest o] eqn:E.
  apply take_while_spec in E as [-> [H1 H2]]. exists o. cbn [fst]. repeat split; auto.
  now apply (forall_impl_iff _ _ _ blank_iff).
Qed.

Lemma tchar_not_blank : forall b, is_tchar b = true -> nom_is_space b = false.
Proof. intros b. destruct b; vm_compute; congruence. Qed.
Lemma token_not_blank : forall k rest, token_text k -> stops nom_is_space (k ++ rest).
Proof.
  intros [|b k] rest [HN H]; [congruence|]. cbn. inversion H as [|? ? H1 H2]; subst.
  now apply tchar_not_blank, tchar_iff.
Qed.
Lemma blank_not_tchar : forall o rest, ows_text o -> stops is_tchar rest -> stops is_tchar (o ++ rest).
Proof.
  intros [|b o] rest H HS; auto. cbn. inversion H as [|? ? H1 H2]; subst.
  apply blank_iff in H1. destruct (is_tchar b) eqn:E; auto. apply tchar_not_blank in E. congruence.
Qed.

(** ** Quoted strings *)

Definition escaped : parser bytes := take_one (fun b => nom_is_space b || is_vchar b || is_obs_text b).

Lemma quoted_chars : forall o s v, Forall qdtext o -> quoted_text s v -> quoted_text (o ++ s) (o ++ v).
Proof. intros o s v H HQ. induction H; cbn [app]; auto. now constructor. Qed.

Lemma quoted_split : forall s v, quoted_text s v -> exists o s' v',
  s = o ++ s' /\ v = o ++ v' /\ Forall qdtext o /\
  ((s' = [] /\ v' = []) \/ exists b s'' v'', s' = "\"%byte :: b :: s'' /\ v' = b :: v'' /\ quotable b /\ quoted_text s'' v'').
Proof.
  intros s v H. induction H as [|b s v HB H IH|b s v HB H IH].
  - exists [], [], []. repeat split; auto.
  - destruct IH as [o [s' [v' [-> [-> [HO HR]]]]]]. exists (b :: o), s', v'. repeat split; auto.
  - exists [], ("\"%byte :: b :: s), (b :: v). repeat split; auto. right. exists b, s, v. auto.
Qed.

Definition eo_first (first eo : bool) (s : bytes) : Prop := s <> [] \/ first && negb eo = false.

Lemma escaped_backward : forall eo fuel first s v rest, quoted_text s v -> length (s ++ """"%byte :: rest) <= fuel ->
  eo_first first eo s ->
  escaped_transform eo (take_while1 is_qdtext) escaped fuel first (s ++ """"%byte :: rest)
  = Some (""""%byte :: rest, v).
Proof.
  intros eo. induction fuel as [|fuel IH]; intros first s v rest H L HF.
  - rewrite app_length in L. cbn [length] in L. lia.
  - destruct (quoted_split s v H) as [o [s' [v' [-> [-> [HO HR]]]]]].
    assert (HO' : Forall (fun b => is_qdtext b = true) o) by now apply (forall_impl_iff _ _ _ qdtext_iff).
    destruct o as [|c o].
    + cbn [app] in *. destruct HR as [[-> ->]|[b [s'' [v'' [-> [-> [HB HQ]]]]]]].
      * cbn [app escaped_transform]. rewrite take_while1_stops by reflexivity.
        change (beqb """" "\") with false. cbn [andb]. destruct HF as [HF|HF]; [congruence|].
        now rewrite HF.
      * cbn [app escaped_transform]. rewrite take_while1_stops by reflexivity.
        change (beqb "\" "\") with true. unfold escaped at 1. cbn [take_one].
        apply quotable_iff in HB. rewrite HB.
        rewrite IH with (v := v''); auto.
        -- cbn [app length] in L. rewrite app_length in L |- *. cbn [length] in L |- *. lia.
        -- right. reflexivity.
    + rewrite <- app_assoc. cbn [app escaped_transform].
      change (c :: o ++ s' ++ """"%byte :: rest) with ((c :: o) ++ s' ++ """"%byte :: rest).
      rewrite take_while1_app; [|discriminate|auto|].
      * rewrite IH with (v := v').
        -- reflexivity.
        -- destruct HR as [[-> ->]|[b [s'' [v'' [-> [-> [HB HQ]]]]]]]; now constructor.
        -- rewrite <- app_assoc in L. cbn [app length] in L. rewrite app_length in L. lia.
        -- right. reflexivity.
      * destruct HR as [[-> ->]|[b [s'' [v'' [-> _]]]]]; reflexivity.
Qed.

Lemma escaped_forward : forall eo fuel first input rest v,
  escaped_transform eo (take_while1 is_qdtext) escaped fuel first input = Some (rest, v) ->
  exists s, input = s ++ rest /\ quoted_text s v /\ (rest = [] \/ eo_first first eo s).
Proof.
  intros eo. induction fuel as [|fuel IH]; intros first input rest v H.
  - destruct input; [|discriminate]. inversion H; subst. exists []. split; [auto|]. split; [constructor|auto].
  - destruct input as [|b input]; [inversion H; subst; exists []; split; [auto|]; split; [constructor|auto]|].
    cbn [escaped_transform] in H.
    destruct (take_while1 is_qdtext (b :: input)) as [[r o]|] eqn:T.
    + apply take_while1_spec in T as [E [HN [HO _]]].
      destruct (escaped_transform _ _ _ fuel false r) as [[r' o']|] eqn:R; [|discriminate].
      inversion H; subst. apply IH in R as [s [-> [HQ _]]]. exists (o ++ s). rewrite <- app_assoc. split; [auto|].
      split; [apply quoted_chars; auto; now apply (forall_impl_iff _ _ _ qdtext_iff)|].
      right. left. destruct o; [congruence|discriminate].
    + destruct (beqb b "\") eqn:EB.
      * apply beqb_eq in EB. subst. unfold escaped at 1 in H. destruct input as [|c input]; [discriminate|].
        cbn [take_one] in H. destruct (nom_is_space c || is_vchar c || is_obs_text c) eqn:EC; [|discriminate].
        destruct (escaped_transform _ _ _ fuel false input) as [[r' o']|] eqn:R; [|discriminate].
        inversion H; subst. apply IH in R as [s [-> [HQ _]]]. exists ("\"%byte :: c :: s). split; [auto|].
        split; [apply qt_pair; auto; now apply quotable_iff|]. right. left. discriminate.
      * destruct (first && negb eo) eqn:EF; [discriminate|]. inversion H; subst. exists []. split; [auto|].
        split; [constructor|]. right. right. exact EF.
Qed.

Lemma quoted_string_iff : forall eo input rest v,
  quoted_string eo input = Some (rest, v) <->
  exists s, input = lit """" ++ s ++ lit """" ++ rest /\ quoted_text s v /\ (s <> [] \/ eo = true).
Proof.
  intros eo input rest v. unfold quoted_string. fold escaped. split.
  - destruct (nom_tag (lit """") input) as [[i []]|] eqn:E1; [|discriminate]. apply nom_tag_iff in E1.
    destruct (escaped_transform _ _ _ _ _ i) as [[i' v']|] eqn:E2; [|discriminate].
    destruct (nom_tag (lit """") i') as [[i'' []]|] eqn:E3; [|discriminate]. apply nom_tag_iff in E3.
    intros H. inversion H; subst. apply escaped_forward in E2 as [s [-> [HQ HF]]].
    exists s. split; [auto|]. split; auto. destruct HF as [HF|[HF|HF]]; [discriminate|auto|].
    right. destruct eo; auto.
  - intros [s [-> [HQ HF]]]. rewrite nom_tag_app.
    change (lit """" ++ rest) with (""""%byte :: rest).
    rewrite (escaped_backward eo _ true s v rest HQ); auto.
    + destruct HF as [HF|HF]; [now left|]. right. now rewrite HF.
Qed.

(** ** Parameters *)

Lemma auth_param_forward : forall eo input rest p, auth_param eo input = Some (rest, p) ->
  exists a, input = a ++ rest /\ auth_param_text eo a p.
Proof.
  intros eo input rest p H. unfold auth_param in H.
  destruct (token input) as [[i1 k]|] eqn:E1; [|discriminate]. apply token_spec in E1 as [-> [HK _]].
  destruct (ows_spec i1) as [o1 [E2 [HO1 _]]].
  destruct (nom_tag (lit "=") (ows i1)) as [[i3 []]|] eqn:E3; [|discriminate]. apply nom_tag_iff in E3.
  destruct (ows_spec i3) as [o2 [E4 [HO2 _]]].
  destruct (quoted_string eo (ows i3)) as [[i5 v]|] eqn:E5.
  - inversion H; subst. apply quoted_string_iff in E5 as [s [E5 [HQ HF]]].
    exists (k ++ o1 ++ lit "=" ++ o2 ++ lit """" ++ s ++ lit """"). split; [|now apply ap_quoted].
    rewrite E2, E3, E4, E5, <- !app_assoc. reflexivity.
  - destruct (token (ows i3)) as [[i5 v]|] eqn:E6; [|discriminate]. inversion H; subst.
    apply token_spec in E6 as [E6 [HV _]].
    exists (k ++ o1 ++ lit "=" ++ o2 ++ v). split; [|now apply ap_token].
    rewrite E2, E3, E4, E6, <- !app_assoc. reflexivity.
Qed.

Lemma quoted_string_token : forall eo v rest, token_text v -> quoted_string eo (v ++ rest) = None.
Proof.
  intros eo [|b v] rest [HN H]; [congruence|]. unfold quoted_string. inversion H as [|? ? H1 H2]; subst.
  apply tchar_iff in H1. cbn [app nom_tag lit list_byte_of_string].
  change (lit """") with [""""%byte]. cbn [nom_tag]. destruct (beqb """" b) eqn:E; auto.
  apply beqb_eq in E. subst. discriminate.
Qed.

Lemma auth_param_backward : forall eo a p rest, auth_param_text eo a p -> stops is_tchar rest ->
  auth_param eo (a ++ rest) = Some (rest, p).
Proof.
  intros eo a p rest H HS. destruct H as [k o1 o2 v HK HO1 HO2 HV|k o1 o2 s v HK HO1 HO2 HQ HF]; unfold auth_param;
    rewrite <- !app_assoc;
    (rewrite token_app; [|auto|apply blank_not_tchar; [auto|reflexivity]]);
    (rewrite ows_app; [|auto|reflexivity]); rewrite nom_tag_app.
  - rewrite ows_app by (auto using token_not_blank). rewrite quoted_string_token by auto.
    rewrite token_app by auto. reflexivity.
  - rewrite ows_app by (auto; reflexivity).
    replace (quoted_string eo (lit """" ++ s ++ lit """" ++ rest)) with (Some (rest, v)); auto.
    symmetry. apply quoted_string_iff. exists s. auto.
Qed.

Lemma auth_param_text_nonempty : forall eo a p, auth_param_text eo a p ->
  stops nom_is_space a /\ 1 <= length a.
Proof.
  intros eo a p H. destruct H as [k o1 o2 v HK HO1 HO2 HV|k o1 o2 s v HK HO1 HO2 HQ HF];
    (split; [now apply token_not_blank|]); destruct HK as [HN _]; destruct k; try congruence;
    cbn [app length]; lia.
Qed.

Lemma punct_forward : forall input rest, punct input = Some (rest, tt) ->
  exists o1 o2, input = o1 ++ lit "," ++ o2 ++ rest /\ ows_text o1 /\ ows_text o2.
Proof.
  intros input rest H. unfold punct in H. destruct (ows_spec input) as [o1 [E1 [H1 _]]].
  destruct (nom_tag (lit ",") (ows input)) as [[i []]|] eqn:E2; [|discriminate]. apply nom_tag_iff in E2.
  destruct (ows_spec i) as [o2 [E3 [H2 _]]]. inversion H; subst. exists o1, o2. split; auto.
  rewrite E1, E2, E3 at 1. reflexivity.
Qed.
Lemma punct_backward : forall o1 o2 rest, ows_text o1 -> ows_text o2 -> stops nom_is_space rest ->
  punct (o1 ++ lit "," ++ o2 ++ rest) = Some (rest, tt).
Proof.
  intros o1 o2 rest H1 H2 H. unfold punct. rewrite ows_app by (auto; reflexivity). rewrite nom_tag_app.
  now rewrite ows_app.
Qed.

Lemma more_stops : forall eo s l, more_params_text eo s l -> stops is_tchar s.
Proof. intros eo s l H. destruct H; [exact I|]. apply blank_not_tchar; auto. reflexivity. Qed.

Lemma collect_mid_forward : forall eo fuel s l, pn_collect eo fuel (s, Mid) = (l, []) -> more_params_text eo s l.
Proof.
  intros eo. induction fuel as [|fuel IH]; intros s l H.
  - cbn [pn_collect fst] in H. inversion H; subst. constructor.
  - cbn [pn_collect pn_next] in H. destruct (punct s) as [[i []]|] eqn:E1.
    + destruct (auth_param eo i) as [[i2 o]|] eqn:E2.
      * destruct (pn_collect eo fuel (i2, Mid)) as [l' i'] eqn:E3. inversion H; subst.
        apply punct_forward in E1 as [o1 [o2 [-> [H1 H2]]]]. apply auth_param_forward in E2 as [a [-> HA]].
        apply IH in E3. now constructor.
      * inversion H; subst. constructor.
    + inversion H; subst. constructor.
Qed.
Lemma collect_mid_backward : forall eo s l, more_params_text eo s l -> forall fuel, length s <= fuel ->
  pn_collect eo fuel (s, Mid) = (l, []).
Proof.
  intros eo s l H. induction H as [|o1 o2 a p s l H1 H2 HA H IH]; intros fuel L.
  - destruct fuel; reflexivity.
  - rewrite !app_length in L. change (length (lit ",")) with 1 in L.
    destruct fuel as [|fuel]; [lia|]. cbn [pn_collect pn_next].
    destruct (auth_param_text_nonempty eo a p HA) as [HB HL].
    rewrite punct_backward; auto.
    + rewrite auth_param_backward with (p := p); eauto using more_stops. rewrite IH by lia. reflexivity.
    + destruct a; [cbn [length] in HL; lia|exact HB].
Qed.

Lemma hash_iff : forall eo s l, hash eo s = (l, []) <-> params_list_text eo s l.
Proof.
  intros eo s l. unfold hash. cbn [pn_collect pn_next]. split.
  - destruct (auth_param eo s) as [[i o]|] eqn:E.
    + destruct (pn_collect eo (length s) (i, Mid)) as [l' i'] eqn:E3. intros H. inversion H; subst.
      apply auth_param_forward in E as [a [-> HA]]. apply collect_mid_forward in E3. now constructor.
    + intros H. inversion H; subst. constructor.
  - intros H. destruct H as [|a p s l HA H]; [reflexivity|].
    rewrite auth_param_backward with (p := p); eauto using more_stops. rewrite (collect_mid_backward eo s l H); auto.
    rewrite app_length. lia.
Qed.

(** ** The header *)

Lemma stops_tchar : forall rest, stops is_tchar rest <-> match rest with [] => True | b :: _ => ~ tchar b end.
Proof.
  intros [|b rest]; cbn; [tauto|]. rewrite <- tchar_iff. destruct (is_tchar b); split; congruence.
Qed.

Lemma has_scheme_iff : forall h scheme rest, auth_scheme h = Some (rest, scheme) <->
  token_text scheme /\ h = scheme ++ rest /\ stops is_tchar rest.
Proof.
  intros h scheme rest. split.
  - intros H. apply token_spec in H. tauto.
  - intros [H1 [-> H2]]. now apply token_app.
Qed.

Definition decode_pair (p : pair) : pair := (decode_utf8_lossy (fst p), decode_utf8_lossy (snd p)).

Lemma token_check : forall s, s <> [] -> forallb is_tchar s = true -> token_text s.
Proof.
  intros s HN H. split; auto. apply Forall_forall. intros b Hb. rewrite forallb_forall in H.
  now apply tchar_iff, H.
Qed.
Lemma oauth_token : token_text (lit "OAuth").
Proof. apply token_check; [discriminate|reflexivity]. Qed.

Lemma collect_oauth : forall eo h hs params, has_scheme (lit "OAuth") h ->
  (collect_auth_params eo (h :: hs) = Some params <->
   exists l, authorization_text eo (lit "OAuth") 1 h l /\ params = map decode_pair l).
Proof.
  intros eo h hs params [HT [rest [-> HR]]]. apply stops_tchar in HR.
  assert (HA : auth_scheme (lit "OAuth" ++ rest) = Some (rest, lit "OAuth")) by now apply token_app.
  cbn [collect_auth_params]. rewrite HA, bseqb_refl. split.
  - destruct rest as [|c rest].
    + intros H. inversion H; subst. exists []. split; [|reflexivity]. rewrite app_nil_r. constructor.
    + destruct (beqb c " ") eqn:EC; [|discriminate]. apply beqb_eq in EC. subst.
      destruct (hash eo rest) as [items remaining] eqn:EH. destruct remaining; [|discriminate].
      intros H. inversion H; subst. exists items. split; [|reflexivity]. apply hash_iff in EH.
      now apply (at_params eo (lit "OAuth") 1 1 rest items (conj (le_n 1) (le_n 1))).
  - intros [l [H ->]]. clear HA. remember (lit "OAuth" ++ rest) as h eqn:E. destruct H as [|m s l HM HS].
    + assert (rest = []) as ->; [|reflexivity]. apply (app_inv_head (lit "OAuth")). now rewrite app_nil_r.
    + apply app_inv_head in E. assert (m = 1) as -> by lia. subst. cbn [repeat app].
      change (beqb " " " ") with true. cbv iota. apply hash_iff in HS. now rewrite HS.
Qed.

Lemma collect_other : forall eo h hs, ~ has_scheme (lit "OAuth") h ->
  collect_auth_params eo (h :: hs) = collect_auth_params eo hs.
Proof.
  intros eo h hs H. cbn [collect_auth_params]. destruct (auth_scheme h) as [[rest scheme]|] eqn:E; auto.
  destruct (bseqb scheme (lit "OAuth")) eqn:EB; auto. apply bseqb_eq in EB. subst.
  apply has_scheme_iff in E as [H1 [H2 H3]]. exfalso. apply H. split; auto. exists rest. split; auto.
  now apply stops_tchar.
Qed.
