(** More about base strings: when the hashed text is the RFC base string, and injectivity. *)
From Coq Require Import String.
From Coq Require Import Lia Arith Sorted Permutation.
From Verif Require Import Bytes Crypto Spec MFmt MPercent MSerializer MSign MRequest MAuth
  SpecFmt SpecCalls SpecCalls2 SpecAuth SpecBuild SpecForm SpecServer
  LBytes LFmt LPercent LTrace LForm LBase LReq.

Lemma sorted_app_l : forall {A} (R : A -> A -> Prop) l l', StronglySorted R (l ++ l') -> StronglySorted R l'.
Proof. induction l as [|a l IH]; intros l' H; auto. inversion H; subst. auto. Qed.

Lemma signed_form_sorted : forall cf cs,
  StronglySorted pair_le (signed_fields cf cs) -> StronglySorted pair_le (form_fields cs).
Proof.
  intros cf. induction cs as [|x cs IH]; intros H; [constructor|]. rewrite signed_cons in H.
  assert (HI : forall f, In f (form_fields cs) -> In f (signed_fields cf cs)).
  { intros f Hf. apply in_flat_map in Hf as [y [Hy Hf]]. apply in_flat_map. exists y. split; auto.
    destruct y; auto. destruct Hf. }
  assert (HC : forall k v, signed_fields cf [x] = [(k, v)] -> form_fields (x :: cs) = (k, v) :: form_fields cs ->
    StronglySorted pair_le (form_fields (x :: cs))).
  { intros k v E1 E2. rewrite E1 in H. rewrite E2. cbn [app] in H. inversion H as [|? ? H1 H2]; subst.
    constructor; auto. rewrite Forall_forall in *. auto. }
  destruct x as [k v|k v|p].
  - eapply HC; reflexivity.
  - eapply HC; reflexivity.
  - apply IH. now apply sorted_app_l in H.
Qed.

Lemma normal_method_no_amp : forall m, normal_method m -> ~ In "&"%byte m.
Proof. intros m H. unfold normal_method in H. rewrite <- H. apply enc_no; [reflexivity|discriminate]. Qed.

Lemma base_is_hashed : forall m u params, normal_method m -> safe_keys (map encode_pair params) ->
  base_string m u params = hashed_text m u (sort_pairs (map encode_pair params)).
Proof.
  intros m u params HM HS. symmetry. apply hashed_text_base; auto.
  - unfold safe_keys in *. rewrite <- sort_perm. exact HS.
  - apply sort_perm.
  - apply sort_sorted.
Qed.

Lemma hashed_is_base_iff : forall cf cs l m u,
  normal_method m -> Permutation (call_protos cs) all_protos -> carries cs l -> safe_keys l ->
  (hashed_text m u (signed_fields cf cs) = base_string m u (protocol_pairs cf ++ l)
   <-> StronglySorted pair_le (signed_fields cf cs)).
Proof.
  intros cf cs l m u HM HP HC HS. pose proof (signed_perm cf cs l HP HC HS) as P.
  assert (SF : safe_keys (signed_fields cf cs)) by (apply signed_safe; eapply carries_safe; eauto).
  split.
  - intros E. rewrite base_is_hashed in E.
    2: auto. 2:{ unfold safe_keys in *. now rewrite P. }
    assert (AF : forall f, In f (map encode_pair (protocol_pairs cf ++ l)) -> ~ In "&"%byte (snd f)).
    { intros f Hf. apply in_map_iff in Hf as [g [<- _]]. apply enc_no; [reflexivity|discriminate]. }
    apply hashed_text_inj in E as [_ [_ E]].
    + rewrite E. apply sort_sorted.
    + now apply normal_method_no_amp.
    + now apply normal_method_no_amp.
    + exact SF.
    + unfold safe_keys in *. now rewrite <- sort_perm, P.
    + apply Forall_forall. intros f Hf. apply AF. eapply Permutation_in; [apply Permutation_sym; exact P|exact Hf].
    + apply Forall_forall. intros f Hf. apply AF. eapply Permutation_in; [apply Permutation_sym, sort_perm|exact Hf].
  - intros HO. apply hashed_text_base; auto.
Qed.

Lemma hashed_is_base_rfc : forall cf cs l m u,
  normal_method m -> Permutation (call_protos cs) all_protos -> ascending (map call_key cs) ->
  carries cs l -> safe_keys l -> no_oauth_keys l ->
  (hashed_text m u (signed_fields cf cs) = base_string m u (protocol_pairs cf ++ l) <-> rfc_sorted l).
Proof.
  intros cf cs l m u HM HP HA HC HS HO. split.
  - intros E. apply hashed_is_base_iff in E; auto. apply signed_form_sorted in E. now rewrite HC in E.
  - intros HR. now apply hashed_is_base.
Qed.

(** ** The base string determines everything *)

Lemma encode_pair_inj : forall p q, encode_pair p = encode_pair q -> p = q.
Proof.
  intros [k v] [k' v'] E. unfold encode_pair in E. cbn [fst snd] in E. inversion E.
  f_equal; now apply pct_encode_inj.
Qed.

Lemma perm_map_inj : forall {A B} (f : A -> B), (forall x y, f x = f y -> x = y) ->
  forall l l', Permutation (map f l) (map f l') -> Permutation l l'.
Proof.
  intros A B f HI l l' P. apply Permutation_map_inv in P as [l3 [E P]].
  assert (l = l3).
  { clear P. revert l3 E. induction l as [|a l IH]; intros [|b l3] E; try discriminate; auto.
    inversion E. f_equal; auto. }
  subst. now apply Permutation_sym.
Qed.

Lemma normalize_inj : forall l l', normalize l = normalize l' -> Permutation l l'.
Proof.
  intros l l' E. unfold normalize in E.
  change (fun p : bytes * bytes => fst p ++ lit "=" ++ snd p) with form_pair in E.
  apply (form_text_inj (sort_pairs (map encode_pair l)) (sort_pairs (map encode_pair l'))) in E.
  - apply (perm_map_inj encode_pair encode_pair_inj).
    rewrite (sort_perm (map encode_pair l)), (sort_perm (map encode_pair l')), E. reflexivity.
  - rewrite <- sort_perm. apply Forall_map, Forall_forall. intros p _.
    repeat split; apply enc_no; try reflexivity; discriminate.
  - rewrite <- sort_perm. apply Forall_map, Forall_forall. intros p _.
    repeat split; apply enc_no; try reflexivity; discriminate.
Qed.

Lemma base_string_inj : forall m u l m' u' l', base_string m u l = base_string m' u' l' ->
  map to_upper m = map to_upper m' /\ u = u' /\ Permutation l l'.
Proof.
  intros m u l m' u' l' E. unfold base_string in E. change (lit "&") with ["&"%byte] in E. cbn [app] in E.
  pose proof (f_equal (split_at "&") E) as E1.
  rewrite !split_at_app in E1 by (apply enc_no; [reflexivity|discriminate]). inversion E1 as [[EM ER]].
  pose proof (f_equal (split_at "&") ER) as E2.
  rewrite !split_at_app in E2 by (apply enc_no; [reflexivity|discriminate]). inversion E2 as [[EU EN]].
  apply pct_encode_inj in EM, EU, EN. split; auto. split; auto. now apply normalize_inj.
Qed.

(** ** Splitting the signed fields into protocol and request parameters *)

Definition oauth_key (f : pair) : bool := existsb (bseqb (fst f)) oauth_keys.

Lemma oauth_key_spec : forall f, oauth_key f = true <-> In (fst f) oauth_keys.
Proof.
  intros f. unfold oauth_key. rewrite existsb_exists. split.
  - intros [x [Hx E]]. apply bseqb_eq in E. now rewrite E.
  - intros H. exists (fst f). split; auto. apply bseqb_refl.
Qed.

Lemma filter_none : forall {A} (g : A -> bool) l, (forall x, In x l -> g x = false) -> filter g l = [].
Proof.
  intros A g. induction l as [|a l IH]; intros H; [reflexivity|]. cbn. rewrite H by now left.
  apply IH. intros; apply H; now right.
Qed.

Lemma signed_request_part : forall cf cs, no_oauth_keys (form_fields cs) ->
  filter (fun f => negb (oauth_key f)) (signed_fields cf cs) = form_fields cs.
Proof.
  intros cf. induction cs as [|x cs IH]; intros HO; [reflexivity|]. rewrite signed_cons, filter_app.
  assert (HC : forall f, signed_fields cf [x] = [f] -> form_fields (x :: cs) = f :: form_fields cs ->
    filter (fun f => negb (oauth_key f)) (signed_fields cf [x]) ++ filter (fun f => negb (oauth_key f)) (signed_fields cf cs)
    = form_fields (x :: cs)).
  { intros f E1 E2. rewrite E1, E2 in *. inversion HO as [|? ? O1 O2]; subst. rewrite IH by auto. cbn [filter].
    destruct (oauth_key f) eqn:E; [|reflexivity]. apply oauth_key_spec in E. contradiction. }
  destruct x as [k v|k v|p].
  - eapply HC; reflexivity.
  - eapply HC; reflexivity.
  - rewrite IH by auto. rewrite filter_none; [reflexivity|]. intros f Hf.
    cbn [signed_fields flat_map] in Hf. rewrite app_nil_r in Hf.
    destruct (sent cf 0 0 p); [|destruct Hf]. destruct Hf as [<-|[]].
    apply negb_false_iff, oauth_key_spec. apply proto_in_keys.
Qed.

Definition enc_protos (cf : conf) (ps : list proto) : list pair :=
  flat_map (fun p => match sent cf 0 0 p with Some v => [(proto_key p, pct_encode v)] | None => [] end) ps.

Lemma signed_protocol_part : forall cf cs, no_oauth_keys (form_fields cs) ->
  filter oauth_key (signed_fields cf cs) = enc_protos cf (call_protos cs).
Proof.
  intros cf. induction cs as [|x cs IH]; intros HO; [reflexivity|]. rewrite signed_cons, filter_app.
  assert (HC : forall f, signed_fields cf [x] = [f] -> form_fields (x :: cs) = f :: form_fields cs ->
    filter oauth_key (signed_fields cf [x]) ++ filter oauth_key (signed_fields cf cs) = enc_protos cf (call_protos cs)).
  { intros f E1 E2. rewrite E1, E2 in *. inversion HO as [|? ? O1 O2]; subst. rewrite IH by auto. cbn [filter].
    destruct (oauth_key f) eqn:E; [|reflexivity]. apply oauth_key_spec in E. contradiction. }
  destruct x as [k v|k v|p].
  - eapply HC; reflexivity.
  - eapply HC; reflexivity.
  - change (call_protos (CProto p :: cs)) with (p :: call_protos cs). rewrite IH by auto.
    unfold enc_protos. cbn [flat_map signed_fields]. f_equal. rewrite app_nil_r.
    destruct (sent cf 0 0 p); [|reflexivity]. cbn [filter]. 
    rewrite (proj2 (oauth_key_spec _)); [reflexivity|]. apply proto_in_keys.
Qed.

Lemma enc_protos_inj : forall cf cf', enc_protos cf all_protos = enc_protos cf' all_protos ->
  forall p, sent cf 0 0 p = sent cf' 0 0 p.
Proof.
  intros cf cf'. assert (HI : forall ps, NoDup ps -> enc_protos cf ps = enc_protos cf' ps ->
    forall p, In p ps -> sent cf 0 0 p = sent cf' 0 0 p).
  { assert (HK : forall cf ps f, In f (enc_protos cf ps) -> exists q, In q ps /\ fst f = proto_key q).
    { intros cf0 ps f Hf. apply in_flat_map in Hf as [q [Hq Hf]]. exists q. split; auto.
      destruct (sent cf0 0 0 q); [|destruct Hf]. destruct Hf as [<-|[]]. reflexivity. }
    assert (HX : forall cf cf' q qs v, ~ In q qs -> sent cf 0 0 q = Some v -> sent cf' 0 0 q = None ->
      enc_protos cf (q :: qs) = enc_protos cf' (q :: qs) -> False).
    { intros cf0 cf1 q qs v HN E1 E2 E. unfold enc_protos in E. cbn [flat_map] in E. rewrite E1, E2 in E. cbn [app] in E.
      destruct (HK cf1 qs (proto_key q, pct_encode v)) as [q' [Hq' EQ]].
      { unfold enc_protos. rewrite <- E. now left. }
      cbn [fst] in EQ. apply proto_key_inj in EQ. now subst. }
    induction ps as [|q ps IH]; intros HN E p HP; [destruct HP|]. inversion HN as [|? ? HN1 HN2]; subst.
    assert (EQ : sent cf 0 0 q = sent cf' 0 0 q /\ enc_protos cf ps = enc_protos cf' ps).
    { destruct (sent cf 0 0 q) as [v|] eqn:E1, (sent cf' 0 0 q) as [v'|] eqn:E2.
      - unfold enc_protos in E. cbn [flat_map] in E. rewrite E1, E2 in E. cbn [app] in E. inversion E as [[EV ER]].
        split; auto. f_equal. now apply pct_encode_inj.
      - exfalso. eapply HX; eauto.
      - exfalso. eapply HX; eauto.
      - split; auto. unfold enc_protos in E. cbn [flat_map] in E. rewrite E1, E2 in E. exact E. }
    destruct EQ as [EQ1 EQ2]. destruct HP as [<-|HP]; auto. }
  intros E p. apply (HI all_protos all_protos_nodup E). destruct p; cbn; tauto.
Qed.
