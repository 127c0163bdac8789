(** The hashed text is the RFC 5849 signature base string; injectivity. *)
From Coq Require Import String.
From Coq Require Import Lia Arith Sorted Permutation.
From Verif Require Import Bytes Crypto Spec MFmt MPercent MSign MSerializer MRequest MCredentials MAuth
  MBuilder SpecCalls SpecAuth SpecBuild SpecForm LBytes LFmt LPercent LCrypto LTrace LAuth LSign LBuild LForm.

(** ** The order of pairs *)

Lemma pair_le_refl : forall p, pair_le p p.
Proof. intros p. unfold pair_le, pair_leb. rewrite bcmp_refl. apply bleb_refl. Qed.

Lemma pair_le_spec : forall p q, pair_le p q <->
  bltb (fst p) (fst q) = true \/ (fst p = fst q /\ bleb (snd p) (snd q) = true).
Proof.
  intros p q. unfold pair_le, pair_leb. destruct (bcmp (fst p) (fst q)) eqn:E.
  - apply bcmp_eq in E. split; [auto|]. intros [H|[_ H]]; auto. rewrite E, bltb_irrefl in H. discriminate.
  - split; auto. intros _. left. unfold bltb. now rewrite E.
  - split; [discriminate|]. intros [H|[H _]].
    + unfold bltb in H. rewrite E in H. discriminate.
    + rewrite H, bcmp_refl in E. discriminate.
Qed.

Lemma pair_le_trans : forall p q r, pair_le p q -> pair_le q r -> pair_le p r.
Proof.
  intros p q r H1 H2. rewrite pair_le_spec in *.
  destruct H1 as [H1|[E1 H1]], H2 as [H2|[E2 H2]].
  - left. eapply bltb_trans; eauto.
  - left. now rewrite <- E2.
  - left. now rewrite E1.
  - right. split; [congruence|]. eapply bleb_trans; eauto.
Qed.

Lemma pair_le_antisym : forall p q, pair_le p q -> pair_le q p -> p = q.
Proof.
  intros [k v] [k' v'] H1 H2. rewrite pair_le_spec in *. cbn [fst snd] in *.
  destruct H1 as [H1|[E1 H1]], H2 as [H2|[E2 H2]].
  - pose proof (bltb_trans _ _ _ H1 H2) as H. rewrite bltb_irrefl in H. discriminate.
  - subst. rewrite bltb_irrefl in H1. discriminate.
  - subst. rewrite bltb_irrefl in H2. discriminate.
  - subst. f_equal. now apply bleb_antisym.
Qed.

Lemma pair_le_total : forall p q, pair_leb p q = false -> pair_le q p.
Proof.
  intros p q H. rewrite pair_le_spec. unfold pair_leb in H. destruct (bcmp (fst p) (fst q)) eqn:E; try discriminate.
  - right. apply bcmp_eq in E. split; auto. destruct (bleb_total (snd p) (snd q)); congruence.
  - left. unfold bltb. rewrite bcmp_antisym, E. reflexivity.
Qed.

(** ** Sorting *)

Lemma insert_perm : forall p l, Permutation (p :: l) (insert_pair p l).
Proof.
  intros p. induction l as [|q l IH]; cbn; auto. destruct (pair_leb p q); auto.
  rewrite perm_swap. now constructor.
Qed.

Lemma sort_perm : forall l, Permutation l (sort_pairs l).
Proof.
  induction l as [|p l IH]; cbn; auto. rewrite <- insert_perm. now constructor.
Qed.

Lemma insert_sorted : forall p l, StronglySorted pair_le l -> StronglySorted pair_le (insert_pair p l).
Proof.
  intros p. induction l as [|q l IH]; intros H; cbn.
  - repeat constructor.
  - inversion H as [|? ? H1 H2]; subst. destruct (pair_leb p q) eqn:E.
    + constructor; auto. constructor; auto. eapply Forall_impl; [|exact H2].
      intros r Hr. eapply pair_le_trans; eauto.
    + constructor; auto. rewrite <- insert_perm. constructor; auto. now apply pair_le_total.
Qed.

Lemma sort_sorted : forall l, StronglySorted pair_le (sort_pairs l).
Proof. induction l as [|p l IH]; [constructor|]. now apply insert_sorted. Qed.

Lemma sorted_unique_gen : forall {A} (le : A -> A -> Prop),
  (forall x y, le x y -> le y x -> x = y) ->
  forall l1 l2, StronglySorted le l1 -> StronglySorted le l2 -> Permutation l1 l2 -> l1 = l2.
Proof.
  intros A le anti. induction l1 as [|x l1 IH]; intros l2 S1 S2 P.
  - now apply Permutation_nil in P.
  - destruct l2 as [|y l2]; [apply Permutation_sym, Permutation_nil in P; discriminate|].
    inversion S1 as [|? ? S1' F1]; subst. inversion S2 as [|? ? S2' F2]; subst.
    assert (x = y).
    { assert (In x (y :: l2)) as Hx by (eapply Permutation_in; eauto; now left).
      assert (In y (x :: l1)) as Hy by (eapply Permutation_in; [apply Permutation_sym; eauto|now left]).
      destruct Hx as [Hx|Hx]; [auto|]. destruct Hy as [Hy|Hy]; [auto|].
      rewrite Forall_forall in F1, F2. apply anti; auto. }
    subst y. f_equal. apply IH; auto. eapply Permutation_cons_inv; eauto.
Qed.

Lemma sorted_unique : forall l1 l2, StronglySorted pair_le l1 -> StronglySorted pair_le l2 ->
  Permutation l1 l2 -> l1 = l2.
Proof. apply sorted_unique_gen. apply pair_le_antisym. Qed.

Lemma sort_unique : forall l1 l2, Permutation l1 l2 -> sort_pairs l1 = sort_pairs l2.
Proof.
  intros l1 l2 P. apply sorted_unique; try apply sort_sorted. now rewrite <- !sort_perm.
Qed.

Lemma normalize_perm : forall l1 l2, Permutation l1 l2 -> normalize l1 = normalize l2.
Proof.
  intros l1 l2 P. unfold normalize. do 2 f_equal. apply sort_unique. now apply Permutation_map.
Qed.

Lemma base_string_perm : forall m u l1 l2, Permutation l1 l2 -> base_string m u l1 = base_string m u l2.
Proof. intros. unfold base_string. now rewrite (normalize_perm l1 l2). Qed.

(** ** The hashed text *)

Lemma pct_encode_join : forall l,
  pct_encode (join (lit "&") l) = join (lit "%26") (map pct_encode l).
Proof.
  induction l as [|x l IH]; [reflexivity|]. destruct l as [|y l]; [reflexivity|].
  change (join (lit "&") (x :: y :: l)) with (x ++ lit "&" ++ join (lit "&") (y :: l)).
  rewrite !pct_encode_app, IH. reflexivity.
Qed.

Lemma hashed_text_encode : forall method uri fields,
  safe_keys fields ->
  hashed_text method uri fields
  = method ++ lit "&" ++ pct_encode uri ++ lit "&" ++ pct_encode (form_text fields).
Proof.
  intros method uri fields H. unfold hashed_text, form_text. do 4 f_equal.
  rewrite pct_encode_join, map_map. f_equal. apply map_ext_in. intros [k v] HI. unfold form_pair. cbn [fst snd].
  rewrite !pct_encode_app. unfold safe_keys in H. rewrite Forall_forall in H.
  rewrite (pct_encode_safe k); [reflexivity|]. apply (H _ HI).
Qed.

Lemma hashed_text_base : forall method uri params fields,
  pct_encode (map to_upper method) = method ->
  safe_keys fields -> Permutation (map encode_pair params) fields -> StronglySorted pair_le fields ->
  hashed_text method uri fields = base_string method uri params.
Proof.
  intros method uri params fields HM HS HP HO. rewrite hashed_text_encode by auto.
  unfold base_string. rewrite HM. do 5 f_equal. unfold form_text, normalize.
  replace (sort_pairs (map encode_pair params)) with fields; [reflexivity|].
  apply sorted_unique; auto using sort_sorted. now rewrite <- sort_perm, HP.
Qed.

(** ** The signed fields are in RFC order *)

Lemma proto_key_inj : forall p q, proto_key p = proto_key q -> p = q.
Proof. intros p q H. destruct p, q; try reflexivity; vm_compute in H; discriminate. Qed.

Lemma proto_in_keys : forall p, In (proto_key p) oauth_keys.
Proof. intros p. right. apply in_map. destruct p; cbn; tauto. Qed.

Lemma signed_in : forall cf cs f, In f (signed_fields cf cs) ->
  In f (form_fields cs) \/ exists p, In p (call_protos cs) /\ fst f = proto_key p.
Proof.
  intros cf cs f H. unfold signed_fields in H. apply in_flat_map in H as [x [Hx Hf]].
  destruct x as [k v|k v|p].
  - left. apply in_flat_map. exists (CParam k v). auto.
  - left. apply in_flat_map. exists (CParamEnc k v). auto.
  - right. exists p. split.
    + apply in_flat_map. exists (CProto p). cbn. auto.
    + destruct (sent cf 0 0 p); cbn in Hf; [|tauto]. destruct Hf as [<-|[]]. reflexivity.
Qed.

Lemma signed_key_in : forall cf cs f, In f (signed_fields cf cs) -> In (fst f) (map call_key cs).
Proof.
  intros cf cs f H. unfold signed_fields in H. apply in_flat_map in H as [x [Hx Hf]].
  apply in_map_iff. exists x. split; auto.
  destruct x as [k v|k v|p]; cbn in Hf |- *.
  - destruct Hf as [<-|[]]; auto.
  - destruct Hf as [<-|[]]; auto.
  - destruct (sent cf 0 0 p); cbn in Hf; [|tauto]. destruct Hf as [<-|[]]. reflexivity.
Qed.

Lemma signed_cons : forall cf x cs, signed_fields cf (x :: cs) = signed_fields cf [x] ++ signed_fields cf cs.
Proof. intros. unfold signed_fields. cbn [flat_map]. now rewrite app_nil_r. Qed.

Lemma signed_sorted : forall cf cs,
  ascending (map call_key cs) -> NoDup (call_protos cs) ->
  StronglySorted pair_le (form_fields cs) -> no_oauth_keys (form_fields cs) ->
  StronglySorted pair_le (signed_fields cf cs).
Proof.
  intros cf. induction cs as [|x cs IH]; intros HA HN HS HO; [constructor|].
  inversion HA as [|? ? HA1 HA2]; subst. rewrite Forall_forall in HA2.
  assert (HLE : forall f, In f (signed_fields cf cs) -> bleb (call_key x) (fst f) = true).
  { intros f Hf. apply HA2. eapply signed_key_in; eauto. }
  rewrite signed_cons. destruct x as [k v|k v|p].
  - cbn [form_fields flat_map app] in HS, HO. inversion HS as [|? ? HS1 HS2]; subst.
    inversion HO as [|? ? HO1 HO2]; subst. cbn [signed_fields flat_map app].
    constructor; [apply IH; auto|].
    apply Forall_forall. intros f Hf. pose proof (HLE f Hf) as HL. cbn [call_key] in HL.
    destruct (signed_in cf cs f Hf) as [HF|[q [Hq E]]].
    + rewrite Forall_forall in HS2. auto.
    + apply pair_le_spec. apply bleb_lt_or_eq in HL as [HL|HL]; [now left|].
      exfalso. cbn [fst] in *. apply HO1. rewrite HL, E. apply proto_in_keys.
  - cbn [form_fields flat_map app] in HS, HO. inversion HS as [|? ? HS1 HS2]; subst.
    inversion HO as [|? ? HO1 HO2]; subst. cbn [signed_fields flat_map app].
    constructor; [apply IH; auto|].
    apply Forall_forall. intros f Hf. pose proof (HLE f Hf) as HL. cbn [call_key] in HL.
    destruct (signed_in cf cs f Hf) as [HF|[q [Hq E]]].
    + rewrite Forall_forall in HS2. auto.
    + apply pair_le_spec. apply bleb_lt_or_eq in HL as [HL|HL]; [now left|].
      exfalso. cbn [fst] in *. apply HO1. rewrite HL, E. apply proto_in_keys.
  - cbn [call_protos flat_map app] in HN. inversion HN as [|? ? HN1 HN2]; subst.
    assert (HI : StronglySorted pair_le (signed_fields cf cs)) by (apply IH; auto).
    cbn [signed_fields flat_map]. destruct (sent cf 0 0 p) as [v|]; [|exact HI]. cbn [app].
    constructor; auto. apply Forall_forall. intros f Hf. pose proof (HLE f Hf) as HL. cbn [call_key] in HL.
    apply pair_le_spec. apply bleb_lt_or_eq in HL as [HL|HL]; [now left|]. exfalso.
    destruct (signed_in cf cs f Hf) as [HF|[q [Hq E]]].
    + cbn [form_fields flat_map app] in HO. unfold no_oauth_keys in HO. rewrite Forall_forall in HO.
      apply (HO f HF). rewrite <- HL. apply proto_in_keys.
    + rewrite E in HL. apply proto_key_inj in HL. subst q. contradiction.
Qed.

Lemma signed_perm_gen : forall cf cs,
  Permutation (signed_fields cf cs)
    (flat_map (fun p => match sent cf 0 0 p with Some v => [(proto_key p, pct_encode v)] | None => [] end)
       (call_protos cs) ++ form_fields cs).
Proof.
  intros cf. induction cs as [|x cs IH]; [constructor|]. rewrite signed_cons.
  destruct x as [k v|k v|p].
  - cbn [signed_fields call_protos form_fields flat_map app]. fold (call_protos cs) (form_fields cs) (signed_fields cf cs).
    rewrite IH. apply Permutation_middle.
  - cbn [signed_fields call_protos form_fields flat_map app]. fold (call_protos cs) (form_fields cs) (signed_fields cf cs).
    rewrite IH. apply Permutation_middle.
  - cbn [call_protos form_fields flat_map app]. fold (call_protos cs) (form_fields cs).
    rewrite IH. cbn [signed_fields flat_map]. rewrite app_nil_r, app_assoc. reflexivity.
Qed.

Lemma proto_key_safe : forall p, uri_safe (proto_key p).
Proof. intros p. apply safe_name. destruct p; reflexivity. Qed.

Lemma signed_perm : forall cf cs l,
  Permutation (call_protos cs) all_protos -> carries cs l -> safe_keys l ->
  Permutation (map encode_pair (protocol_pairs cf ++ l)) (signed_fields cf cs).
Proof.
  intros cf cs l HP HC HS. rewrite signed_perm_gen, map_app. apply Permutation_app.
  - unfold protocol_pairs. rewrite HP.
    replace (map encode_pair (flat_map (fun p => match sent cf 0 0 p with Some v => [(proto_key p, v)] | None => [] end) all_protos))
      with (flat_map (fun p => match sent cf 0 0 p with Some v => [(proto_key p, pct_encode v)] | None => [] end) all_protos);
      [reflexivity|].
    generalize all_protos. clear. induction l as [|p ps IH]; [reflexivity|]. cbn [flat_map]. rewrite map_app, IH.
    f_equal. destruct (sent cf 0 0 p); [|reflexivity]. cbn [map]. unfold encode_pair. cbn [fst snd].
    now rewrite (pct_encode_safe _ (proto_key_safe p)).
  - rewrite HC. replace (map encode_pair l) with (map enc_value l); [reflexivity|].
    apply map_ext_in. intros [k v] HI. unfold encode_pair, enc_value. cbn [fst snd].
    unfold safe_keys in HS. rewrite Forall_forall in HS. now rewrite (pct_encode_safe k (HS _ HI)).
Qed.

Lemma carries_safe : forall cs l, carries cs l -> safe_keys l -> safe_keys (form_fields cs).
Proof.
  intros cs l HC HS. rewrite HC. unfold safe_keys in *. rewrite Forall_map. exact HS.
Qed.

Lemma signed_safe : forall cf cs, safe_keys (form_fields cs) -> safe_keys (signed_fields cf cs).
Proof.
  intros cf cs HS. apply Forall_forall. intros f Hf. destruct (signed_in cf cs f Hf) as [H|[p [_ ->]]].
  - unfold safe_keys in HS. rewrite Forall_forall in HS. auto.
  - apply proto_key_safe.
Qed.

Lemma carries_no_oauth : forall cs l, carries cs l -> no_oauth_keys l -> no_oauth_keys (form_fields cs).
Proof. intros cs l HC HS. rewrite HC. unfold no_oauth_keys in *. rewrite Forall_map. exact HS. Qed.

Lemma all_protos_nodup : NoDup all_protos.
Proof. unfold all_protos. repeat (constructor; [cbn; intuition discriminate|]). constructor. Qed.

(** What is hashed is the RFC 5849 signature base string. *)
Lemma hashed_is_base : forall cf cs l method uri,
  pct_encode (map to_upper method) = method ->
  Permutation (call_protos cs) all_protos -> ascending (map call_key cs) ->
  carries cs l -> safe_keys l -> no_oauth_keys l -> rfc_sorted l ->
  hashed_text method uri (signed_fields cf cs) = base_string method uri (protocol_pairs cf ++ l).
Proof.
  intros cf cs l method uri HM HP HA HC HS HO HR. apply hashed_text_base; auto.
  - apply signed_safe. eapply carries_safe; eauto.
  - now apply signed_perm.
  - apply signed_sorted; auto.
    + eapply Permutation_NoDup; [apply Permutation_sym; eauto|apply all_protos_nodup].
    + rewrite HC. exact HR.
    + eapply carries_no_oauth; eauto.
Qed.

(** ** Injectivity *)

Lemma join_inj : forall sep l1 l2, Forall (fun x => ~ In sep x) l1 -> Forall (fun x => ~ In sep x) l2 ->
  Forall (fun x => x <> []) l1 -> Forall (fun x => x <> []) l2 ->
  join [sep] l1 = join [sep] l2 -> l1 = l2.
Proof.
  intros sep l1 l2 H1 H2 N1 N2 E.
  assert (HJ : forall l, l <> [] -> Forall (fun x => x <> []) l -> join [sep] l <> []).
  { intros [|x [|y l]] HN HF HX; [congruence|cbn in HX; inversion HF; congruence|].
    cbn in HX. apply app_eq_nil in HX as [_ HX]. discriminate. }
  destruct l1 as [|x l1], l2 as [|y l2]; auto.
  - exfalso. apply (HJ (y :: l2)); auto. discriminate.
  - exfalso. apply (HJ (x :: l1)); auto. discriminate.
  - rewrite <- (split_all_join sep (x :: l1)), <- (split_all_join sep (y :: l2)), E; auto; discriminate.
Qed.

(** Fields whose key contains no delimiter and whose text contains no "&". *)
Definition delimitable (f : pair) : Prop :=
  ~ In "="%byte (fst f) /\ ~ In "&"%byte (fst f) /\ ~ In "&"%byte (snd f).

Lemma form_pair_inj : forall f g, ~ In "="%byte (fst f) -> ~ In "="%byte (fst g) ->
  form_pair f = form_pair g -> f = g.
Proof.
  intros [k v] [k' v'] H1 H2 E. unfold form_pair in E. cbn [fst snd] in *.
  change (lit "=" ++ v) with ("="%byte :: v) in E. change (lit "=" ++ v') with ("="%byte :: v') in E.
  assert (split_at "=" (k ++ "="%byte :: v) = split_at "=" (k' ++ "="%byte :: v')) as E' by now rewrite E.
  rewrite !split_at_app in E' by auto. congruence.
Qed.

Lemma form_text_inj : forall l1 l2, Forall delimitable l1 -> Forall delimitable l2 ->
  form_text l1 = form_text l2 -> l1 = l2.
Proof.
  intros l1 l2 H1 H2 E. unfold form_text in E. change (lit "&") with ["&"%byte] in E.
  assert (HA : forall l, Forall delimitable l ->
    Forall (fun x => ~ In "&"%byte x) (map form_pair l) /\ Forall (fun x => x <> []) (map form_pair l)).
  { intros l H. rewrite !Forall_map. split; eapply Forall_impl; try exact H; intros [k v] [A [B C]];
      unfold form_pair; cbn [fst snd] in *.
    - rewrite !in_app_iff. intros [X|[[X|[]]|X]]; try contradiction. discriminate.
    - intros X. apply app_eq_nil in X as [_ X]. discriminate. }
  destruct (HA l1 H1) as [A1 B1], (HA l2 H2) as [A2 B2].
  apply join_inj in E; auto. clear A1 B1 A2 B2 HA. revert l2 H2 E.
  induction l1 as [|f l1 IH]; intros [|g l2] H2 E; try discriminate; auto.
  cbn [map] in E. inversion H1; subst. inversion H2; subst. inversion E.
  f_equal; [apply form_pair_inj; auto; [apply H3|apply H5]|]. apply IH; auto.
Qed.

Lemma hashed_text_inj : forall m1 u1 f1 m2 u2 f2,
  ~ In "&"%byte m1 -> ~ In "&"%byte m2 ->
  safe_keys f1 -> safe_keys f2 -> Forall (fun f => ~ In "&"%byte (snd f)) f1 -> Forall (fun f => ~ In "&"%byte (snd f)) f2 ->
  hashed_text m1 u1 f1 = hashed_text m2 u2 f2 ->
  m1 = m2 /\ u1 = u2 /\ f1 = f2.
Proof.
  intros m1 u1 f1 m2 u2 f2 M1 M2 S1 S2 V1 V2 E.
  rewrite !hashed_text_encode in E by auto.
  assert (HS : forall m u t, ~ In "&"%byte m ->
    split_at "&" (m ++ lit "&" ++ pct_encode u ++ lit "&" ++ t)
    = (m, Some (pct_encode u ++ "&"%byte :: t))).
  { intros m u t H. apply (split_at_app "&" m (pct_encode u ++ "&"%byte :: t)); auto. }
  pose proof (f_equal (split_at "&") E) as E1. rewrite !HS in E1 by auto. inversion E1 as [[EM ER]].
  pose proof (f_equal (split_at "&") ER) as E2.
  rewrite !split_at_app in E2 by (apply enc_no; [reflexivity|discriminate]).
  inversion E2 as [[EU EF]]. split; auto. split; [now apply pct_encode_inj|].
  apply pct_encode_inj in EF. apply form_text_inj; auto.
  - apply Forall_forall. intros f Hf. unfold safe_keys in *. rewrite Forall_forall in *.
    repeat split; auto; apply safe_no; auto; reflexivity.
  - apply Forall_forall. intros f Hf. unfold safe_keys in *. rewrite Forall_forall in *.
    repeat split; auto; apply safe_no; auto; reflexivity.
Qed.

Lemma signing_key_inj : forall cs1 ts1 cs2 ts2,
  signing_key cs1 ts1 = signing_key cs2 ts2 <->
  cs1 = cs2 /\ match ts1 with Some t => t | None => [] end = match ts2 with Some t => t | None => [] end.
Proof.
  intros cs1 ts1 cs2 ts2. split.
  - intros E. unfold signing_key in E.
    pose proof (f_equal (split_at "&") E) as E1.
    change (lit "&") with ["&"%byte] in E1. cbn [app] in E1.
    rewrite !split_at_app in E1 by (apply enc_no; [reflexivity|discriminate]).
    inversion E1. split; now apply pct_encode_inj.
  - intros [-> E]. unfold signing_key. now rewrite E.
Qed.
