(** Lemmas about parameter lists. *)
From Coq Require Import String.
From Coq Require Import Lia Arith Sorted Permutation.
From Verif Require Import Bytes Crypto Spec MFmt MPercent MSerializer MRequest
  SpecFmt SpecCalls SpecCalls2 SpecAuth SpecForm SpecBuild SpecParams
  LBytes LFmt LPercent LTrace LBase LReq LReq2.

Lemma pl_cmp_le : forall a b, pl_cmp a b <> Gt <-> kv_le a b.
Proof.
  intros [k v] [k' v']. unfold pl_cmp, kv_le, kv_text, pair_le, pair_leb, fmt_cmp. cbn [fst snd].
  destruct (bcmp k k') eqn:E.
  - symmetry. apply bleb_le.
  - split; [auto|discriminate].
  - split; [congruence|discriminate].
Qed.

Lemma pl_cmp_total : total_order pl_cmp.
Proof.
  constructor.
  - intros [k v] [k' v']. unfold pl_cmp, fmt_cmp. cbn [fst snd]. rewrite (bcmp_antisym k k').
    destruct (bcmp k k'); cbn [CompOpp]; auto. apply bcmp_antisym.
  - intros a b c. rewrite !pl_cmp_le. unfold kv_le. apply pair_le_trans.
Qed.

Lemma kv_le_refl : forall a, kv_le a a.
Proof. intros. apply pair_le_refl. Qed.
Lemma kv_le_trans : forall a b c, kv_le a b -> kv_le b c -> kv_le a c.
Proof. intros a b c. apply pair_le_trans. Qed.

Lemma sorted_impl : forall {A} (R R' : A -> A -> Prop) l, (forall a b, R a b -> R' a b) ->
  StronglySorted R l -> StronglySorted R' l.
Proof.
  intros A R R' l H HS. induction HS; constructor; auto. eapply Forall_impl; [|eassumption]. auto.
Qed.

Lemma conforming_sorted : forall sort l, conforming sort -> kv_sorted (sort l).
Proof.
  intros sort l [_ H]. eapply sorted_impl; [|apply (H pl_cmp_total l)]. intros a b. apply pl_cmp_le.
Qed.

Lemma pl_is_sorted_spec : forall l, pl_is_sorted l = true <-> kv_sorted l.
Proof.
  intros l. split.
  - intros H. apply Sorted_StronglySorted; [intros a b c; apply kv_le_trans|].
    induction l as [|a [|b l] IH]; [constructor|repeat constructor|].
    cbn [pl_is_sorted] in H. apply andb_true_iff in H as [H1 H2].
    constructor; [apply IH; exact H2|]. constructor. apply pl_cmp_le.
    rewrite (to_dual _ pl_cmp_total b a). destruct (pl_cmp b a); cbn; congruence.
  - intros H. induction H as [|a l H IH HF]; [reflexivity|].
    destruct l as [|b l]; [reflexivity|]. cbn [pl_is_sorted]. apply andb_true_iff. split; [|exact IH].
    inversion HF as [|? ? HL]; subst. apply pl_cmp_le in HL. rewrite (to_dual _ pl_cmp_total a b).
    destruct (pl_cmp a b); cbn; congruence.
Qed.

Lemma history_sorted : forall sort l p, conforming sort -> history sort l p -> kv_sorted p /\ Permutation p l.
Proof.
  intros sort l p HC H. induction H.
  - split; [apply (conforming_sorted sort); auto|apply (cf_perm _ HC)].
  - split; [apply (conforming_sorted sort); auto|apply (cf_perm _ HC)].
  - split; [apply (conforming_sorted sort); auto|apply (cf_perm _ HC)].
  - unfold pl_from_sorted in H. destruct (pl_is_sorted l) eqn:E; inversion H; subst.
    split; auto. now apply pl_is_sorted_spec.
  - split; [constructor|auto].
  - destruct IHhistory as [_ IH]. split; [apply (conforming_sorted sort); auto|].
    unfold pl_extend. rewrite (cf_perm _ HC). now apply Permutation_app_tail.
  - destruct IHhistory as [_ IH]. split; [apply (conforming_sorted sort); auto|].
    unfold pl_new. now rewrite (cf_perm _ HC).
Qed.

Lemma sorted_map_fst : forall l, kv_sorted l -> ascending (map fst l).
Proof.
  intros l H. induction H as [|a l H IH HF]; [constructor|]. cbn [map]. constructor; auto.
  rewrite Forall_map. eapply Forall_impl; [|exact HF]. intros b HL.
  unfold kv_le, kv_text in HL. apply pair_le_spec in HL as [HL|[HL _]]; cbn [fst] in HL.
  - now apply bltb_bleb.
  - rewrite HL. apply bleb_refl.
Qed.

Lemma sorted_texts : forall l, kv_sorted l -> StronglySorted pair_le (texts l).
Proof.
  intros l H. induction H as [|a l H IH HF]; [constructor|]. cbn [texts map]. constructor; auto.
  unfold texts. rewrite Forall_map. exact HF.
Qed.

Lemma sorted_texts_unique : forall l l', kv_sorted l -> kv_sorted l' -> Permutation l l' -> texts l = texts l'.
Proof.
  intros l l' S S' P. apply sorted_unique; auto using sorted_texts. unfold texts. now apply Permutation_map.
Qed.

(** ** The insertion sort conforms *)

Lemma insert_kv_perm : forall p l, Permutation (insert_kv p l) (p :: l).
Proof.
  intros p. induction l as [|q l IH]; [constructor; auto|]. cbn [insert_kv].
  destruct (pl_cmp p q); auto. rewrite IH. apply perm_swap.
Qed.

Lemma insertion_conforming : conforming insertion_sort.
Proof.
  constructor.
  - induction l as [|p l IH]; [constructor|]. cbn [insertion_sort fold_right]. rewrite insert_kv_perm.
    now constructor.
  - intros HT. induction l as [|p l IH]; [constructor|]. cbn [insertion_sort fold_right].
    fold (insertion_sort l). revert IH. generalize (insertion_sort l). clear l. intros l HS.
    induction HS as [|q l HS IH HF]; [repeat constructor|]. cbn [insert_kv].
    assert (HC : pl_cmp p q <> Gt -> StronglySorted (fun a b => pl_cmp a b <> Gt) (p :: q :: l)).
    { intros HG. constructor; [constructor; auto|]. constructor; auto.
      eapply Forall_impl; [|exact HF]. intros r HR. exact (to_trans _ HT _ _ _ HG HR). }
    destruct (pl_cmp p q) eqn:E; [apply HC; discriminate|apply HC; discriminate|].
    constructor; auto. rewrite insert_kv_perm. constructor; auto.
    rewrite (to_dual _ HT p q), E. discriminate.
Qed.

(** ** Equivalent lists *)

Definition shown_ok (l : list kv) : Prop := Forall (fun p => dok (snd p)) l.

Lemma texts_same : forall l l', shown_ok l -> shown_ok l' -> texts l = texts l' ->
  Forall2 (fun p p' => fst p = fst p' /\ same_display (snd p) (snd p')) l l'.
Proof.
  induction l as [|p l IH]; intros [|p' l'] D D' E; try discriminate; constructor.
  - cbn [texts map] in E. inversion E as [[E1 E2 E3]]. inversion D; inversion D'; subst.
    split; auto. split; auto. unfold dok in *. congruence.
  - cbn [texts map] in E. inversion E. inversion D; inversion D'; subst. apply IH; auto.
Qed.

Lemma calls_of_same : forall l l', Forall2 (fun p p' : kv => fst p = fst p' /\ same_display (snd p) (snd p')) l l' ->
  same_calls (calls_of l) (calls_of l').
Proof.
  unfold calls_of. generalize all_protos as ps. intros ps l l' H. revert ps.
  assert (HP : forall ps, same_calls (map CProto ps) (map CProto ps)).
  { induction ps; constructor; auto. constructor. }
  induction H as [|[k v] [k' v'] l l' [E D] H IH]; intros ps; cbn [merge_calls]; [apply HP|].
  cbn [fst snd] in *. subst k'. apply Forall2_app; [apply HP|]. constructor; [now constructor|]. apply IH.
Qed.

Lemma shown_ok_perm : forall l l', Permutation l l' -> shown_ok l -> shown_ok l'.
Proof. intros l l' P H. unfold shown_ok in *. now rewrite <- P. Qed.
