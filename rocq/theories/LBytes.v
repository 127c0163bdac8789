(** Lemmas about byte strings and their order. *)
From Coq Require Import String.
From Coq Require Import Lia.
From Verif Require Import Bytes.

Lemma bn_inj : forall a b, bn a = bn b -> a = b.
Proof.
  intros a b H. unfold bn in H.
  assert (Some a = Some b) as E by (rewrite <- !Byte.of_to_N; congruence).
  congruence.
Qed.

Lemma bn_lt_256 : forall b, (bn b < 256)%N.
Proof. intros b. unfold bn. pose proof (Byte.to_N_bounded b). lia. Qed.

Lemma beqb_eq : forall a b, beqb a b = true <-> a = b.
Proof.
  intros a b. unfold beqb. rewrite N.eqb_eq. split; [apply bn_inj | congruence].
Qed.

Lemma beqb_refl : forall a, beqb a a = true.
Proof. intros. now apply beqb_eq. Qed.

Lemma beqb_neq : forall a b, beqb a b = false <-> a <> b.
Proof.
  intros a b. rewrite <- beqb_eq. destruct (beqb a b); split; congruence.
Qed.

Lemma bcmp_refl : forall a, bcmp a a = Eq.
Proof. induction a; simpl; auto. now rewrite N.compare_refl. Qed.

Lemma bcmp_eq : forall a b, bcmp a b = Eq -> a = b.
Proof.
  induction a; destruct b; simpl; intros H; try congruence.
  destruct (N.compare_spec (bn a) (bn b)); try congruence.
  f_equal; auto using bn_inj.
Qed.

Lemma bcmp_eq_iff : forall a b, bcmp a b = Eq <-> a = b.
Proof. split; [apply bcmp_eq | intros ->; apply bcmp_refl]. Qed.

Lemma bcmp_antisym : forall a b, bcmp b a = CompOpp (bcmp a b).
Proof.
  induction a; destruct b; simpl; auto.
  rewrite N.compare_antisym. destruct (N.compare (bn a) (bn b)); simpl; auto.
Qed.

Lemma bcmp_lt_trans : forall a b c, bcmp a b = Lt -> bcmp b c = Lt -> bcmp a c = Lt.
Proof.
  induction a as [|x a IH]; intros [|y b] [|z c]; simpl; intros H1 H2; try congruence.
  destruct (N.compare_spec (bn x) (bn y)) as [E1|E1|E1]; try congruence;
  destruct (N.compare_spec (bn y) (bn z)) as [E2|E2|E2]; try congruence;
  destruct (N.compare_spec (bn x) (bn z)) as [E3|E3|E3]; try congruence; try lia.
  eauto.
Qed.

Lemma bseqb_eq : forall a b, bseqb a b = true <-> a = b.
Proof.
  intros. unfold bseqb. rewrite <- bcmp_eq_iff. destruct (bcmp a b); split; congruence.
Qed.

Lemma bseqb_refl : forall a, bseqb a a = true.
Proof. intros. now apply bseqb_eq. Qed.

Lemma bseqb_neq : forall a b, bseqb a b = false <-> a <> b.
Proof. intros a b. rewrite <- bseqb_eq. destruct (bseqb a b); split; congruence. Qed.

Lemma bltb_lt : forall a b, bltb a b = true <-> bcmp a b = Lt.
Proof. intros. unfold bltb. destruct (bcmp a b); split; congruence. Qed.

Lemma bleb_le : forall a b, bleb a b = true <-> bcmp a b <> Gt.
Proof. intros. unfold bleb. destruct (bcmp a b); split; congruence. Qed.

Lemma bleb_refl : forall a, bleb a a = true.
Proof. intros. unfold bleb. now rewrite bcmp_refl. Qed.

Lemma bltb_negb_bleb : forall a b, bltb a b = negb (bleb b a).
Proof.
  intros. unfold bltb, bleb. rewrite (bcmp_antisym a b). destruct (bcmp a b); auto.
Qed.

Lemma bleb_negb_bltb : forall a b, bleb a b = negb (bltb b a).
Proof. intros. rewrite bltb_negb_bleb. now rewrite negb_involutive. Qed.

Lemma bleb_trans : forall a b c, bleb a b = true -> bleb b c = true -> bleb a c = true.
Proof.
  intros a b c. rewrite !bleb_le. intros H1 H2.
  destruct (bcmp a b) eqn:E1; try congruence.
  - apply bcmp_eq in E1; now subst.
  - destruct (bcmp b c) eqn:E2; try congruence.
    + apply bcmp_eq in E2; subst; congruence.
    + rewrite (bcmp_lt_trans _ _ _ E1 E2). congruence.
Qed.

Lemma bleb_antisym : forall a b, bleb a b = true -> bleb b a = true -> a = b.
Proof.
  intros a b. unfold bleb. rewrite (bcmp_antisym a b).
  destruct (bcmp a b) eqn:E; simpl; try congruence. intros. now apply bcmp_eq.
Qed.

Lemma bleb_total : forall a b, bleb a b = true \/ bleb b a = true.
Proof.
  intros a b. unfold bleb. rewrite (bcmp_antisym a b). destruct (bcmp a b); simpl; auto.
Qed.

Lemma bltb_bleb : forall a b, bltb a b = true -> bleb a b = true.
Proof. intros a b. unfold bltb, bleb. destruct (bcmp a b); congruence. Qed.

Lemma bltb_trans : forall a b c, bltb a b = true -> bltb b c = true -> bltb a c = true.
Proof. intros a b c. rewrite !bltb_lt. apply bcmp_lt_trans. Qed.

Lemma bltb_bleb_trans : forall a b c, bltb a b = true -> bleb b c = true -> bltb a c = true.
Proof.
  intros a b c H1 H2. rewrite bltb_negb_bleb in *. apply negb_true_iff in H1. apply negb_true_iff.
  destruct (bleb c a) eqn:E; auto.
  rewrite (bleb_trans _ _ _ H2 E) in H1. congruence.
Qed.

Lemma bleb_bltb_trans : forall a b c, bleb a b = true -> bltb b c = true -> bltb a c = true.
Proof.
  intros a b c H1 H2. rewrite bltb_negb_bleb in *. apply negb_true_iff in H2. apply negb_true_iff.
  destruct (bleb c a) eqn:E; auto.
  rewrite (bleb_trans _ _ _ E H1) in H2. congruence.
Qed.

Lemma bltb_irrefl : forall a, bltb a a = false.
Proof. intros. unfold bltb. now rewrite bcmp_refl. Qed.

Lemma bltb_neq : forall a b, bltb a b = true -> a <> b.
Proof. intros a b H ->. rewrite bltb_irrefl in H. congruence. Qed.

Lemma bleb_nil : forall a, bleb [] a = true.
Proof. destruct a; reflexivity. Qed.

Lemma bleb_lt_or_eq : forall a b, bleb a b = true -> bltb a b = true \/ a = b.
Proof.
  intros a b. unfold bleb, bltb. destruct (bcmp a b) eqn:E; try congruence; auto.
  right. now apply bcmp_eq.
Qed.

(** [join] *)
Lemma join_cons : forall sep x l, l <> [] -> join sep (x :: l) = x ++ sep ++ join sep l.
Proof. intros sep x l H. destruct l; [congruence | reflexivity]. Qed.

Lemma join_app : forall sep l1 l2, l1 <> [] -> l2 <> [] ->
  join sep (l1 ++ l2) = join sep l1 ++ sep ++ join sep l2.
Proof.
  induction l1 as [|x l1 IH]; intros l2 H1 H2; [congruence|].
  destruct l1 as [|y l1].
  - simpl app. rewrite join_cons by auto. reflexivity.
  - change ((x :: y :: l1) ++ l2) with (x :: ((y :: l1) ++ l2)).
    rewrite join_cons by (simpl; congruence). rewrite IH by congruence.
    rewrite (join_cons sep x (y :: l1)) by congruence. now rewrite !app_assoc.
Qed.
