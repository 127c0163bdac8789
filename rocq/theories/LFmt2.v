(** More lemmas about displayed values. *)
From Coq Require Import String.
From Coq Require Import Lia Arith.
From Verif Require Import Bytes Spec MFmt MPercent SpecFmt LBytes LFmt LPercent.

Lemma all_chunks_dbind : forall P d k, all_chunks P d -> (forall b, all_chunks P (k b)) -> all_chunks P (dbind d k).
Proof. intros P. induction d as [b|p|c k' IH]; intros k H HK; cbn in *; auto. destruct H as [H1 [H2 H3]]. auto. Qed.

Lemma all_chunks_dseq : forall P d1 d2, all_chunks P d1 -> all_chunks P d2 -> all_chunks P (dseq d1 d2).
Proof. intros. apply all_chunks_dbind; auto. intros [|]; cbn; auto. Qed.

Lemma all_chunks_dstr : forall (P : bytes -> Prop) s, P s -> all_chunks P (dstr s).
Proof. intros. cbn. auto. Qed.

Lemma all_chunks_dlift : forall {A} P (x : res A) f, (forall a, x = Ok a -> all_chunks P (f a)) -> all_chunks P (dlift x f).
Proof. intros A P [a|p] f H; cbn; auto. Qed.

Lemma from_utf8_ascii : forall s t, from_utf8_unchecked s = Ok t -> ascii_text t.
Proof.
  intros s t H. unfold from_utf8_unchecked in H. destruct (forallb is_ascii s) eqn:E; [|discriminate].
  inversion H; subst. intros b Hb. rewrite forallb_forall in E. apply N.ltb_lt, E, Hb.
Qed.

Lemma double_encode_ascii : forall b t, double_encode_byte b = Ok t -> ascii_text t.
Proof.
  intros b t H. unfold double_encode_byte in H. apply rbind_ok in H as [s [_ H]]. eapply from_utf8_ascii; eauto.
Qed.

Lemma dpe_write_ascii : forall fuel s, all_chunks ascii_text (dpe_write fuel s).
Proof.
  induction fuel as [|fuel IH]; intros [|b rem]; cbn [dpe_write]; try exact I.
  apply all_chunks_dlift. intros [|] _.
  - apply all_chunks_dlift. intros t Ht. apply all_chunks_dseq; auto.
    apply all_chunks_dstr. eapply double_encode_ascii; eauto.
  - apply all_chunks_dlift. intros [[i b']|] _.
    + apply all_chunks_dlift. intros rem' _. apply all_chunks_dlift. intros run _.
      apply all_chunks_dlift. intros run' Hr. apply all_chunks_dlift. intros t Ht.
      apply all_chunks_dseq; [apply all_chunks_dstr; eapply from_utf8_ascii; eauto|].
      apply all_chunks_dseq; auto. apply all_chunks_dstr. eapply double_encode_ascii; eauto.
    + apply all_chunks_dlift. intros t Ht. apply all_chunks_dstr. eapply from_utf8_ascii; eauto.
Qed.

Lemma DoublePercentEncode_ascii : forall d, all_chunks ascii_text (DoublePercentEncode d).
Proof.
  induction d as [b|p|c k IH]; cbn; auto. apply all_chunks_dbind; auto using dpe_write_ascii.
Qed.

Lemma unreserved_lt_128 : forall b, unreserved b = true -> (bn b < 128)%N.
Proof. intros b H. apply unreserved_ascii in H. now apply N.ltb_lt in H. Qed.

Lemma pct_encode_ascii : forall s, ascii_text (pct_encode s).
Proof.
  intros s b Hb. apply pct_encode_chars in Hb as [H| ->]; [|reflexivity]. now apply unreserved_lt_128.
Qed.

(** Writing an encoded value into any writer. *)
Lemma PercentEncode_any : forall (w : Writer) (s s' : w) v, propagates v ->
  write_unwrap (PercentEncode v) s = Ok s' ->
  exists ch, writes_ok s ch s' /\ concat ch = pct_encode (dtext v).
Proof.
  intros w s s' v HP H. apply write_unwrap_propagates in H as [_ [ch [H1 H2]]]; auto using propagates_PercentEncode.
  exists ch. split; auto. now rewrite H1, dtext_PercentEncode.
Qed.

Lemma DoublePercentEncode_any : forall (w : Writer) (s s' : w) v, propagates v ->
  write_unwrap (DoublePercentEncode v) s = Ok s' ->
  exists ch, writes_ok s ch s' /\ concat ch = pct_encode (pct_encode (dtext v)).
Proof.
  intros w s s' v HP H. apply write_unwrap_propagates in H as [_ [ch [H1 H2]]]; auto using propagates_DoublePercentEncode.
  exists ch. split; auto. now rewrite H1, dtext_DoublePercentEncode.
Qed.
