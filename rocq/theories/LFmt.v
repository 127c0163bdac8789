(** Lemmas about [Display] behaviours and writers. *)
From Coq Require Import String.
From Verif Require Import Bytes MFmt.

Lemma rbind_ok : forall {A B} (x : res A) (f : A -> res B) b,
  rbind x f = Ok b -> exists a, x = Ok a /\ f a = Ok b.
Proof. intros A B [a|p] f b H; simpl in H; [eauto | congruence]. Qed.

Lemma rbind_assoc : forall {A B C} (x : res A) (f : A -> res B) (g : B -> res C),
  rbind (rbind x f) g = rbind x (fun a => rbind (f a) g).
Proof. now intros A B C [a|p] f g. Qed.

Lemma rbind_ext : forall {A B} (x : res A) (f g : A -> res B),
  (forall a, x = Ok a -> f a = g a) -> rbind x f = rbind x g.
Proof. intros A B [a|p] f g H; simpl; auto. Qed.

Lemma rbind_ret : forall {A} (x : res A), rbind x Ok = x.
Proof. now intros A [a|p]. Qed.

(** ** Text and result of combined behaviours *)

Lemma dfinal_dbind : forall d k,
  dfinal (dbind d k) = match dfinal d with Ok b => dfinal (k b) | Panic p => Panic p end.
Proof. induction d as [b|p|c k' IH]; intros k; simpl; auto. Qed.

Lemma dtext_dbind : forall d k,
  dtext (dbind d k) = dtext d ++ match dfinal d with Ok b => dtext (k b) | Panic _ => [] end.
Proof.
  induction d as [b|p|c k' IH]; intros k; simpl; auto.
  now rewrite IH, app_assoc.
Qed.

Lemma dok_dstr : forall s, dok (dstr s).
Proof. reflexivity. Qed.

Lemma dtext_dstr : forall s, dtext (dstr s) = s.
Proof. intros. simpl. apply app_nil_r. Qed.

Lemma dfinal_dseq : forall d1 d2, dok d1 -> dfinal (dseq d1 d2) = dfinal d2.
Proof. unfold dok, dseq. intros d1 d2 H. rewrite dfinal_dbind, H. reflexivity. Qed.

Lemma dok_dseq : forall d1 d2, dok d1 -> dok d2 -> dok (dseq d1 d2).
Proof. unfold dok. intros. now rewrite dfinal_dseq. Qed.

Lemma dok_dseq_inv : forall d1 d2, dok (dseq d1 d2) -> dok d1 /\ dok d2.
Proof.
  unfold dok, dseq. intros d1 d2. rewrite dfinal_dbind.
  destruct (dfinal d1) as [[|]|]; simpl; auto; congruence.
Qed.

Lemma dtext_dseq : forall d1 d2, dok d1 -> dtext (dseq d1 d2) = dtext d1 ++ dtext d2.
Proof. unfold dok, dseq. intros d1 d2 H. now rewrite dtext_dbind, H. Qed.

Lemma dok_dchunks : forall cs, dok (dchunks cs).
Proof. induction cs; [reflexivity|]. simpl. apply dok_dseq; auto using dok_dstr. Qed.

Lemma dtext_dchunks : forall cs, dtext (dchunks cs) = concat cs.
Proof.
  induction cs; [reflexivity|]. simpl dchunks. rewrite dtext_dseq by apply dok_dstr.
  rewrite dtext_dstr, IHcs. reflexivity.
Qed.

(** ** Running against an infallible accumulating writer *)

Lemma run_disp_dbind : forall {w : Writer} d k (s : w),
  run_disp (dbind d k) s = rbind (run_disp d s) (fun '(s', b) => run_disp (k b) s').
Proof.
  intros w d k. induction d as [b|p|c k' IH]; intros s; simpl; auto.
  rewrite rbind_assoc. destruct (write_str s c) as [[s' b]|]; simpl; auto.
Qed.

Lemma run_disp_string : forall d (s : StringW),
  run_disp d s = match dfinal d with Ok b => Ok ((s ++ dtext d : StringW), b) | Panic p => Panic p end.
Proof.
  induction d as [b|p|c k IH]; intros s; simpl.
  - now rewrite app_nil_r.
  - reflexivity.
  - rewrite IH. destruct (dfinal (k true)); auto. simpl. now rewrite app_assoc.
Qed.

Lemma write_unwrap_string : forall d (s : StringW),
  dok d -> write_unwrap d s = Ok (s ++ dtext d : StringW).
Proof. unfold write_unwrap, dok. intros d s H. rewrite run_disp_string, H. reflexivity. Qed.

Lemma write_unwrap_string_inv : forall d (s s' : StringW),
  write_unwrap d s = Ok s' -> dok d /\ s' = s ++ dtext d.
Proof.
  unfold write_unwrap, dok. intros d s s'. rewrite run_disp_string.
  destruct (dfinal d) as [[|]|]; simpl; try congruence. intros H. inversion H. auto.
Qed.

Lemma to_string_ok : forall d, dok d -> to_string d = Ok (dtext d).
Proof. unfold to_string. intros. now rewrite write_unwrap_string. Qed.

Lemma to_string_inv : forall d s, to_string d = Ok s -> dok d /\ s = dtext d.
Proof. unfold to_string. intros d s H. now apply write_unwrap_string_inv in H. Qed.

(** ** Running against an arbitrary writer *)

Lemma writes_ok_app : forall {w : Writer} (s1 : w) cs1 s2 cs2 s3,
  writes_ok s1 cs1 s2 -> writes_ok s2 cs2 s3 -> writes_ok s1 (cs1 ++ cs2) s3.
Proof. induction 1; simpl; intros; auto. econstructor; eauto. Qed.

Lemma always_err_run : forall {w : Writer} d (s s' : w) b,
  always_err d -> run_disp d s = Ok (s', b) -> b = false.
Proof.
  intros w. induction d as [b0|p|c k IH]; simpl; intros s s' b HE HR.
  - inversion HR. congruence.
  - congruence.
  - destruct HE as [H1 H2]. destruct (write_str s c) as [[s1 [|]]|]; simpl in HR; try congruence; eauto.
Qed.

(** If a well-behaved value is displayed successfully then every write succeeded and the text is
    complete. *)
Lemma run_propagates : forall {w : Writer} d (s s' : w),
  propagates d -> run_disp d s = Ok (s', true) ->
  dok d /\ exists cs, concat cs = dtext d /\ writes_ok s cs s'.
Proof.
  intros w. unfold dok. induction d as [b0|p|c k IH]; simpl; intros s s' HP HR.
  - inversion HR; subst. split; auto. exists []. split; auto. constructor.
  - congruence.
  - destruct HP as [HE HP]. destruct (write_str s c) as [[s1 [|]]|] eqn:E; simpl in HR; try congruence.
    + destruct (IH true s1 s' HP HR) as [H1 [cs [H2 H3]]]. split; auto.
      exists (c :: cs). simpl. rewrite H2. split; auto. econstructor; eauto.
    + apply always_err_run in HR; auto. congruence.
Qed.

Lemma always_err_dbind : forall d k,
  always_err d -> (forall b, b = false -> always_err (k b)) -> always_err (dbind d k).
Proof.
  induction d as [b0|p|c k' IH]; simpl; intros k HE HK; auto.
  destruct HE. split; auto.
Qed.

Lemma propagates_dbind : forall d k,
  propagates d -> (forall b, propagates (k b)) -> always_err (k false) -> propagates (dbind d k).
Proof.
  induction d as [b0|p|c k' IH]; simpl; intros k HP HK HF; auto.
  destruct HP as [HE HP]. split; auto.
  apply always_err_dbind; auto. intros b ->. auto.
Qed.

Lemma propagates_dstr : forall s, propagates (dstr s).
Proof. simpl. auto. Qed.

Lemma propagates_dseq : forall d1 d2, propagates d1 -> propagates d2 -> propagates (dseq d1 d2).
Proof.
  intros. unfold dseq. apply propagates_dbind; auto.
  - intros [|]; simpl; auto.
  - simpl. auto.
Qed.

Lemma propagates_dchunks : forall cs, propagates (dchunks cs).
Proof. induction cs as [|x cs IH]; [exact I|]. apply propagates_dseq; auto using propagates_dstr. Qed.

Lemma write_unwrap_propagates : forall {w : Writer} d (s s' : w),
  propagates d -> write_unwrap d s = Ok s' ->
  dok d /\ exists cs, concat cs = dtext d /\ writes_ok s cs s'.
Proof.
  unfold write_unwrap. intros w d s s' HP H.
  apply rbind_ok in H as [[s1 b] [H1 H2]]. destruct b; inversion H2; subst.
  eapply run_propagates; eauto.
Qed.

Lemma always_err_dbind_all : forall d k,
  (forall b, always_err (k b)) -> always_err (dbind d k).
Proof. induction d as [b0|p|c k' IH]; simpl; intros k HK; auto. Qed.

Lemma always_err_propagates : forall d, always_err d -> propagates d.
Proof. induction d as [b0|p|c k IH]; simpl; auto. intros [H1 H2]. auto. Qed.

(** ** Absence of panics *)

Lemma no_panic_dbind : forall d k, no_panic d -> (forall b, no_panic (k b)) -> no_panic (dbind d k).
Proof.
  induction d as [b0|p|c k' IH]; simpl; intros k HD HK; auto; try contradiction.
  destruct HD. split; auto.
Qed.

Lemma no_panic_dstr : forall s, no_panic (dstr s).
Proof. simpl. auto. Qed.

Lemma no_panic_dseq : forall d1 d2, no_panic d1 -> no_panic d2 -> no_panic (dseq d1 d2).
Proof. intros. apply no_panic_dbind; auto. intros [|]; simpl; auto. Qed.

Lemma no_panic_dchunks : forall cs, no_panic (dchunks cs).
Proof. induction cs; [exact I|]. apply no_panic_dseq; auto using no_panic_dstr. Qed.

Lemma run_no_panic : forall {w : Writer} d (s : w),
  no_panic d -> (forall (s : w) c, exists r, write_str s c = Ok r) ->
  exists r, run_disp d s = Ok r.
Proof.
  intros w. induction d as [b0|p|c k IH]; simpl; intros s HD HW; eauto; try contradiction.
  destruct (HW s c) as [[s' b] E]. rewrite E. simpl. destruct HD. destruct b; auto.
Qed.
