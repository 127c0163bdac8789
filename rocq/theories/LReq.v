(** Requests: what their call sequences contain. *)
From Coq Require Import String.
From Coq Require Import Lia Arith Sorted Permutation.
From Verif Require Import Bytes Crypto Spec MFmt MPercent MSerializer MRequest SpecCalls SpecBuild SpecForm
  LBytes LFmt LPercent LTrace LForm.

Definition enc_kv (p : kv) : pair := (fst p, pct_encode (dtext (snd p))).

Lemma form_fields_app : forall a b, form_fields (a ++ b) = form_fields a ++ form_fields b.
Proof. intros. apply flat_map_app. Qed.

Lemma form_fields_protos : forall ps, form_fields (map CProto ps) = [].
Proof. induction ps; auto. Qed.

Lemma form_fields_merge : forall l ps, form_fields (merge_calls ps l) = map enc_kv l.
Proof.
  induction l as [|[k v] l IH]; intros ps; cbn [merge_calls map]; [apply form_fields_protos|].
  rewrite form_fields_app, form_fields_protos. cbn [app form_fields flat_map].
  fold (form_fields (merge_calls (drop_lt k ps) l)). now rewrite IH.
Qed.

Lemma form_fields_calls_of : forall l, form_fields (calls_of l) = map enc_kv l.
Proof. intros. apply form_fields_merge. Qed.

Lemma displays_protos : forall ps, Forall displays_ok (map CProto ps).
Proof. induction ps; constructor; auto. exact I. Qed.

Lemma displays_merge : forall l ps,
  Forall displays_ok (merge_calls ps l) <-> Forall (fun p => dok (snd p)) l.
Proof.
  induction l as [|[k v] l IH]; intros ps; cbn [merge_calls].
  - split; [constructor|]. intros _. apply displays_protos.
  - rewrite Forall_app, !Forall_cons_iff, IH. cbn [displays_ok snd]. split; [tauto|].
    intros H. split; auto using displays_protos.
Qed.

Lemma displays_calls_of : forall l, Forall displays_ok (calls_of l) <-> Forall (fun p => dok (snd p)) l.
Proof. intros. apply displays_merge. Qed.

Lemma call_protos_calls_of : forall l, call_protos (calls_of l) = all_protos.
Proof. intros. apply merge_protos. Qed.
