(** Vocabulary for statements about displayed values. *)
From Coq Require Import String.
From Verif Require Import Bytes Spec MFmt.

(** Every piece the value ever writes, whatever the writer answers, satisfies [P]. *)
Fixpoint all_chunks (P : bytes -> Prop) (d : disp) : Prop :=
  match d with
  | DRet _ => True
  | DPanic _ => True
  | DWrite c k => P c /\ all_chunks P (k true) /\ all_chunks P (k false)
  end.

(** ASCII text. *)
Definition ascii_text (s : bytes) : Prop := forall b, In b s -> (bn b < 128)%N.

(** Two values that are indistinguishable once displayed. *)
Definition same_display (v v' : disp) : Prop := dtext v = dtext v' /\ dfinal v = dfinal v'.
