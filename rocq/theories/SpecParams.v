(** Sorted parameter lists, sorting contracts, and histories of list operations. *)
From Coq Require Import String.
From Coq Require Import Sorted Permutation.
From Verif Require Import Bytes Spec MFmt MSerializer MRequest SpecForm.

(** Order by key, then by displayed value. *)
Definition kv_text (p : kv) : pair := (fst p, dtext (snd p)).
Definition kv_le (p q : kv) : Prop := pair_le (kv_text p) (kv_text q).
Definition kv_sorted (l : list kv) : Prop := StronglySorted kv_le l.

(** What [core] asks of a comparison function given to [sort_unstable_by]: a total order. *)
Record total_order {A} (cmp : A -> A -> comparison) : Prop := {
  to_dual : forall a b, cmp b a = CompOpp (cmp a b);
  to_trans : forall a b c, cmp a b <> Gt -> cmp b c <> Gt -> cmp a c <> Gt;
}.

(** What [sort_unstable_by] promises: a permutation, sorted if [cmp] is a total order.  Nothing is
    said about the relative position of equal elements. *)
Record conforming (sort : sorter) : Prop := {
  cf_perm : forall l, Permutation (sort l) l;
  cf_sorted : total_order pl_cmp -> forall l, StronglySorted (fun a b => pl_cmp a b <> Gt) (sort l);
}.

(** [history sort l p]: the list [p] was made by some sequence of operations that were given the
    pairs [l], in this order. *)
Inductive history (sort : sorter) : list kv -> ParameterList -> Prop :=
  | hi_new : forall l, history sort l (pl_new sort l)
  | hi_from : forall l, history sort l (pl_from sort l)
  | hi_from_iter : forall l, history sort l (pl_from_iter sort l)
  | hi_from_sorted : forall l p, pl_from_sorted l = Some p -> history sort l p
  | hi_default : history sort [] (pl_default [])
  | hi_extend : forall l p it, history sort l p -> history sort (l ++ it) (pl_extend sort p it)
  | hi_rewrap : forall l p, history sort l p -> history sort l (pl_new sort (pl_into_inner p)).

(** A sort that keeps the promise. *)
Fixpoint insert_kv (p : kv) (l : list kv) : list kv :=
  match l with
  | [] => [p]
  | q :: l' => match pl_cmp p q with Gt => q :: insert_kv p l' | _ => p :: l end
  end.
Definition insertion_sort : sorter := fun l => fold_right insert_kv [] l.
