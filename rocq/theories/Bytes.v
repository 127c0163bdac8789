(** Byte strings and their dictionary order.

    Rust's [str], [String] and [&[u8]] are all represented by lists of bytes.
    [str]'s [Ord] is the bytewise lexicographic order, which is [bcmp]. *)
From Coq Require Import String.
From Coq Require Export List NArith Bool.
From Coq.Strings Require Export Byte.
Export ListNotations.
Global Open Scope list_scope.

Definition bytes := list byte.

(** A string literal. *)
Definition lit (s : string) : bytes := list_byte_of_string s.
Arguments lit s%string.

(** The numeric value of a byte. *)
Definition bn (b : byte) : N := Byte.to_N b.

Definition beqb (a b : byte) : bool := N.eqb (bn a) (bn b).

(** Bytewise lexicographic order. *)
Fixpoint bcmp (a b : bytes) : comparison :=
  match a, b with
  | [], [] => Eq
  | [], _ :: _ => Lt
  | _ :: _, [] => Gt
  | x :: a', y :: b' =>
      match N.compare (bn x) (bn y) with
      | Eq => bcmp a' b'
      | c => c
      end
  end.

Definition bltb (a b : bytes) : bool := match bcmp a b with Lt => true | _ => false end.
Definition bleb (a b : bytes) : bool := match bcmp a b with Gt => false | _ => true end.
Definition bseqb (a b : bytes) : bool := match bcmp a b with Eq => true | _ => false end.

(** Concatenate with a separator between consecutive elements. *)
Fixpoint join (sep : bytes) (l : list bytes) : bytes :=
  match l with
  | [] => []
  | [x] => x
  | x :: l' => x ++ sep ++ join sep l'
  end.
