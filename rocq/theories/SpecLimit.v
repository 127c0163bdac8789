(** Buffers of limited capacity. *)
From Coq Require Import String.
From Verif Require Import Bytes MFmt MSerializer MSign SpecCalls.

(** A buffer that stores text, [text], and accepts a piece exactly if the text stored so far followed by
    the piece is one that [fits].  What it does with a piece that does not fit is up to it: it may store
    a part of it or nothing, as long as it reports an error. *)
Record limited (w : Writer) (text : w -> bytes) (fits : bytes -> Prop) : Prop := {
  lm_prefix : forall a b, fits (a ++ b) -> fits a;
  lm_accepts : forall (s : w) c, fits (text s ++ c) -> exists s', write_str s c = Ok (s', true) /\ text s' = text s ++ c;
  lm_returns : forall (s : w) c, exists s' ok, write_str s c = Ok (s', ok);
  lm_only : forall (s : w) c s', write_str s c = Ok (s', true) -> text s' = text s ++ c /\ fits (text s ++ c);
}.

(** A value whose [Display] passes on the errors of the writer and does not panic; a signature method
    whose signatures are such values, as are those of the crate. *)
Definition well_behaved (d : disp) : Prop := propagates d /\ no_panic d.

Definition values_well_behaved (x : call) : Prop :=
  match x with CParam _ v | CParamEnc _ v => well_behaved v | CProto _ => True end.

Definition well_behaved_signatures (sm : SignatureMethod) : Prop :=
  forall s d, sg_end (s := sm_sign sm) s = Ok d -> well_behaved d.

(** [limits text fits m n]: [m], into the buffer, does what [n], into a [String], does, as far as it
    fits: it returns exactly if [n] returns a text that fits, and then the buffer holds this text;
    otherwise it panics, because a write failed or as [n] does. *)
Definition limits {w : Type} (text : w -> bytes) (fits : bytes -> Prop) (m : res w) (n : res bytes) : Prop :=
  (forall out, (exists s, m = Ok s /\ text s = out) <-> n = Ok out /\ fits out)
  /\ (forall out, n = Ok out -> ~ fits out -> m = Panic PFmt)
  /\ (forall p, n = Panic p -> m = Panic PFmt \/ m = Panic p).

(** Two such buffers: one that refuses a piece that does not fit, and one that stores as much of it as it
    can, like a slice of bytes. *)
Definition SliceW (cap : nat) : Writer :=
  {| W := bytes;
     write_str := fun s c => Ok (s ++ firstn (cap - length s) c, Nat.leb (length s + length c) cap) |}.
