(** Panics, [core::fmt::Display] and [core::fmt::Write]. *)
From Coq Require Import String.
From Verif Require Import Bytes.

(** ** Panics

    Every way the modelled code can panic, as data.  The last three never happen in Rust as such:
    they mark an out-of-bounds slice, an unchecked UTF-8 conversion of non-ASCII bytes and
    an exhausted loop bound of the model; theorems show they are unreachable.
    (auth.rs:225-275, 384-441; urlencode.rs:62-91; oauth_parameter.rs:17-32) *)
Inductive panic :=
  | PFmt            (** [.unwrap()] on a [fmt::Result] that is [Err] *)
  | PUriQuery       (** auth.rs:229 *)
  | PDictOrder      (** auth.rs:264 *)
  | PNoTimestamp    (** auth.rs:396 *)
  | POAuthNone      (** util.rs:163 *)
  | PNextNone       (** oauth_parameter.rs:28 *)
  | PBase64         (** auth.rs:437 *)
  | PUtf8           (** auth.rs:440 *)
  | PRsa            (** rsa_sha1.rs:144 *)
  | PCrateName      (** derive lib.rs:105 *)
  | PUser           (** a panic of user-supplied code *)
  | PIndex
  | PUnchecked
  | PFuel.

(** A value or a panic (the [unwrap]s of auth.rs:159-440 and urlencode.rs:66-90). *)
Inductive res (A : Type) :=
  | Ok (a : A)
  | Panic (p : panic).
Arguments Ok {A} a.
Arguments Panic {A} p.

(** Sequencing: a panic ends everything. *)
Definition rbind {A B} (x : res A) (f : A -> res B) : res B :=
  match x with Ok a => f a | Panic p => Panic p end.

Notation "x <- e ;; f" := (rbind e (fun x => f)) (at level 61, e at next level, right associativity).
Notation "' p <- e ;; f" := (rbind e (fun p => f)) (at level 61, p pattern, e at next level, right associativity).

(** Did it return? *)
Definition is_ok {A} (r : res A) : bool := match r with Ok _ => true | Panic _ => false end.

(** ** [Display]

    The behaviour of [<T as Display>::fmt(&value, f)] with default formatting options: it calls
    [f.write_str] any number of times, sees whether each call succeeded, and finally returns
    [Ok(())] ([DRet true]) or [Err] ([DRet false]), or panics.  Every terminating, deterministic
    implementation is a value of this type, including ones that ignore write errors.
    (percent_encoding.rs:29-80, digest_common.rs:36-44) *)
Inductive disp :=
  | DRet (ok : bool)
  | DPanic (p : panic)
  | DWrite (chunk : bytes) (k : bool -> disp).

(** Continue with the returned [fmt::Result].
    the [?] of percent_encoding.rs:36-62. *)
Fixpoint dbind (d : disp) (k : bool -> disp) : disp :=
  match d with
  | DRet b => k b
  | DPanic p => DPanic p
  | DWrite c k' => DWrite c (fun b => dbind (k' b) k)
  end.

(** [d1?; d2]
    (percent_encoding.rs:53-54) *)
Definition dseq (d1 d2 : disp) : disp :=
  dbind d1 (fun ok => if ok then d2 else DRet false).

(** [Display for str] without width or precision: one [write_str].
    (percent_encoding.rs:38) *)
Definition dstr (s : bytes) : disp := DWrite s DRet.

(** [for c in chunks { f.write_str(c)? } Ok(())]
    (percent_encoding.rs:75, 82-84) *)
Fixpoint dchunks (cs : list bytes) : disp :=
  match cs with
  | [] => DRet true
  | c :: cs' => dseq (dstr c) (dchunks cs')
  end.

(** The text a [Display] value writes when no write fails, and what it returns then.
    A notion of [core::fmt], for the statements. *)
Fixpoint dtext (d : disp) : bytes :=
  match d with
  | DRet _ => []
  | DPanic _ => []
  | DWrite c k => c ++ dtext (k true)
  end.

(** What it returns then. *)
Fixpoint dfinal (d : disp) : res bool :=
  match d with
  | DRet b => Ok b
  | DPanic p => Panic p
  | DWrite _ k => dfinal (k true)
  end.

(** A well-behaved value: succeeds when no write fails.
    A notion of [core::fmt], for the statements. *)
Definition dok (d : disp) : Prop := dfinal d = Ok true.

(** A [Display] value that never reports success after a failed write.
    A notion of [core::fmt], for the statements. *)
Fixpoint always_err (d : disp) : Prop :=
  match d with
  | DRet b => b = false
  | DPanic _ => True
  | DWrite _ k => always_err (k true) /\ always_err (k false)
  end.

(** Every failed write is reported at once (the [?] of percent_encoding.rs:36-62). *)
Fixpoint propagates (d : disp) : Prop :=
  match d with
  | DRet _ => True
  | DPanic _ => True
  | DWrite _ k => always_err (k false) /\ propagates (k true)
  end.

(** A [Display] value that never panics itself, whatever the writer answers.
    A notion of [core::fmt], for the statements. *)
Fixpoint no_panic (d : disp) : Prop :=
  match d with
  | DRet _ => True
  | DPanic _ => False
  | DWrite _ k => no_panic (k true) /\ no_panic (k false)
  end.

(** ** [Write]

    A [fmt::Write] implementation: [write_str] returns the new state and whether it succeeded,
    or panics.
    The trait bound of auth.rs:150-178 and urlencode.rs:47-60. *)
Record Writer := {
  W :> Type;
  write_str : W -> bytes -> res (W * bool);
}.
Arguments write_str {w} _ _ : rename.

(** Run a [Display] value against a writer: [write!(w, "{}", d)].
    (percent_encoding.rs:66, 78) *)
Fixpoint run_disp {w : Writer} (d : disp) (s : w) : res (w * bool) :=
  match d with
  | DRet b => Ok (s, b)
  | DPanic p => Panic p
  | DWrite c k => '(s', b) <- write_str s c ;; run_disp (k b) s'
  end.

(** [write!(w, "{}", d).unwrap()]
    (auth.rs:159, 233, 247, 372-373; urlencode.rs:66-90; digest_common.rs:22, 28) *)
Definition write_unwrap {w : Writer} (d : disp) (s : w) : res w :=
  '(s', b) <- run_disp d s ;; if b then Ok s' else Panic PFmt.

(** [Write for String]: appends and always succeeds.
    (auth.rs:71-147, urlencode.rs:33-38) *)
Definition StringW : Writer :=
  {| W := bytes; write_str := fun s c => Ok (s ++ c, true) |}.

(** A fixed-capacity buffer that rejects a write that does not fit (a typical [no_std] writer;
    not part of the crate, used in examples).
    (auth.rs:150-178) *)
Definition BoundedW (cap : nat) : Writer :=
  {| W := bytes;
     write_str := fun s c =>
       if Nat.leb (length (s ++ c)) cap then Ok (s ++ c, true) else Ok (s, false) |}.

(** [ToString::to_string]: panics if the implementation reports an error.
    (auth.rs:384-441) *)
Definition to_string (d : disp) : res bytes := write_unwrap (w := StringW) d [].

(** The sequence of writes [cs] all succeeded and took [s] to [s'].
    A notion of [core::fmt], for the statements. *)
Inductive writes_ok {w : Writer} : w -> list bytes -> w -> Prop :=
  | wo_nil : forall s, writes_ok s [] s
  | wo_cons : forall s c s' cs s'',
      write_str s c = Ok (s', true) -> writes_ok s' cs s'' -> writes_ok s (c :: cs) s''.

(** Writers that cannot fail or panic, with the text they have received so far.
    A notion of [core::fmt], for the statements. *)
Definition infallible (w : Writer) : Prop :=
  forall (s : w) c, exists s', write_str s c = Ok (s', true).
