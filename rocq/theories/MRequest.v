(** Model of oauth1-request/src/request.rs and request/parameter_list.rs. *)
From Coq Require Import String.
From Verif Require Import Bytes MFmt MPercent MSerializer.

(** request.rs:20-26, trait [Request]: [serialize] works for every serializer. *)
Definition Request := forall S : Serializer, S -> res (sr_out S).

(** request.rs:66-76 [Request for &R]. *)
Definition Request_ref (r : Request) : Request := fun S s => r S s.
(** request.rs:78-88 [Request for &mut R]. *)
Definition Request_mut (r : Request) : Request := fun S s => r S s.

(** request.rs:91-99 [Request for ()]. *)
Definition Request_unit : Request :=
  fun S s => s <- serialize_oauth_parameters s ;; sr_end s.

(** request.rs:101-113 [Request for Option<R>]. *)
Definition Request_option (r : option Request) : Request :=
  fun S s =>
    match r with
    | Some this => this S s
    | None => s <- serialize_oauth_parameters s ;; sr_end s
    end.

(** A key-value pair: [K: AsRef<str>] is its text, [V: Display] its behaviour.
    (parameter_list.rs:30-40) *)
Definition kv := (bytes * disp)%type.

(** request.rs:146-149, [while next_param < *k { .. }].  [dbg] is [debug_assertions] (for [next]).
    There are nine values of [OAuthParameter]; [fuel] 9 is never exhausted. *)
Fixpoint oauth_before (dbg : bool) {S : Serializer} (fuel : nat) (k : bytes) (p : OAuthParameter) (s : S)
  : res (OAuthParameter * S) :=
  if op_lt p k then
    match fuel with
    | O => Panic PFuel
    | Datatypes.S fuel' =>
        s <- op_serialize p s ;;
        p <- next dbg p ;;
        oauth_before dbg fuel' k p s
    end
  else Ok (p, s).

(** request.rs:144-151, the [for] loop. *)
Fixpoint as_loop (dbg : bool) {S : Serializer} (l : list kv) (p : OAuthParameter) (s : S)
  : res (OAuthParameter * S) :=
  match l with
  | [] => Ok (p, s)
  | (k, v) :: l' =>
      '(p, s) <- oauth_before dbg 9 k p s ;;
      s <- sr_parameter s k v ;;
      as_loop dbg l' p s
  end.

(** request.rs:153-156, [while next_param != OAuthParameter::None { .. }]. *)
Fixpoint oauth_rest (dbg : bool) {S : Serializer} (fuel : nat) (p : OAuthParameter) (s : S) : res S :=
  if is_none_ p then Ok s
  else
    match fuel with
    | O => Panic PFuel
    | Datatypes.S fuel' =>
        s <- op_serialize p s ;;
        p <- next dbg p ;;
        oauth_rest dbg fuel' p s
    end.

(** request.rs:138-159 [AssertSorted::serialize]; [l] is what the cloned iterator yields.
    [AssertSorted::new] (122-129) just stores the iterator. *)
Definition AssertSorted (dbg : bool) (l : list kv) : Request :=
  fun S s =>
    '(p, s) <- as_loop dbg l OAuthParameter_default s ;;
    s <- oauth_rest dbg 9 p s ;;
    sr_end s.

(** ** request/parameter_list.rs *)

(** parameter_list.rs:233-245 [cmp]: keys, then displayed values. *)
Definition pl_cmp (a b : kv) : comparison :=
  match bcmp (fst a) (fst b) with
  | Eq => fmt_cmp (snd a) (snd b)
  | c => c
  end.

(** parameter_list.rs:249-256 [is_sorted_by] with [cmp]. *)
Fixpoint pl_is_sorted (l : list kv) : bool :=
  match l with
  | a :: (b :: _) as l' =>
      (match pl_cmp b a with Lt => false | _ => true end) && pl_is_sorted l'
  | _ => true
  end.

(** [<[T]>::sort_unstable_by]: any function may stand for it; the contract is in the theorems.
    (parameter_list.rs:108) *)
Definition sorter := list kv -> list kv.

(** A [ParameterList] is its list.
    (parameter_list.rs:30-40) *)
Definition ParameterList := list kv.

(** parameter_list.rs:61-70 [from_sorted]. *)
Definition pl_from_sorted (list : list kv) : option ParameterList :=
  if pl_is_sorted list then Some list else None.

(** parameter_list.rs:83-90 [new] and 107-109 [sort]. *)
Definition pl_new (sort : sorter) (list : list kv) : ParameterList := sort list.

(** parameter_list.rs:157-159 [From]. *)
Definition pl_from (sort : sorter) (list : list kv) : ParameterList := pl_new sort list.

(** parameter_list.rs:169-174 [from_iter]; collecting keeps the order. *)
Definition pl_from_iter (sort : sorter) (iter : list kv) : ParameterList := pl_new sort iter.

(** parameter_list.rs:142-147 [default]; [d] is [A::default()], which is not sorted. *)
Definition pl_default (d : list kv) : ParameterList := d.

(** parameter_list.rs:184-190 [extend]. *)
Definition pl_extend (sort : sorter) (self : ParameterList) (iter : list kv) : ParameterList :=
  sort (self ++ iter).

(** parameter_list.rs:95-97 [into_inner], 118-123 [iter] with 228-230 [next] to the end, 130-132 [as_ref]. *)
Definition pl_into_inner (self : ParameterList) : list kv := self.
Definition pl_iter (self : ParameterList) : list kv := self.
Definition pl_as_ref (self : ParameterList) : list kv := self.

(** parameter_list.rs:200-219 [Request for ParameterList]. *)
Definition Request_pl (dbg : bool) (self : ParameterList) : Request := AssertSorted dbg self.
