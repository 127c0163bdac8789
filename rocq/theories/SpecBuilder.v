(** Histories of a [Builder]: settings and calls. *)
From Coq Require Import String.
From Verif Require Import Bytes Spec MFmt MSerializer MRequest MCredentials MSign MAuth MBuilder SpecCalls SpecAuth SpecBuild SpecPanic.

Inductive setting :=
  | SetToken (v : option (Credentials bytes))
  | SetCallback (v : option bytes)
  | SetVerifier (v : option bytes)
  | SetNonce (v : option bytes)
  | SetTimestamp (v : option N)
  | SetVersion (v : bool).

Definition set (x : setting) (b : Builder) : Builder :=
  match x with
  | SetToken v => Builder_token v b
  | SetCallback v => Builder_callback v b
  | SetVerifier v => Builder_verifier v b
  | SetNonce v => Builder_nonce v b
  | SetTimestamp v => Builder_timestamp v b
  | SetVersion v => Builder_version v b
  end.

Definition configure (h : list setting) (b : Builder) : Builder := fold_left (fun b x => set x b) h b.

(** The last value set, or the value before the history. *)
Fixpoint last_set {A} (select : setting -> option A) (before : A) (h : list setting) : A :=
  match h with
  | [] => before
  | x :: h' => last_set select (match select x with Some v => v | None => before end) h'
  end.

Definition sel_token x := match x with SetToken v => Some v | _ => None end.
Definition sel_callback x := match x with SetCallback v => Some v | _ => None end.
Definition sel_verifier x := match x with SetVerifier v => Some v | _ => None end.
Definition sel_nonce x := match x with SetNonce v => Some v | _ => None end.
Definition sel_timestamp x := match x with SetTimestamp v => Some v | _ => None end.
Definition sel_version x := match x with SetVersion v => Some v | _ => None end.

(** Which option a setting is about. *)
Definition about (x : setting) : nat :=
  match x with
  | SetToken _ => 0 | SetCallback _ => 1 | SetVerifier _ => 2 | SetNonce _ => 3 | SetTimestamp _ => 4
  | SetVersion _ => 5
  end.

(** A history of a builder: settings, and calls of the functions that authorize, each with its own
    clock and random source. *)
Inductive event :=
  | Setting (x : setting)
  | Calling (c : cfg) (e : env) (k : kind) (method : bytes) (r : Request).

Definition outcome : Type := {k : kind & res (kind_writer k)}.

(** The outcomes of the calls, in turn; settings update the builder, calls borrow it. *)
Fixpoint outcomes (h : list event) (b : Builder) : list outcome :=
  match h with
  | [] => []
  | Setting x :: h' => outcomes h' (set x b)
  | Calling c e k method r :: h' => existT _ k (run c e b k method r) :: outcomes h' b
  end.

Definition settings_of (h : list event) : list setting :=
  flat_map (fun x => match x with Setting s => [s] | Calling _ _ _ _ _ => [] end) h.
