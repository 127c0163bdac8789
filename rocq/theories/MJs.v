(** The clock of the [js] feature (wasm32-unknown-unknown). *)
From Coq Require Import String.
From Coq Require Import ZArith SpecFloat.
From Verif Require Import Bytes MAuth.

(** IEEE 754 binary64, as in the standard library's [SpecFloat].
    (auth.rs:384-404) *)
Definition f64 : Type := spec_float.
(** The literal 1000.0 and the like (auth.rs:384-404). *)
Definition f64_of_Z (z : Z) : f64 := binary_normalize 53 1024 z 0 false.
(** Division (auth.rs:384-404). *)
Definition f64_div : f64 -> f64 -> f64 := SFdiv 53 1024.

(** Rust's [as u64] on an [f64]: towards zero, saturating, 0 for NaN.
    (auth.rs:384-404) *)
Definition u64_max : Z := (2 ^ 64 - 1)%Z.
(** The cast of auth.rs:384-404. *)
Definition f64_as_u64 (x : f64) : Z :=
  match x with
  | S754_finite false m e => Z.min u64_max (if (0 <=? e)%Z then Z.pos m * 2 ^ e else Z.pos m / 2 ^ (- e))%Z
  | S754_infinity false => u64_max
  | _ => 0%Z
  end.

(** auth.rs:388 [(js_sys::Date::now() / 1000.0) as u64]; [now] is the number that [Date.now()] returns. *)
Definition js_timestamp (now : f64) : Z := f64_as_u64 (f64_div now (f64_of_Z 1000)).

(** The environment of a crate built with [js]: the reading that [get_current_timestamp] passes on (auth.rs:384-388;
    [MAuth.get_current_timestamp] passes [Some] on as well).  [cf_std], which is used nowhere else, then stands for [js]
    or [std]. *)
Definition js_env (now : nat -> f64) (rng : nat -> nat -> byte) : env :=
  {| env_clock := fun n => Some (Z.to_N (js_timestamp (now n))); env_rng := rng |}.
