(** A provider that wants times that do not go back (OAuth Core 1.0a section 8: "The timestamp value MUST be a positive
    integer and MUST be equal or greater than the timestamp used in previous requests."). *)
From Coq Require Import String.
From Coq Require Import NArith.
From Verif Require Import Bytes Crypto Spec SpecServer2 SpecReplay SpecWindow.

(** The client and the token of a request. *)
Definition account_of (u : use) : bytes * option bytes := (us_client u, us_token u).
Definition account_eq_dec (x y : bytes * option bytes) : {x = y} + {x <> y}.
Proof. decide equality; [decide equality|]; apply (list_eq_dec Byte.byte_eq_dec). Defined.

(** Not before [v], if both are by the same client with the same token. *)
Definition not_before (u v : use) : bool :=
  if account_eq_dec (account_of v) (account_of u)
  then match read_decimal (us_timestamp v), read_decimal (us_timestamp u) with
       | Some s, Some t => N.leb s t
       | _, _ => false
       end
  else true.

(** A request is served if, besides, it is not before one that has been served. *)
Definition serve_order (a : accounts) (seen : list use) (m : message) : list use * option (list pair) :=
  match use_in m with
  | Some u => if forallb (not_before u) seen then serve a seen m else (seen, None)
  | None => (seen, None)
  end.
Fixpoint serve_orders (a : accounts) (seen : list use) (ms : list message) : list (option (list pair)) :=
  match ms with
  | [] => []
  | m :: ms' => let '(seen', answer) := serve_order a seen m in answer :: serve_orders a seen' ms'
  end.

(** Readings of a clock in seconds since 1970, [None] before.  The second is not before the first: *)
Definition clock_le (x y : option N) : Prop :=
  match x, y with None, _ => True | Some s, Some t => (s <= t)%N | Some _, None => False end.
