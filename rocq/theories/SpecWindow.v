(** A provider that refuses requests whose time is too far from its own and forgets old ones (RFC 5849 section 3.3: "To avoid
    the need to retain an infinite number of nonce values for future checks, servers MAY choose to restrict the time period
    after which a request with an old timestamp is rejected."). *)
From Coq Require Import String.
From Coq Require Import NArith.
From Verif Require Import Bytes Crypto Spec SpecServer2 SpecReplay.
Local Open Scope N_scope.

(** The time of a request is at most [w] seconds before [now], ... *)
Definition recent (w now : N) (u : use) : bool :=
  match read_decimal (us_timestamp u) with Some t => now <=? t + w | None => false end.
(** ... and at most [w] seconds after. *)
Definition in_window (w now : N) (u : use) : bool :=
  match read_decimal (us_timestamp u) with Some t => (now <=? t + w) && (t <=? now + w) | None => false end.

(** What the provider does with its memory before it looks at a request at [now]: it may forget any requests that are not
    recent any more. *)
Definition may_forget (w : N) (forget : N -> list use -> list use) : Prop :=
  forall now seen u, (In u (forget now seen) -> In u seen) /\ (In u seen -> recent w now u = true -> In u (forget now seen)).

(** Who makes the request, when, and with which nonce. *)
Definition use_in (m : message) : option use :=
  match params_in m with Some params => use_of params | None => None end.

(** A request that arrives at [now]. *)
Definition serve_at (a : accounts) (w : N) (forget : N -> list use -> list use) (seen : list use) (now : N) (m : message) :
    list use * option (list pair) :=
  let seen := forget now seen in
  match use_in m with
  | Some u => if in_window w now u then serve a seen m else (seen, None)
  | None => (seen, None)
  end.

(** Requests with the times at which they arrive. *)
Fixpoint serve_times (a : accounts) (w : N) (forget : N -> list use -> list use) (seen : list use) (ms : list (N * message)) :
    list (option (list pair)) :=
  match ms with
  | [] => []
  | (now, m) :: ms' => let '(seen', answer) := serve_at a w forget seen now m in answer :: serve_times a w forget seen' ms'
  end.

(** The provider's clock does not go back. *)
Fixpoint in_time (from : N) (times : list N) : Prop :=
  match times with [] => True | t :: times' => from <= t /\ in_time t times' end.
