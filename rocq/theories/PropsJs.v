(** C79: timestamps from the clock of a JavaScript host. *)
From Coq Require Import String.
From Coq Require Import Lia Arith Sorted Permutation ZArith SpecFloat.
From Verif Require LBuild.
From Verif Require Import Bytes Crypto Spec MFmt MPercent MSerializer MSign MRequest MCredentials MAuth MBuilder MJs ModelTests
  SpecFmt SpecCalls SpecCalls2 SpecAuth SpecBuild SpecForm SpecServer SpecParams SpecSign SpecPanic
  LBytes LFmt LPercent LTrace LReq LReq2 LJs PropsHeader PropsForge PropsPanic.
Local Open Scope nat_scope.

(** A time value of ECMA-262: a whole number of milliseconds since 1970, 100 million days at most in either
    direction. *)
Definition time_value (ms : Z) : Prop := (-8640000000000000 <= ms <= 8640000000000000)%Z.

(** The division in binary floating point and the conversion to an integer give the whole seconds, whatever the
    milliseconds; before 1970 they give 0. *)
Theorem C79_seconds : forall ms, time_value ms ->
  js_timestamp (f64_of_Z ms) = (if 0 <=? ms then ms / 1000 else 0)%Z.
Proof.
  intros ms [H1 H2]. destruct (0 <=? ms)%Z eqn:E.
  - apply js_timestamp_pos. unfold two53. lia.
  - destruct ms as [|p|p]; try discriminate. apply js_timestamp_neg.
Qed.
Print Assumptions C79_seconds.

(** So that is what the header says. *)
Theorem C79_header : forall c ms rng b name strict f r cs method uri out,
  builtin (bd_signature_method b) name strict f -> makes_calls r cs -> call_protos cs = all_protos ->
  op_timestamp (bd_options b) = None -> time_value ms ->
  Builder_authorize c (js_env (fun _ => f64_of_Z ms) rng) b method uri r = Ok out ->
  exists params digits, parse_header out = Some params /\ lookup (lit "oauth_timestamp") params = [digits]
    /\ read_decimal digits = Some (if (0 <=? ms)%Z then Z.to_N (ms / 1000) else 0%N).
Proof.
  intros c ms rng b name strict f r cs method uri out HB HM HP HT HV H.
  destruct (C48_timestamp c _ b name strict f r cs method uri out HB HM HP H) as [params [digits [H1 [H2 [H3 _]]]]].
  exists params, digits. split; [exact H1|]. split; [exact H2|]. rewrite H3. unfold time_sent. rewrite HT. cbn [js_env env_clock].
  rewrite (C79_seconds ms HV). destruct (0 <=? ms)%Z; reflexivity.
Qed.
Print Assumptions C79_header.

(** A host may return other numbers; the timestamp is always a 64-bit number. *)
Theorem C79_range : forall now, (0 <= js_timestamp now <= 2 ^ 64 - 1)%Z.
Proof.
  intros now. unfold js_timestamp, f64_as_u64. destruct (f64_div now (f64_of_Z 1000)) as [s|s| |s m e]; try (split; [|discriminate]; lia || discriminate).
  - destruct s; unfold u64_max; split; try discriminate; lia.
  - destruct s; [split; [lia|discriminate]|]. split; [|apply Z.le_min_l]. apply Z.min_glb; [discriminate|]. destruct (0 <=? e)%Z eqn:E.
    + apply Z.mul_nonneg_nonneg; [lia|]. apply Z.pow_nonneg. lia.
    + apply Z.div_pos; [lia|]. apply Z.pow_pos_nonneg; lia.
Qed.
Print Assumptions C79_range.

(** The last millisecond of a second, the last of all times, and what is not a time. *)
Example C79_example :
  map (fun ms => js_timestamp (f64_of_Z ms)) [0; 999; 1000; 1318622958999; 8639999999999999; 8640000000000000; -1; -8640000000000000]%Z
  = [0; 0; 1; 1318622958; 8639999999999; 8640000000000; 0; 0]%Z
  /\ map js_timestamp [S754_nan; S754_infinity false; S754_infinity true; S754_zero true] = [0; 2 ^ 64 - 1; 0; 0]%Z.
Proof. vm_compute. split; reflexivity. Qed.
Example C79_example_header :
  match Builder_authorize dbg_std (js_env (fun _ => f64_of_Z 1318622958999) (fun _ _ => x01))
    (Builder_new (Cred (lit "id") (lit "secret")) HMAC_SHA1) (lit "GET") (s2d "http://h/") Request_unit with
  | Ok out => match parse_header out with
    | Some params => match lookup (lit "oauth_timestamp") params with [d] => bseqb d (lit "1318622958") | _ => false end
    | None => false
    end
  | Panic _ => false
  end = true.
Proof. vm_compute. reflexivity. Qed.

(** tests/pull_9.rs, for any reading of the clock. *)
Example pull_9 : forall now rng, exists out,
  get dbg_std (js_env now rng) (fun x => x) (fun x => x) (s2d "") Request_unit (Token_from_parts [] [] [] []) PLAINTEXT = Ok out.
Proof.
  intros now rng.
  apply (C35_returns dbg_std (js_env now rng) (Builder_with_token (Token_from_parts [] [] [] []) PLAINTEXT) (KAuthorize (s2d "")) (lit "GET")
    Request_unit []); auto using cq_unit; try (constructor; fail).
  exact LBuild.infallible_string.
Qed.
