(** C78: how likely it is that two requests get the same nonce. *)
From Coq Require Import String.
From Coq Require Import Lia Arith Sorted Permutation ZArith ListDec.
From Verif Require Import Bytes Crypto Spec MFmt MPercent MSerializer MSign MRequest MCredentials MAuth MBuilder ModelTests
  SpecFmt SpecCalls SpecCalls2 SpecAuth SpecBuild SpecForm SpecServer SpecParams SpecSign SpecPanic SpecBuilder
  LBytes LFmt LPercent LCrypto LTrace LAuth LSign LBuild LForm LBase LBase2 LReq LReq2 LPanic LTop LParams LServer
  PropsHeader PropsServer PropsBuilder.
From Verif Require ModelTests2.
Local Open Scope nat_scope.

(** ** Equally likely outcomes *)

(** All lists of [n] elements of [U]. *)
Fixpoint lists_of {A} (U : list A) (n : nat) : list (list A) :=
  match n with
  | 0 => [[]]
  | S n => flat_map (fun v => map (fun x => x :: v) U) (lists_of U n)
  end.

(** N (N - 1) ... (N - n + 1) *)
Fixpoint falling (N : Z) (n : nat) : Z :=
  match n with
  | O => 1%Z
  | S n => (falling N n * (N - Z.of_nat n))%Z
  end.

Lemma lists_of_in : forall {A} (U : list A) n v, In v (lists_of U n) <-> length v = n /\ Forall (fun x => In x U) v.
Proof.
  intros A U. induction n as [|n IH]; intros v; cbn [lists_of].
  - split.
    + intros [<-|[]]. auto.
    + intros [H _]. destruct v; [now left|discriminate].
  - rewrite in_flat_map. split.
    + intros [w [Hw H]]. apply in_map_iff in H as [x [<- Hx]]. apply IH in Hw as [H1 H2]. cbn [length]. auto.
    + intros [H1 H2]. destruct v as [|x v]; [discriminate|]. inversion H2; subst. exists v. split.
      * apply IH. auto.
      * apply in_map_iff. eauto.
Qed.

Lemma length_flat_map_const : forall {A B} (f : A -> list B) k l, (forall x, In x l -> length (f x) = k) ->
  length (flat_map f l) = length l * k.
Proof.
  intros A B f k. induction l as [|x l IH]; intros H; cbn [flat_map length]; [reflexivity|].
  rewrite app_length, H, IH; [reflexivity| |now left]. intros y Hy. apply H. now right.
Qed.

Lemma lists_of_length : forall {A} (U : list A) n, Z.of_nat (length (lists_of U n)) = (Z.of_nat (length U) ^ Z.of_nat n)%Z.
Proof.
  intros A U. induction n as [|n IH]; [reflexivity|]. cbn [lists_of].
  rewrite (length_flat_map_const _ (length U)) by (intros; apply map_length).
  rewrite Nat2Z.inj_mul, IH, Nat2Z.inj_succ, Z.pow_succ_r by lia. lia.
Qed.

Lemma NoDup_app_intro : forall {A} (l l' : list A), NoDup l -> NoDup l' -> (forall x, In x l -> In x l' -> False) -> NoDup (l ++ l').
Proof.
  intros A. induction l as [|x l IH]; intros l' H1 H2 H3; cbn [app]; auto. inversion H1; subst. constructor.
  - rewrite in_app_iff. intros [K|K]; [contradiction|]. apply (H3 x); [now left|exact K].
  - apply IH; auto. intros y Hy. apply H3. now right.
Qed.

Lemma lists_of_nodup : forall {A} (U : list A) n, NoDup U -> NoDup (lists_of U n).
Proof.
  intros A U n HU. induction n as [|n IH]; cbn [lists_of].
  - constructor; [intros []|constructor].
  - induction (lists_of U n) as [|v l IHl]; cbn [flat_map]; [constructor|]. inversion IH; subst. apply NoDup_app_intro; auto.
    + apply FinFun.Injective_map_NoDup; auto. intros x y E. now inversion E.
    + intros w H1' H2'. apply in_map_iff in H1' as [x [<- _]]. apply in_flat_map in H2' as [v' [H3 H4]].
      apply in_map_iff in H4 as [y [E _]]. inversion E; subst. contradiction.
Qed.

Lemma filter_split_length : forall {A} (p : A -> bool) l, length (filter p l) + length (filter (fun x => negb (p x)) l) = length l.
Proof. intros A p. induction l as [|x l IH]; [reflexivity|]. cbn [filter]. destruct (p x); cbn [negb length]; lia. Qed.

Section Distinct.
  Context {A : Type} (dec : forall x y : A, {x = y} + {x <> y}).

  Definition distinct (l : list A) : bool := if NoDup_dec dec l then true else false.

  Lemma distinct_spec : forall l, distinct l = true <-> NoDup l.
  Proof. intros l. unfold distinct. destruct (NoDup_dec dec l); split; auto; discriminate. Qed.

  Definition member (v : list A) (x : A) : bool := if in_dec dec x v then true else false.

  Lemma without_count : forall v U, NoDup v -> NoDup U -> incl v U ->
    length (filter (fun x => negb (member v x)) U) + length v = length U.
  Proof.
    intros v U HV HU HI.
    assert (E : length (filter (member v) U) = length v).
    { apply Nat.le_antisymm.
      - apply NoDup_incl_length; [now apply NoDup_filter|]. intros x Hx. apply filter_In in Hx as [_ Hx].
        unfold member in Hx. destruct (in_dec dec x v); [auto|discriminate].
      - apply NoDup_incl_length; auto. intros x Hx. apply filter_In. split; auto. unfold member. now destruct (in_dec dec x v). }
    rewrite <- E. pose proof (filter_split_length (member v) U). lia.
  Qed.

  Lemma filter_flat_map : forall {B C} (p : C -> bool) (f : B -> list C) l,
    filter p (flat_map f l) = flat_map (fun x => filter p (f x)) l.
  Proof. intros B C p f. induction l as [|x l IH]; cbn [flat_map filter]; auto. now rewrite filter_app, IH. Qed.

  (** How many of the lists have no repetitions. *)
  Lemma distinct_count : forall U, NoDup U -> forall n,
    Z.of_nat (length (filter distinct (lists_of U n))) = falling (Z.of_nat (length U)) n.
  Proof.
    intros U HU. induction n as [|n IH].
    - cbn [lists_of filter]. assert (E : distinct [] = true) by (apply distinct_spec; constructor). now rewrite E.
    - cbn [lists_of falling]. rewrite filter_flat_map.
      assert (HL : forall v, In v (lists_of U n) -> length v = n /\ incl v U).
      { intros v Hv. apply lists_of_in in Hv as [H1 H2]. split; auto. rewrite Forall_forall in H2. exact H2. }
      rewrite <- IH. clear IH. induction (lists_of U n) as [|v l IHl]; [reflexivity|]. cbn [flat_map filter].
      rewrite app_length, Nat2Z.inj_add, IHl by (intros; apply HL; now right). destruct (HL v (or_introl eq_refl)) as [H1 H2].
      destruct (distinct v) eqn:ED.
      + apply distinct_spec in ED.
        assert (E : length (filter distinct (map (fun x => x :: v) U)) = length (filter (fun x => negb (member v x)) U)).
        { clear HL IHl H1 H2 HU. induction U as [|x U IHU]; [reflexivity|]. cbn [map filter].
          assert (E : distinct (x :: v) = negb (member v x)).
          { unfold member. destruct (in_dec dec x v) as [I|I]; cbn [negb].
            - destruct (distinct (x :: v)) eqn:E; auto. apply distinct_spec in E. inversion E. contradiction.
            - apply distinct_spec. now constructor. }
          rewrite E. destruct (negb (member v x)); cbn [length]; now rewrite IHU. }
        rewrite E. pose proof (without_count v U ED HU H2). cbn [length]. rewrite Nat2Z.inj_succ. lia.
      + assert (E : filter distinct (map (fun x => x :: v) U) = []).
        { clear HL IHl H1 H2 HU. induction U as [|x U IHU]; [reflexivity|]. cbn [map filter].
          destruct (distinct (x :: v)) eqn:E; auto. apply distinct_spec in E. inversion E; subst.
          assert (K : distinct v = true) by now apply distinct_spec. congruence. }
        rewrite E. cbn [length]. lia.
  Qed.
End Distinct.

(** ** The birthday bounds *)

Lemma falling_bounds : forall N n, (0 < N)%Z -> (Z.of_nat n <= N)%Z ->
  let s := (Z.of_nat n * (Z.of_nat n - 1) / 2)%Z in
  let all := (N ^ Z.of_nat n)%Z in
  (0 <= falling N n /\ all * (N - s) <= N * falling N n /\ 2 * N * N * falling N n <= all * (2 * N * N - 2 * N * s + s * s))%Z.
Proof.
  intros N n HN. induction n as [|n IH]; intros Hn.
  - cbv zeta. cbn [falling]. change (Z.of_nat 0) with 0%Z. change (0 * (0 - 1) / 2)%Z with 0%Z. rewrite Z.pow_0_r. split; [lia|]. split; lia.
  - cbv zeta in IH |- *. cbn [falling]. rewrite Nat2Z.inj_succ in *. specialize (IH ltac:(lia)).
    rewrite Z.pow_succ_r by lia. set (k := Z.of_nat n) in *.
    assert (Ek : (0 <= k)%Z) by (unfold k; lia).
    set (s := (k * (k - 1) / 2)%Z) in *.
    assert (Es : (Z.succ k * (Z.succ k - 1) / 2 = s + k)%Z).
    { unfold s. replace (Z.succ k * (Z.succ k - 1))%Z with (k * (k - 1) + k * 2)%Z by lia. rewrite Z.div_add by lia. reflexivity. }
    rewrite Es.
    assert (Hs : (0 <= s)%Z) by (unfold s; apply Z.div_pos; [destruct (Z.eq_dec k 0); nia|lia]).
    assert (Ha : (0 < N ^ k)%Z) by (apply Z.pow_pos_nonneg; lia).
    clearbody s. clear Es. generalize dependent (N ^ k)%Z. generalize dependent (falling N n). intros F a [I1 [I2 I3]] Ha.
    split; [|split].
    + nia.
    + assert (X : (a * (N - s) * (N - k) <= N * F * (N - k))%Z) by (apply Z.mul_le_mono_nonneg_r; lia).
      assert (Y : (0 <= a * (s * k))%Z) by (apply Z.mul_nonneg_nonneg; [lia|apply Z.mul_nonneg_nonneg; lia]). nia.
    + assert (X : (2 * N * N * F * (N - k) <= a * (2 * N * N - 2 * N * s + s * s) * (N - k))%Z) by (apply Z.mul_le_mono_nonneg_r; lia).
      assert (Y : (0 <= a * (N * (k * k) + s * s * k))%Z).
      { apply Z.mul_nonneg_nonneg; [lia|]. apply Z.add_nonneg_nonneg; repeat apply Z.mul_nonneg_nonneg; lia. }
      nia.
Qed.

(** ** C78 *)

(** One outcome of the random source for one nonce: nine bytes. *)
Definition draws : list bytes := lists_of ModelTests2.all_bytes 9.

Lemma draws_count : Z.of_nat (length draws) = (2 ^ 72)%Z.
Proof.
  etransitivity; [exact (lists_of_length ModelTests2.all_bytes 9)|].
  destruct ModelTests2.all_bytes_count as [-> _]. reflexivity.
Qed.

Lemma draws_nodup : NoDup draws.
Proof.
  apply lists_of_nodup. destruct ModelTests2.all_bytes_count as [_ E]. rewrite <- E. apply NoDup_nodup.
Qed.

(** Every nine bytes are among them. *)
Lemma draws_all : forall d, In d draws <-> length d = 9.
Proof.
  intros d. etransitivity; [exact (lists_of_in ModelTests2.all_bytes 9 d)|]. split; [tauto|]. intros H. split; auto. apply Forall_forall. intros x _.
  assert (B : forallb (fun n => match Byte.of_N (N.of_nat n) with Some x => if in_dec Byte.byte_eq_dec x ModelTests2.all_bytes then true else false | None => true end) (seq 0 256) = true)
    by (vm_compute; reflexivity).
  rewrite forallb_forall in B. specialize (B (N.to_nat (Byte.to_N x))). rewrite N2Nat.id, Byte.of_to_N in B.
  assert (I : In (N.to_nat (Byte.to_N x)) (seq 0 256)).
  { apply in_seq. pose proof (Byte.to_N_bounded x). lia. }
  specialize (B I). destruct (in_dec Byte.byte_eq_dec x ModelTests2.all_bytes); [auto|discriminate].
Qed.

(** A request to be authorized: method, URI and parameters.  It goes through whatever the random source gives. *)
Definition job : Type := (bytes * disp * Request)%type.
Definition env_with (clock : nat -> option N) (draw : bytes) : env := {| env_clock := clock; env_rng := fun _ i => nth i draw x00 |}.
Definition authorize_job (c : cfg) (clock : nat -> option N) (b : Builder) (draw : bytes) (j : job) : res bytes :=
  let '(method, uri, r) := j in Builder_authorize c (env_with clock draw) b method uri r.
Definition job_ok (c : cfg) (clock : nat -> option N) (b : Builder) (j : job) : Prop :=
  (exists cs, makes_calls (snd j) cs /\ call_protos cs = all_protos)
  /\ forall draw, exists header, authorize_job c clock b draw j = Ok header.

(** The values of "oauth_nonce" in the headers of the jobs, for an outcome of the random source for each. *)
Definition nonces_in (out : res bytes) : list bytes :=
  match out with
  | Ok header => match parse_header header with Some params => lookup (lit "oauth_nonce") params | None => [] end
  | Panic _ => []
  end.
Definition sent_nonces (c : cfg) (clock : nat -> option N) (b : Builder) (jobs : list job) (outcome : list bytes) : list (list bytes) :=
  map (fun '(draw, j) => nonces_in (authorize_job c clock b draw j)) (combine outcome jobs).

Definition values_dec : forall x y : list bytes, {x = y} + {x <> y} := list_eq_dec (list_eq_dec Byte.byte_eq_dec).

(** The outcomes of the random source for [n] requests, and those for which no two of the requests get the same nonce. *)
Definition outcomes (n : nat) : list (list bytes) := lists_of draws n.
Definition without_collision (c : cfg) (clock : nat -> option N) (b : Builder) (jobs : list job) : list (list bytes) :=
  filter (fun o => distinct values_dec (sent_nonces c clock b jobs o)) (outcomes (length jobs)).
Definition with_collision (c : cfg) (clock : nat -> option N) (b : Builder) (jobs : list job) : list (list bytes) :=
  filter (fun o => negb (distinct values_dec (sent_nonces c clock b jobs o))) (outcomes (length jobs)).

Lemma random_bytes_draw : forall clock d, length d = 9 -> random_bytes (env_with clock d) 0 = d.
Proof.
  intros clock d H. do 10 (destruct d as [|? d]; try discriminate H). reflexivity.
Qed.

Section Nonces.
  Variables (c : cfg) (clock : nat -> option N) (b : Builder) (name : bytes) (strict : bool)
    (f : bytes -> option bytes -> bytes -> option bytes).
  Hypothesis HB : builtin (bd_signature_method b) name strict f.
  Hypothesis HN : op_nonce (bd_options b) = None.

  Lemma job_nonce : forall j d, job_ok c clock b j -> length d = 9 ->
    nonces_in (authorize_job c clock b d j) = [nonce_text d].
  Proof.
    intros [[m u] r] d [[cs [H1 H2]] H3] HD. destruct (H3 d) as [out E]. rewrite E. cbn [authorize_job snd] in *.
    destruct (nonce_read c (env_with clock d) b name strict f r cs m u out HB H1 H2 HN E) as [params [P1 P2]].
    rewrite random_bytes_draw in P2 by exact HD. cbn [nonces_in]. now rewrite P1.
  Qed.

  Lemma sent_texts : forall jobs o, Forall (job_ok c clock b) jobs -> Forall (fun d => length d = 9) o -> length o = length jobs ->
    sent_nonces c clock b jobs o = map (fun d => [nonce_text d]) o.
  Proof.
    induction jobs as [|j jobs IH]; intros o HJ HO HL; destruct o as [|d o]; try discriminate HL; [reflexivity|].
    inversion HJ; subst. inversion HO; subst. unfold sent_nonces in *. cbn [combine map].
    rewrite job_nonce by auto. f_equal. apply IH; auto.
  Qed.

  Lemma texts_nodup : forall o : list bytes, Forall (fun d => length d = 9) o ->
    (NoDup (map (fun d => [nonce_text d]) o) <-> NoDup o).
  Proof.
    intros o HO. split; [apply NoDup_map_inv|]. intros H. induction H as [|d o HI HD IH]; cbn [map]; constructor.
    - intros K. apply in_map_iff in K as [d' [E I]]. injection E as E. inversion HO as [|? ? H1 H2]; subst.
      rewrite Forall_forall in H2. apply HI. rewrite (nonce_text_inj d d'); auto.
    - inversion HO; subst. auto.
  Qed.

  Lemma outcomes_nine : forall n o, In o (outcomes n) -> length o = n /\ Forall (fun d => length d = 9) o.
  Proof.
    intros n o H. unfold outcomes in H. apply lists_of_in in H as [H1 H2]. split; auto.
    rewrite Forall_forall in *. intros d Hd. apply draws_all. auto.
  Qed.

  Lemma nonces_exact : forall jobs, Forall (job_ok c clock b) jobs ->
    Z.of_nat (length (outcomes (length jobs))) = ((2 ^ 72) ^ Z.of_nat (length jobs))%Z
    /\ Z.of_nat (length (without_collision c clock b jobs)) = falling (2 ^ 72) (length jobs).
  Proof.
    intros jobs HJ. split.
    - etransitivity; [exact (lists_of_length draws (length jobs))|]. now rewrite draws_count.
    - rewrite <- draws_count, <- (distinct_count (list_eq_dec Byte.byte_eq_dec) draws draws_nodup).
      unfold without_collision. do 2 f_equal. apply filter_ext_in. intros o Ho. apply outcomes_nine in Ho as [H1 H2].
      rewrite sent_texts by auto. apply Bool.eq_iff_eq_true. rewrite !distinct_spec. now apply texts_nodup.
  Qed.

  Lemma nonces_bound : forall jobs, Forall (job_ok c clock b) jobs -> (Z.of_nat (length jobs) <= 2 ^ 72)%Z ->
    let n := Z.of_nat (length jobs) in
    (2 ^ 73 * Z.of_nat (length (with_collision c clock b jobs)) <= n * (n - 1) * Z.of_nat (length (outcomes (length jobs))))%Z.
  Proof.
    intros jobs HJ HL. cbv zeta. destruct (nonces_exact jobs HJ) as [E1 E2].
    assert (ES : length (without_collision c clock b jobs) + length (with_collision c clock b jobs) = length (outcomes (length jobs)))
      by exact (filter_split_length (fun o => distinct values_dec (sent_nonces c clock b jobs o)) (outcomes (length jobs))).
    destruct (falling_bounds (2 ^ 72) (length jobs) ltac:(reflexivity) HL) as [_ [B _]]. rewrite <- E1, <- E2 in B. clear E1 E2.
    set (n := Z.of_nat (length jobs)) in *.
    assert (EV : (n * (n - 1) = 2 * (n * (n - 1) / 2))%Z).
    { apply Z.div_exact; [lia|]. destruct (Z.Even_or_Odd n) as [[k ->]|[k ->]].
      - replace (2 * k * (2 * k - 1))%Z with (k * (2 * k - 1) * 2)%Z by lia. apply Z.mod_mul. lia.
      - replace ((2 * k + 1) * (2 * k + 1 - 1))%Z with ((2 * k + 1) * k * 2)%Z by lia. apply Z.mod_mul. lia. }
    rewrite EV. set (s := (n * (n - 1) / 2)%Z) in *. clearbody s.
    change (2 ^ 73)%Z with (2 * 2 ^ 72)%Z. generalize dependent (2 ^ 72)%Z. intros M _ B.
    set (w := length (without_collision c clock b jobs)) in *. set (x := length (with_collision c clock b jobs)) in *.
    set (a := length (outcomes (length jobs))) in *. clearbody w x a. apply (f_equal Z.of_nat) in ES. rewrite Nat2Z.inj_add in ES.
    assert (X : (M * Z.of_nat x = M * Z.of_nat a - M * Z.of_nat w)%Z) by (rewrite <- ES; ring).
    assert (Y : (M * Z.of_nat x <= s * Z.of_nat a)%Z) by lia. lia.
  Qed.

  Lemma nonces_years : forall jobs, Forall (job_ok c clock b) jobs -> Z.of_nat (length jobs) = 1000000%Z ->
    let all := Z.of_nat (length (outcomes (length jobs))) in
    let bad := Z.of_nat (length (with_collision c clock b jobs)) in
    let year := 31557600%Z in
    (0 < bad /\ 299 * year * bad <= all < 300 * year * bad)%Z.
  Proof.
    intros jobs HJ HL. cbv zeta. destruct (nonces_exact jobs HJ) as [E1 E2].
    assert (ES : length (without_collision c clock b jobs) + length (with_collision c clock b jobs) = length (outcomes (length jobs)))
      by exact (filter_split_length (fun o => distinct values_dec (sent_nonces c clock b jobs o)) (outcomes (length jobs))).
    destruct (falling_bounds (2 ^ 72) (length jobs) ltac:(reflexivity) ltac:(rewrite HL; discriminate)) as [_ [B1 B2]].
    rewrite <- E1, <- E2 in B1, B2.
    assert (HA : (0 < Z.of_nat (length (outcomes (length jobs))))%Z).
    { rewrite E1. apply Z.pow_pos_nonneg; [reflexivity|lia]. }
    clear E1 E2. rewrite HL in B1, B2.
    change (1000000 * (1000000 - 1) / 2)%Z with 499999500000%Z in *.
    set (w := length (without_collision c clock b jobs)) in *. set (x := length (with_collision c clock b jobs)) in *.
    set (a := length (outcomes (length jobs))) in *. clearbody w x a.
    apply (f_equal Z.of_nat) in ES. rewrite Nat2Z.inj_add in ES.
    generalize dependent (Z.of_nat w). generalize dependent (Z.of_nat x). generalize dependent (Z.of_nat a). clear.
    intros a HA x w ES B1 B2. change (2 ^ 72)%Z with 4722366482869645213696%Z in *. lia.
  Qed.
End Nonces.

(** With a random source whose outcomes are equally likely, the probability that no two of the requests get the same
    nonce is N (N - 1) ... (N - n + 1) / N^n where N = 2^72. *)
Theorem C78_exact : forall c clock b name strict f jobs,
  builtin (bd_signature_method b) name strict f -> op_nonce (bd_options b) = None ->
  Forall (job_ok c clock b) jobs ->
  Z.of_nat (length (outcomes (length jobs))) = ((2 ^ 72) ^ Z.of_nat (length jobs))%Z
  /\ Z.of_nat (length (without_collision c clock b jobs)) = falling (2 ^ 72) (length jobs).
Proof. intros c clock b name strict f jobs HB HN. exact (nonces_exact c clock b name strict f HB HN jobs). Qed.
Print Assumptions C78_exact.

(** The probability of a collision is at most n (n - 1) / 2^73. *)
Theorem C78_bound : forall c clock b name strict f jobs,
  builtin (bd_signature_method b) name strict f -> op_nonce (bd_options b) = None ->
  Forall (job_ok c clock b) jobs -> (Z.of_nat (length jobs) <= 2 ^ 72)%Z ->
  let n := Z.of_nat (length jobs) in
  (2 ^ 73 * Z.of_nat (length (with_collision c clock b jobs)) <= n * (n - 1) * Z.of_nat (length (outcomes (length jobs))))%Z.
Proof. intros c clock b name strict f jobs HB HN. exact (nonces_bound c clock b name strict f HB HN jobs). Qed.
Print Assumptions C78_bound.

(** A million nonces in each second: the expected number of seconds until there is a collision within a second is the
    number of outcomes divided by the number of those with a collision, which is 299 years (of 365.25 days). *)
Theorem C78_years : forall c clock b name strict f jobs,
  builtin (bd_signature_method b) name strict f -> op_nonce (bd_options b) = None ->
  Forall (job_ok c clock b) jobs -> Z.of_nat (length jobs) = 1000000%Z ->
  let all := Z.of_nat (length (outcomes (length jobs))) in
  let bad := Z.of_nat (length (with_collision c clock b jobs)) in
  let year := 31557600%Z in
  (0 < bad /\ 299 * year * bad <= all < 300 * year * bad)%Z.
Proof. intros c clock b name strict f jobs HB HN. exact (nonces_years c clock b name strict f HB HN jobs). Qed.
Print Assumptions C78_years.

(** Every request goes through with HMAC-SHA1, whatever the random source gives: a million times the same request meets
    the hypotheses. *)
Example C78_example_job :
  let b := Builder_new (Cred (lit "id") (lit "secret")) HMAC_SHA1 in
  forall n, Forall (job_ok dbg_std (fun _ => Some 1000%N) b) (repeat (lit "GET", s2d "http://h/", Request_unit) n).
Proof.
  intros b n. apply Forall_forall. intros j Hj. apply repeat_spec in Hj as ->. split.
  - exists (map CProto all_protos). split; [exact (crate_request_calls _ _ cq_unit)|reflexivity].
  - intros d. eexists.
    apply (authorize_exact dbg_std (env_with (fun _ => Some 1000%N) d) b _ _ _ (hmac_builtin b eq_refl) Request_unit (map CProto all_protos)
      (crate_request_calls _ _ cq_unit) (Permutation_refl _)).
    split; [left; reflexivity|]. split; [|eexists; split; reflexivity]. constructor.
    + intros _. apply dok_dstr.
    + intros _ K. vm_compute in K. intuition discriminate.
    + intros _. repeat constructor.
    + intros _ _. apply signed_keys_ascending. repeat (constructor; [|repeat constructor]). constructor.
Qed.

(** With two requests, one outcome of 2^72 is a collision. *)
Example C78_example_two : falling (2 ^ 72) 2 = ((2 ^ 72) ^ 2 - 2 ^ 72)%Z.
Proof. vm_compute. reflexivity. Qed.
