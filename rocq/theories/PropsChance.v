(** C90: how likely it is that a provider with replay protection refuses a request because of its nonce. *)
From Coq Require Import String.
From Coq Require Import Lia Arith Sorted Permutation ZArith.
From Verif Require Import Bytes Crypto Spec MFmt MPercent MSerializer MSign MRequest MCredentials MAuth MBuilder ModelTests
  SpecFmt SpecCalls SpecCalls2 SpecAuth SpecBuild SpecForm SpecServer SpecServer2 SpecParams SpecSign SpecReplay
  LBytes LCrypto PropsHeader PropsServer PropsNonce PropsReplay.
Local Open Scope nat_scope.

(** ** Specification *)

(** The request with these random bytes. *)
Definition with_draw (j : job) (draw : bytes) : job :=
  Job (jb_cfg j) (env_with (env_clock (jb_env j)) draw) (jb_builder j) (jb_method j) (jb_uri j) (jb_request j) (jb_params j).
Definition with_draws (jobs : list job) (outcome : list bytes) : list job :=
  map (fun '(j, draw) => with_draw j draw) (combine jobs outcome).

(** Who makes a request, and in which second. *)
Definition who_when (j : job) : bytes * option bytes * N :=
  (cr_identifier (bd_client (jb_builder j)), option_map cr_identifier (bd_token (jb_builder j)), time_sent (jb_env j) (jb_builder j)).
Definition who_when_dec : forall x y : bytes * option bytes * N, {x = y} + {x <> y}.
Proof.
  assert (B : forall x y : bytes, {x = y} + {x <> y}) by apply (list_eq_dec Byte.byte_eq_dec).
  repeat decide equality.
Defined.

(** How many requests of these are by one client with one token in one second, and how many pairs of such requests
    there are. *)
Definition by_them (x : bytes * option bytes * N) (l : list (bytes * option bytes * N)) : Z := Z.of_nat (count_occ who_when_dec l x).
Fixpoint pairs_of (l : list (bytes * option bytes * N)) : Z :=
  match l with
  | [] => 0%Z
  | x :: l' => (by_them x l' + pairs_of l')%Z
  end.

(** All requests are served. *)
Definition all_served (answers : list (option (list pair))) : bool :=
  forallb (fun answer : option (list pair) => match answer with Some _ => true | None => false end) answers.

(** The outcomes of the random source with which a request is refused. *)
Definition unlucky (a : accounts) (messages : list bytes -> list message) (n : nat) : list (list bytes) :=
  filter (fun o => negb (all_served (serve_all a [] (messages o)))) (outcomes n).

Definition bytes_dec : forall x y : bytes, {x = y} + {x <> y} := list_eq_dec Byte.byte_eq_dec.

(** ** Counting *)

Section Count.
  Context {A K : Type} (decA : forall x y : A, {x = y} + {x <> y}) (decK : forall x y : K, {x = y} + {x <> y}).

  Definition decKA : forall x y : K * A, {x = y} + {x <> y}.
  Proof. decide equality. Defined.

  (** Some two agree in both. *)
  Definition clash (ks : list K) (v : list A) : bool := negb (distinct decKA (combine ks v)).

  Fixpoint same_pairs (ks : list K) : nat :=
    match ks with [] => 0 | k :: ks' => count_occ decK ks' k + same_pairs ks' end.

  Lemma hits_le : forall U (w : list A), NoDup U -> length (filter (fun x => if in_dec decA x w then true else false) U) <= length w.
  Proof.
    intros U w HU. apply NoDup_incl_length; [now apply NoDup_filter|]. intros x Hx. apply filter_In in Hx as [_ Hx].
    destruct (in_dec decA x w); [auto|discriminate].
  Qed.

  Definition with_key (k : K) (l : list (K * A)) : list A :=
    map snd (filter (fun q => if decK (fst q) k then true else false) l).

  Lemma with_key_in : forall k l x, In x (with_key k l) <-> In (k, x) l.
  Proof.
    intros k l x. unfold with_key. rewrite in_map_iff. split.
    - intros [[k' x'] [<- H]]. apply filter_In in H as [H1 H2]. cbn [fst snd] in *. destruct (decK k' k); [now subst|discriminate].
    - intros H. exists (k, x). split; [reflexivity|]. apply filter_In. split; [exact H|]. cbn [fst]. destruct (decK k k); congruence.
  Qed.

  Lemma with_key_length : forall k ks v, length v = length ks -> length (with_key k (combine ks v)) = count_occ decK ks k.
  Proof.
    intros k. unfold with_key. induction ks as [|k' ks IH]; intros [|x v] H; try discriminate; [reflexivity|].
    injection H as H. cbn [combine filter fst count_occ]. destruct (decK k' k); cbn [map length]; now rewrite IH.
  Qed.

  Lemma clash_cons : forall k ks x v,
    clash (k :: ks) (x :: v) = (if in_dec decA x (with_key k (combine ks v)) then true else false) || clash ks v.
  Proof.
    intros k ks x v. unfold clash. cbn [combine]. destruct (in_dec decA x (with_key k (combine ks v))) as [I|I]; cbn [orb].
    - apply with_key_in in I. destruct (distinct decKA ((k, x) :: combine ks v)) eqn:E; [|reflexivity].
      apply distinct_spec in E. inversion E. contradiction.
    - f_equal. apply Bool.eq_iff_eq_true. rewrite !distinct_spec, NoDup_cons_iff. rewrite with_key_in in I. tauto.
  Qed.

  Lemma filter_or : forall (p q : A -> bool) l, length (filter (fun x => p x || q x) l) <= length (filter p l) + length (filter q l).
  Proof. intros p q. induction l as [|x l IH]; [apply le_n|]. cbn [filter]. destruct (p x), (q x); cbn [orb length]; lia. Qed.

  Lemma filter_map : forall {B C} (p : C -> bool) (f : B -> C) l, length (filter p (map f l)) = length (filter (fun x => p (f x)) l).
  Proof. intros B C p f. induction l as [|x l IH]; [reflexivity|]. cbn [map filter]. destruct (p (f x)); cbn [length]; now rewrite IH. Qed.

  (** The share of the outcomes with a clash is at most the number of pairs divided by the number of values. *)
  Lemma clash_bound : forall U, NoDup U -> forall ks,
    length U * length (filter (clash ks) (lists_of U (length ks))) <= same_pairs ks * length (lists_of U (length ks)).
  Proof.
    intros U HU. induction ks as [|k ks IH].
    { cbn [lists_of length filter]. assert (E : clash [] [] = false).
      { unfold clash. cbn [combine]. assert (D : distinct decKA (@nil (K * A)) = true) by (apply distinct_spec; constructor). now rewrite D. }
      rewrite E. cbn [length]. lia. }
    cbn [length lists_of same_pairs].
    set (L := lists_of U (length ks)) in *.
    assert (HL : forall v, In v L -> length v = length ks) by (intros v Hv; now apply lists_of_in in Hv).
    assert (T : length (flat_map (fun v => map (fun x => x :: v) U) L) = length U * length L).
    { rewrite (length_flat_map_const _ (length U)); [lia|]. intros v _. apply map_length. }
    rewrite T.
    assert (B : length (filter (clash (k :: ks)) (flat_map (fun v => map (fun x => x :: v) U) L))
                <= count_occ decK ks k * length L + length U * length (filter (clash ks) L)).
    { clear IH T. induction L as [|v L IHL]; [cbn; lia|]. cbn [flat_map].
      rewrite filter_app, app_length, filter_map. specialize (IHL (fun w Hw => HL w (or_intror Hw))).
      cbn [filter]. destruct (clash ks v) eqn:EC.
      - assert (X : length (filter (fun x => clash (k :: ks) (x :: v)) U) <= length U) by (clear; induction U as [|x U IHU]; [apply le_n|]; cbn [filter]; destruct (clash _ _); cbn [length]; lia).
        cbn [length]. lia.
      - assert (X : length (filter (fun x => clash (k :: ks) (x :: v)) U) <= count_occ decK ks k).
        { rewrite (filter_ext _ (fun x => if in_dec decA x (with_key k (combine ks v)) then true else false)).
          - rewrite <- (with_key_length k ks v (HL v (or_introl eq_refl))). now apply hits_le.
          - intros x. rewrite clash_cons, EC. apply orb_false_r. }
        cbn [length]. lia. }
    nia.
  Qed.
End Count.

Lemma same_use_drawn : forall j j' d d', op_nonce (bd_options (jb_builder j)) = None -> op_nonce (bd_options (jb_builder j')) = None ->
  length d = 9 -> length d' = 9 ->
  (job_use (with_draw j d) = job_use (with_draw j' d') <-> (who_when j, d) = (who_when j', d')).
Proof.
  intros j j' d d' HN HN' HD HD'. destruct (C88_same_use (with_draw j d) (with_draw j' d')) as [C1 C2].
  cbn [with_draw jb_builder jb_env] in C1, C2. specialize (C2 HN HN'). rewrite !random_bytes_draw in C2 by assumption.
  rewrite C1, C2. unfold who_when. rewrite !pair_equal_spec.
  assert (T : forall x dr, time_sent (env_with (env_clock (jb_env x)) dr) (jb_builder x) = time_sent (jb_env x) (jb_builder x)) by reflexivity.
  rewrite !T. tauto.
Qed.

Lemma served_iff : forall a jobs o msgs, Forall (valid_job a) jobs ->
  Forall (fun j => op_nonce (bd_options (jb_builder j)) = None) jobs ->
  length o = length jobs -> Forall (fun d => length d = 9) o -> Forall2 sends (with_draws jobs o) msgs ->
  (all_served (serve_all a [] msgs) = true <-> NoDup (combine (map who_when jobs) o)).
Proof.
  intros a jobs o msgs HV HN HL HO HS.
  assert (HV' : Forall (valid_job a) (with_draws jobs o)).
  { clear - HV. unfold with_draws. revert o. induction HV as [|j jobs [V1 V2 V3 V4 V5] HV IH]; intros o; [constructor|].
    destruct o as [|d o]; [constructor|]. cbn [combine map]. constructor; [constructor; assumption|apply IH]. }
  assert (E : all_served (serve_all a [] msgs) = true <-> Forall (fun answer => answer <> None) (serve_all a [] msgs)).
  { unfold all_served. rewrite forallb_forall, Forall_forall. split; intros H x Hx; specialize (H x Hx); destruct x; congruence. }
  rewrite E, (C88_all_served a _ _ HV' HS). clear - HN HL HO. unfold with_draws. revert o HL HO.
  induction HN as [|j jobs N0 HN IH]; intros [|d o] HL HO; try discriminate; [split; constructor|].
  injection HL as HL. inversion HO as [|? ? D0 HO']; subst. cbn [combine map]. rewrite !NoDup_cons_iff, (IH o HL HO').
  apply and_iff_compat_r, not_iff_compat. clear IH. revert o HL HO HO'. induction HN as [|j' jobs N1 HN IH]; intros [|d' o] HL HO HO'; try discriminate; [reflexivity|].
  injection HL as HL. inversion HO' as [|? ? D1 HO'']; subst. cbn [combine map In]. rewrite (IH o HL (Forall_cons d D0 HO'') HO'').
  rewrite (same_use_drawn j' j d' d) by assumption. reflexivity.
Qed.

Lemma pairs_nat : forall l, pairs_of l = Z.of_nat (same_pairs who_when_dec l).
Proof. induction l as [|x l IH]; [reflexivity|]. cbn [pairs_of same_pairs]. unfold by_them. lia. Qed.

(** ** C90 *)

Section Chance.
  Variables (a : accounts) (jobs : list job) (messages : list bytes -> list message).
  Hypothesis (HV : Forall (valid_job a) jobs).
  Hypothesis (HN : Forall (fun j => op_nonce (bd_options (jb_builder j)) = None) jobs).
  Hypothesis (HM : forall o, In o (outcomes (length jobs)) -> Forall2 sends (with_draws jobs o) (messages o)).

  Lemma unlucky_clash : unlucky a messages (length jobs)
    = filter (clash bytes_dec who_when_dec (map who_when jobs)) (outcomes (length jobs)).
  Proof.
    apply filter_ext_in. intros o Ho. unfold clash. f_equal. apply Bool.eq_iff_eq_true. rewrite distinct_spec.
    destruct (outcomes_nine _ _ Ho) as [H1 H2]. apply served_iff; auto.
  Qed.

  Lemma chance_bound :
    (2 ^ 72 * Z.of_nat (length (unlucky a messages (length jobs)))
     <= pairs_of (map who_when jobs) * Z.of_nat (length (outcomes (length jobs))))%Z.
  Proof.
    rewrite unlucky_clash, pairs_nat, <- draws_count. unfold outcomes.
    pose proof (clash_bound bytes_dec who_when_dec draws draws_nodup (map who_when jobs)) as B.
    rewrite map_length in B. rewrite <- !Nat2Z.inj_mul. now apply inj_le.
  Qed.
End Chance.

(** Any requests by any clients, each in any transport.  If no nonce is fixed and every outcome of the random source is
    equally likely, the probability that the provider refuses one of them is at most the number of pairs of requests that
    have the client, the token and the second in common, divided by 2^72. *)
Theorem C90_bound : forall a jobs messages, Forall (valid_job a) jobs ->
  Forall (fun j => op_nonce (bd_options (jb_builder j)) = None) jobs ->
  (forall o, In o (outcomes (length jobs)) -> Forall2 sends (with_draws jobs o) (messages o)) ->
  (2 ^ 72 * Z.of_nat (length (unlucky a messages (length jobs)))
   <= pairs_of (map who_when jobs) * Z.of_nat (length (outcomes (length jobs))))%Z.
Proof. intros. now apply chance_bound. Qed.
Print Assumptions C90_bound.

Lemma pairs_full : forall l, fold_right Z.add 0%Z (map (fun x => by_them x l) l) = (2 * pairs_of l + Z.of_nat (length l))%Z.
Proof.
  induction l as [|x l IH]; [reflexivity|]. cbn [map fold_right pairs_of length].
  assert (H1 : by_them x (x :: l) = (1 + by_them x l)%Z).
  { unfold by_them. rewrite count_occ_cons_eq by reflexivity. lia. }
  assert (H2 : forall k, fold_right Z.add 0%Z (map (fun y => by_them y (x :: l)) k)
             = (fold_right Z.add 0%Z (map (fun y => by_them y l) k) + by_them x k)%Z).
  { induction k as [|y k IHk]; [reflexivity|]. cbn [map fold_right]. rewrite IHk. unfold by_them. cbn [count_occ].
    destruct (who_when_dec x y), (who_when_dec y x); subst; try congruence; lia. }
  rewrite H1, (H2 l), IH. lia.
Qed.

(** So with at most [m] requests of the same client and token in a second, it is at most n (m - 1) / 2^73 for [n] requests. *)
Theorem C90_rate : forall a jobs messages m, Forall (valid_job a) jobs ->
  Forall (fun j => op_nonce (bd_options (jb_builder j)) = None) jobs ->
  (forall o, In o (outcomes (length jobs)) -> Forall2 sends (with_draws jobs o) (messages o)) ->
  (forall x, by_them x (map who_when jobs) <= m)%Z ->
  let n := Z.of_nat (length jobs) in
  (2 ^ 73 * Z.of_nat (length (unlucky a messages (length jobs))) <= n * (m - 1) * Z.of_nat (length (outcomes (length jobs))))%Z.
Proof.
  intros a jobs messages m HV HN HM HC. cbv zeta. pose proof (C90_bound a jobs messages HV HN HM) as B.
  assert (P : (2 * pairs_of (map who_when jobs) <= Z.of_nat (length jobs) * (m - 1))%Z).
  { pose proof (pairs_full (map who_when jobs)) as F. rewrite map_length in F.
    assert (S : forall k, (fold_right Z.add 0%Z (map (fun x => by_them x (map who_when jobs)) k) <= Z.of_nat (length k) * m)%Z).
    { induction k as [|x k IH]; [cbn; lia|]. cbn [map fold_right length]. specialize (HC x). lia. }
    specialize (S (map who_when jobs)). rewrite map_length in S. lia. }
  change (2 ^ 73)%Z with (2 * 2 ^ 72)%Z. generalize dependent (2 ^ 72)%Z. intros M B.
  generalize dependent (Z.of_nat (length (unlucky a messages (length jobs)))). intros u B.
  assert (Z0 : (0 <= Z.of_nat (length (outcomes (length jobs))))%Z) by lia.
  generalize dependent (Z.of_nat (length (outcomes (length jobs)))). intros t B Z0.
  apply Z.mul_le_mono_nonneg_r with (p := t) in P; [|exact Z0]. lia.
Qed.
Print Assumptions C90_rate.

(** Requests of which no two have the client, the token and the second in common are always served. *)
Theorem C90_apart : forall a jobs messages, Forall (valid_job a) jobs ->
  Forall (fun j => op_nonce (bd_options (jb_builder j)) = None) jobs ->
  (forall o, In o (outcomes (length jobs)) -> Forall2 sends (with_draws jobs o) (messages o)) ->
  NoDup (map who_when jobs) -> unlucky a messages (length jobs) = [].
Proof.
  intros a jobs messages HV HN HM HD. pose proof (C90_bound a jobs messages HV HN HM) as B.
  assert (P : pairs_of (map who_when jobs) = 0%Z).
  { clear - HD. induction HD as [|x l HI HD IH]; [reflexivity|]. cbn [pairs_of]. rewrite IH. unfold by_them.
    apply (count_occ_not_In who_when_dec) in HI. now rewrite HI. }
  rewrite P in B. destruct (unlucky a messages (length jobs)) as [|x l]; [reflexivity|]. exfalso.
  cbn [length] in B. rewrite Nat2Z.inj_succ in B. change (2 ^ 72)%Z with 4722366482869645213696%Z in B. lia.
Qed.
Print Assumptions C90_apart.

(** If all of them have, all are served with probability N (N - 1) ... (N - n + 1) / N^n exactly, where N = 2^72. *)
Theorem C90_exact : forall a jobs messages x, Forall (valid_job a) jobs ->
  Forall (fun j => op_nonce (bd_options (jb_builder j)) = None) jobs ->
  (forall o, In o (outcomes (length jobs)) -> Forall2 sends (with_draws jobs o) (messages o)) ->
  Forall (fun j => who_when j = x) jobs ->
  Z.of_nat (length (outcomes (length jobs))) = ((2 ^ 72) ^ Z.of_nat (length jobs))%Z
  /\ Z.of_nat (length (unlucky a messages (length jobs)))
     = (Z.of_nat (length (outcomes (length jobs))) - falling (2 ^ 72) (length jobs))%Z.
Proof.
  intros a jobs messages x HV HN HM HX. split.
  { etransitivity; [exact (lists_of_length draws (length jobs))|]. now rewrite draws_count. }
  rewrite (unlucky_clash a jobs messages HV HN HM).
  rewrite (filter_ext_in _ (fun o => negb (distinct bytes_dec o))).
  - pose proof (filter_split_length (distinct bytes_dec) (outcomes (length jobs))) as F.
    pose proof (distinct_count bytes_dec draws draws_nodup (length jobs)) as D. rewrite draws_count in D.
    fold (outcomes (length jobs)) in D. rewrite <- F, <- D. rewrite Nat2Z.inj_add. symmetry. apply Z.add_simpl_l.
  - intros o Ho. apply outcomes_nine in Ho as [HL _]. unfold clash. f_equal. apply Bool.eq_iff_eq_true. rewrite !distinct_spec.
    clear - HX HL. revert o HL. induction HX as [|j jobs H0 HX IH]; intros [|d o] HL; try discriminate; [split; constructor|].
    injection HL as HL. cbn [map combine]. rewrite !NoDup_cons_iff, (IH o HL), H0. apply and_iff_compat_r, not_iff_compat.
    clear IH H0. revert o HL. induction HX as [|j' jobs H0 HX IH]; intros [|d' o] HL; try discriminate; [reflexivity|].
    injection HL as HL. cbn [map combine In]. rewrite (IH o HL), H0. split; (intros [E|E]; [left; congruence|now right]).
Qed.
Print Assumptions C90_exact.

Lemma choose : forall {A B} (dec : forall x y : A, {x = y} + {x <> y}) (P : A -> B -> Prop) (b0 : B) (l : list A),
  (forall x, In x l -> exists y, P x y) -> exists f, forall x, In x l -> P x (f x).
Proof.
  intros A B dec P b0. induction l as [|x l IH]; intros H; [exists (fun _ => b0); intros x []|].
  destruct (IH (fun y Hy => H y (or_intror Hy))) as [f Hf]. destruct (H x (or_introl eq_refl)) as [y Hy].
  exists (fun z => if dec z x then y else f z). intros z Hz. destruct (dec z x) as [->|N]; [exact Hy|].
  apply Hf. destruct Hz; [congruence|assumption].
Qed.

(** There are such messages for any valid requests. *)
Theorem C90_messages : forall a jobs, Forall (valid_job a) jobs ->
  exists messages, forall o, In o (outcomes (length jobs)) -> Forall2 sends (with_draws jobs o) (messages o).
Proof.
  intros a jobs HV. apply (choose (list_eq_dec bytes_dec) (fun o ms => Forall2 sends (with_draws jobs o) ms) [] (outcomes (length jobs))). intros o _.
  unfold with_draws. revert o. induction HV as [|j jobs V0 HV IH]; intros o; [exists []; constructor|].
  destruct o as [|d o]; [exists []; constructor|]. cbn [combine map]. destruct (IH o) as [ms HS].
  assert (V1 : valid_job a (with_draw j d)) by (destruct V0; constructor; assumption).
  destruct (C88_sendable a _ V1) as [m1 [_ [_ [_ [_ [S1 _]]]]]]. exists (m1 :: ms). now constructor.
Qed.
Print Assumptions C90_messages.

(** A thousand requests in one second, each at one of a thousand seconds, are valid. *)
Example C90_example : forall n,
  let jobs := repeat (ex_job 5 x00) n ++ map (fun t => ex_job (N.of_nat t) x00) (seq 10 n) in
  Forall (valid_job ex_accounts) jobs /\ Forall (fun j => op_nonce (bd_options (jb_builder j)) = None) jobs.
Proof.
  intros n jobs. unfold jobs. rewrite !Forall_app. repeat split; rewrite Forall_forall; intros j Hj;
    try (apply repeat_spec in Hj; subst j); try (apply in_map_iff in Hj as [t [<- _]]); try reflexivity; apply C88_example_valid.
Qed.

(** Three requests in one second and one in another: three pairs. *)
Example C90_example_pairs :
  pairs_of (map who_when [ex_job 5 x00; ex_job 6 x00; ex_job 5 x00; ex_job 5 x01]) = 3%Z
  /\ by_them (who_when (ex_job 5 x00)) (map who_when [ex_job 5 x00; ex_job 6 x00; ex_job 5 x00; ex_job 5 x01]) = 3%Z.
Proof. vm_compute. split; reflexivity. Qed.
