(** RSA: signing and verifying are inverse to each other, and a primality criterion. *)
From Coq Require Import String.
From Coq Require Import Lia Arith Permutation ZArith Znumtheory Zpow_facts.
From Verif Require Import Bytes Crypto LBase LExample LBytes Rsa.

Local Open Scope Z_scope.

(** ** Fermat's little theorem *)

Definition zprod (l : list Z) : Z := fold_right Z.mul 1 l.
Definition upto (p : Z) : list Z := map Z.of_nat (seq 1 (Z.to_nat (p - 1))).

Lemma zprod_perm : forall l l', Permutation l l' -> zprod l = zprod l'.
Proof. induction 1; cbn [zprod fold_right] in *; try unfold zprod in *; lia. Qed.

Lemma in_upto : forall p x, In x (upto p) <-> 1 <= x < p.
Proof.
  intros p x. unfold upto. rewrite in_map_iff. split.
  - intros [n [<- H]]. apply in_seq in H. lia.
  - intros H. exists (Z.to_nat x). split; [lia|]. apply in_seq. lia.
Qed.

Lemma upto_nodup : forall p, NoDup (upto p).
Proof. intros p. apply FinFun.Injective_map_NoDup; [intros a b; lia|apply seq_NoDup]. Qed.

Lemma upto_length : forall p, length (upto p) = Z.to_nat (p - 1).
Proof. intros p. unfold upto. rewrite map_length. apply seq_length. Qed.

Lemma zprod_scaled : forall p a l, p <> 0 ->
  (p | zprod (map (fun x => a * x mod p) l) - a ^ Z.of_nat (length l) * zprod l).
Proof.
  intros p a l Hp. induction l as [|x l [c IH]].
  - exists 0. cbn. lia.
  - cbn [map zprod fold_right length]. fold (zprod (map (fun x => a * x mod p) l)). fold (zprod l).
    rewrite Nat2Z.inj_succ, Z.pow_succ_r by lia.
    exists (a * x mod p * c - a * x / p * (a ^ Z.of_nat (length l) * zprod l)).
    pose proof (Z.div_mod (a * x) p Hp) as E. set (m := a * x mod p) in *. set (k := a * x / p) in *.
    set (P := zprod (map _ l)) in *. set (A := a ^ Z.of_nat (length l)) in *. set (Q := zprod l) in *.
    replace (m * P - a * A * (x * Q)) with (m * (P - A * Q) + (m - a * x) * (A * Q)) by ring. rewrite IH, E. ring.
Qed.

Lemma prime_not_divide_upto : forall p l, prime p -> (forall x, In x l -> 1 <= x < p) -> ~ (p | zprod l).
Proof.
  intros p l Hp. induction l as [|x l IH]; intros H D.
  - cbn in D. apply Z.divide_1_r in D. pose proof (prime_ge_2 p Hp). lia.
  - cbn [zprod fold_right] in D. fold (zprod l) in D. apply prime_mult in D; [|exact Hp]. destruct D as [D|D].
    + specialize (H x (or_introl eq_refl)). apply Z.divide_pos_le in D; lia.
    + apply IH in D; auto. intros y Hy. apply H. now right.
Qed.

Lemma fermat : forall p a, prime p -> ~ (p | a) -> (p | a ^ (p - 1) - 1).
Proof.
  intros p a Hp Ha. pose proof (prime_ge_2 p Hp) as H2.
  assert (P : Permutation (map (fun x => a * x mod p) (upto p)) (upto p)).
  { apply NoDup_Permutation_bis.
    - assert (ND : forall l, NoDup l -> (forall x, In x l -> 1 <= x < p) -> NoDup (map (fun x => a * x mod p) l)).
      { induction l as [|x l IH]; intros N H; cbn [map]; constructor.
        - intros I. apply in_map_iff in I as [y [E I]]. inversion N as [|? ? N1 N2]; subst. apply N1.
          replace x with y; [exact I|].
          assert (D : (p | a * (y - x))).
          { exists (a * y / p - a * x / p). pose proof (Z.div_mod (a * y) p ltac:(lia)). pose proof (Z.div_mod (a * x) p ltac:(lia)). nia. }
          apply prime_mult in D; [|exact Hp]. destruct D as [D|D]; [contradiction|].
          destruct D as [k D]. pose proof (H x (or_introl eq_refl)). pose proof (H y (or_intror I)).
          assert (k < 1) by nia. assert (-1 < k) by nia. assert (k = 0) by lia. subst k. lia.
        - inversion N; subst. apply IH; auto. intros y Hy. apply H. now right. }
      apply ND; [apply upto_nodup|]. intros x. apply in_upto.
    - rewrite map_length. lia.
    - intros y I. apply in_map_iff in I as [x [<- I]]. apply in_upto in I. apply in_upto.
      pose proof (Z.mod_pos_bound (a * x) p ltac:(lia)) as B.
      assert (a * x mod p <> 0); [|lia]. intros E. apply Z.mod_divide in E; [|lia].
      apply prime_mult in E; [|exact Hp]. destruct E as [E|E]; [contradiction|]. apply Z.divide_pos_le in E; lia. }
  pose proof (zprod_scaled p a (upto p) ltac:(lia)) as D. rewrite (zprod_perm _ _ P), upto_length, Z2Nat.id in D by lia.
  assert (D' : (p | zprod (upto p) * (a ^ (p - 1) - 1))).
  { destruct D as [k D]. exists (- k). nia. }
  apply prime_mult in D'; [|exact Hp]. destruct D' as [D'|D']; [|exact D'].
  exfalso. revert D'. apply prime_not_divide_upto; auto. intros x. apply in_upto.
Qed.

Lemma divide_pow_one : forall p b k, (p | b - 1) -> 0 <= k -> (p | b ^ k - 1).
Proof.
  intros p b k D Hk. revert k Hk. apply natlike_ind.
  - exists 0. cbn. lia.
  - intros k Hk [c IH]. destruct D as [d D]. rewrite Z.pow_succ_r by lia. exists (d * b ^ k + c). nia.
Qed.

(** [a ^ t = a] modulo a prime, if [p - 1] divides [t - 1]. *)
Lemma fermat_exp : forall p a t, prime p -> 0 < t -> (p - 1 | t - 1) -> (p | a ^ t - a).
Proof.
  intros p a t Hp Ht [k Hk]. pose proof (prime_ge_2 p Hp) as H2.
  destruct (Zdivide_dec p a) as [D|D].
  - replace t with (1 + (t - 1)) by lia. rewrite Z.pow_add_r, Z.pow_1_r by lia.
    destruct D as [c D]. exists (c * a ^ (t - 1) - c). nia.
  - replace t with (1 + (p - 1) * k) by lia. assert (0 <= k) by nia.
    rewrite Z.pow_add_r, Z.pow_1_r, Z.pow_mul_r by nia.
    pose proof (divide_pow_one p (a ^ (p - 1)) k (fermat p a Hp D) ltac:(lia)) as [c E]. exists (a * c). nia.
Qed.

Lemma rsa_exp : forall p q m t, prime p -> prime q -> p <> q -> 0 < t -> (p - 1 | t - 1) -> (q - 1 | t - 1) ->
  0 <= m < p * q -> m ^ t mod (p * q) = m.
Proof.
  intros p q m t Hp Hq Hpq Ht Dp Dq Hm. pose proof (prime_ge_2 p Hp) as P2. pose proof (prime_ge_2 q Hq) as Q2.
  pose proof (fermat_exp p m t Hp Ht Dp) as [a A]. pose proof (fermat_exp q m t Hq Ht Dq) as B.
  assert (D : (p * q | m ^ t - m)).
  { rewrite A in *. assert (R : rel_prime q p).
    { apply prime_rel_prime; [exact Hq|]. intros D. apply Hpq. symmetry. now apply prime_div_prime. }
    rewrite Z.mul_comm in B. apply Gauss in B; [|exact R]. destruct B as [b ->]. exists b. ring. }
  destruct D as [c D]. replace (m ^ t) with (m + c * (p * q)) by lia. rewrite Z.mod_add by nia. now apply Z.mod_small.
Qed.

(** Raising to one exponent and then to the other. *)
Lemma key_pair_inverse : forall public private m, key_pair public private -> 0 <= m < rk_n public ->
  rsa_raw public (rsa_raw private m) = m /\ rsa_raw private (rsa_raw public m) = m.
Proof.
  intros public private m [p [q [Hp [Hq [Hpq [N1 [N2 [E1 [E2 [D1 D2]]]]]]]]]] Hm. unfold rsa_raw.
  pose proof (prime_ge_2 p Hp) as P2. pose proof (prime_ge_2 q Hq) as Q2.
  rewrite N1 in *. rewrite N2. rewrite !Zpow_mod_correct by nia. rewrite <- !Zpower_mod by nia.
  rewrite <- !Z.pow_mul_r by lia. split.
  - rewrite Z.mul_comm. apply rsa_exp; auto; nia.
  - apply rsa_exp; auto; nia.
Qed.

Lemma rsa_raw_range : forall key m, 0 < rk_n key -> 0 <= rsa_raw key m < rk_n key.
Proof. intros key m H. unfold rsa_raw. rewrite Zpow_mod_correct by lia. apply Z.mod_pos_bound. lia. Qed.

(** ** Big-endian numbers *)

Lemma be_val_app : forall a b, be_val (a ++ b) = (be_val a * 256 ^ N.of_nat (length b) + be_val b)%N.
Proof.
  intros a b. unfold be_val at 1. rewrite fold_left_app. fold (be_val a). generalize (be_val a) as x.
  induction b as [|c b IH] using rev_ind; intros x.
  - cbn. lia.
  - rewrite fold_left_app, app_length. cbn [fold_left length]. rewrite IH.
    unfold be_val at 2. rewrite fold_left_app. fold (be_val b). cbn [fold_left].
    rewrite Nat2N.inj_add, N.pow_add_r. change (256 ^ N.of_nat 1)%N with 256%N. lia.
Qed.

Lemma n2b_bn : forall b, n2b (bn b) = b.
Proof. destruct b; reflexivity. Qed.

Lemma bn_lt : forall b, (bn b < 256)%N.
Proof. intros b. apply N.ltb_lt. destruct b; reflexivity. Qed.

Lemma n2b_mod : forall n, n2b n = n2b (n mod 256).
Proof. intros n. unfold n2b. now rewrite N.mod_mod by lia. Qed.

Lemma bn_n2b : forall n, bn (n2b n) = (n mod 256)%N.
Proof.
  intros n. unfold n2b. pose proof (N.mod_lt n 256 ltac:(lia)) as L. destruct (Byte.of_N (n mod 256)) eqn:E.
  - unfold bn. now apply Byte.to_of_N.
  - apply Byte.of_N_None_iff in E. lia.
Qed.

Lemma be_val_bound : forall l, (be_val l < 256 ^ N.of_nat (length l))%N.
Proof.
  induction l as [|b l IH] using rev_ind; [reflexivity|]. rewrite be_val_app, app_length. cbn [length].
  rewrite Nat2N.inj_add, N.pow_add_r. change (256 ^ N.of_nat 1)%N with 256%N.
  assert (be_val [b] = bn b) by (unfold be_val; cbn [fold_left]; lia). pose proof (bn_lt b). nia.
Qed.

Lemma be_bytes_val : forall l, be_bytes (length l) (be_val l) = l.
Proof.
  induction l as [|b l IH] using rev_ind; [reflexivity|]. rewrite app_length, Nat.add_comm. cbn [length Nat.add be_bytes].
  rewrite be_val_app. cbn [length]. change (256 ^ N.of_nat 1)%N with 256%N.
  assert (E : be_val [b] = bn b) by (unfold be_val; cbn [fold_left]; lia). rewrite E. pose proof (bn_lt b).
  rewrite N.div_add_l by lia. rewrite N.div_small by lia. rewrite N.add_0_r, IH. f_equal. f_equal.
  rewrite n2b_mod, N.add_comm, N.mod_add by lia. now rewrite <- n2b_mod, n2b_bn.
Qed.

Lemma be_val_bytes : forall k n, (n < 256 ^ N.of_nat k)%N -> be_val (be_bytes k n) = n.
Proof.
  induction k as [|k IH]; intros n H.
  - cbn in H. cbn. lia.
  - cbn [be_bytes]. rewrite be_val_app. cbn [length]. change (256 ^ N.of_nat 1)%N with 256%N.
    rewrite Nat2N.inj_succ, N.pow_succ_r' in H. rewrite IH by (apply N.div_lt_upper_bound; lia).
    assert (E : be_val [n2b n] = bn (n2b n)) by (unfold be_val; cbn [fold_left]; lia). rewrite E, bn_n2b.
    pose proof (N.div_mod n 256). lia.
Qed.

(** ** The size of the modulus *)

Lemma rsa_size_bounds : forall n, 0 < n -> 256 ^ (Z.of_nat (rsa_size n) - 1) <= n < 256 ^ Z.of_nat (rsa_size n).
Proof.
  intros n H. unfold rsa_size. pose proof (Z.log2_spec n H) as [L1 L2]. pose proof (Z.log2_nonneg n) as L0.
  set (x := Z.log2 n) in *. rewrite Z2Nat.id by (apply Z.div_pos; lia). change 256 with (2 ^ 8).
  pose proof (Z.div_mod (x + 8) 8 ltac:(lia)) as DM. pose proof (Z.mod_pos_bound (x + 8) 8 ltac:(lia)) as MB.
  rewrite <- !Z.pow_mul_r by lia. split.
  - eapply Z.le_trans; [|exact L1]. apply Z.pow_le_mono_r; lia.
  - eapply Z.lt_le_trans; [exact L2|]. apply Z.pow_le_mono_r; lia.
Qed.

Lemma emsa_spec : forall k h em, emsa k h = Some em ->
  length em = k /\ (46 <= k)%nat /\ (be_val em < 256 ^ N.of_nat (k - 1))%N.
Proof.
  unfold emsa. intros k h em H. destruct (Nat.eqb_spec (length h) 20) as [L|]; [|discriminate].
  destruct (Nat.leb_spec 46 k) as [K|]; [|discriminate]. injection H as <-.
  assert (LE : length (["000"; "001"]%byte ++ repeat "255"%byte (k - 38) ++ ["000"%byte] ++ sha1_prefix ++ h) = k).
  { rewrite !app_length, repeat_length, L. cbn [length sha1_prefix]. lia. }
  split; [exact LE|]. split; [exact K|].
  set (t := "001"%byte :: repeat "255"%byte (k - 38) ++ ["000"%byte] ++ sha1_prefix ++ h).
  assert (LT : length t = (k - 1)%nat).
  { change (S (length t) = k) in LE. lia. }
  change (be_val (["000"%byte] ++ t) < 256 ^ N.of_nat (k - 1))%N. rewrite be_val_app, <- LT.
  change (be_val ["000"%byte]) with 0%N. rewrite N.mul_0_l, N.add_0_l. apply be_val_bound.
Qed.

Lemma of_N_pow : forall k, Z.of_N (256 ^ N.of_nat k) = 256 ^ Z.of_nat k.
Proof. intros k. rewrite N2Z.inj_pow, nat_N_Z. reflexivity. Qed.

Lemma emsa_lt : forall n h em, 0 < n -> emsa (rsa_size n) h = Some em -> 0 <= Z.of_N (be_val em) < n.
Proof.
  intros n h em H E. apply emsa_spec in E as [_ [K B]]. pose proof (rsa_size_bounds n H) as [S1 _].
  split; [lia|]. eapply Z.lt_le_trans; [|exact S1]. apply N2Z.inj_lt in B. rewrite of_N_pow in B.
  now rewrite Nat2Z.inj_sub in B by lia.
Qed.

Lemma key_pair_n : forall public private, key_pair public private -> rk_n private = rk_n public /\ 0 < rk_n public.
Proof.
  intros public private [p [q [Hp [Hq [_ [N1 [N2 _]]]]]]]. pose proof (prime_ge_2 p Hp). pose proof (prime_ge_2 q Hq).
  split; [congruence|]. rewrite N1. nia.
Qed.

Lemma raw_bytes : forall n x, 0 < n -> 0 <= x < n -> Z.of_N (be_val (be_bytes (rsa_size n) (Z.to_N x))) = x.
Proof.
  intros n x H Hx. pose proof (rsa_size_bounds n H) as [_ S2]. rewrite be_val_bytes; [lia|].
  apply N2Z.inj_lt. rewrite of_N_pow. lia.
Qed.

(** The signature that the private key makes is the only one that the public key accepts. *)
Lemma sign_verify : forall public private h s, key_pair public private ->
  (pkcs1_verify public h s = true <-> pkcs1_sign private h = Some s).
Proof.
  intros public private h s K. destruct (key_pair_n _ _ K) as [EN HN]. unfold pkcs1_verify, pkcs1_sign. rewrite EN.
  set (n := rk_n public) in *. destruct (emsa (rsa_size n) h) as [em|] eqn:EM; [|rewrite andb_false_r; split; discriminate].
  pose proof (emsa_lt n h em HN EM) as LT. pose proof (emsa_spec _ _ _ EM) as [LE _]. split.
  - intros V. apply andb_prop in V as [V V3]. apply andb_prop in V as [V1 V2].
    apply Nat.eqb_eq in V1. apply Z.ltb_lt in V2. apply bseqb_eq in V3. f_equal.
    assert (R : Z.of_N (be_val em) = rsa_raw public (Z.of_N (be_val s))).
    { rewrite V3. apply raw_bytes; [exact HN|]. apply rsa_raw_range. exact HN. }
    rewrite R. rewrite (proj2 (key_pair_inverse public private (Z.of_N (be_val s)) K ltac:(lia))).
    rewrite N2Z.id, <- V1. apply be_bytes_val.
  - intros E. injection E as <-. pose proof (rsa_raw_range private (Z.of_N (be_val em)) ltac:(lia)) as RR. rewrite EN in RR.
    rewrite be_bytes_length, Nat.eqb_refl, raw_bytes by assumption. fold n in RR. destruct (Z.ltb_spec (rsa_raw private (Z.of_N (be_val em))) n); [|lia].
    cbn [andb]. rewrite (proj1 (key_pair_inverse public private (Z.of_N (be_val em)) K LT)).
    rewrite N2Z.id, <- LE, be_bytes_val. apply bseqb_refl.
Qed.

Lemma sign_some : forall private h, length h = 20%nat -> (46 <= rsa_size (rk_n private))%nat -> exists s, pkcs1_sign private h = Some s.
Proof.
  intros private h L K. unfold pkcs1_sign, emsa. rewrite L. apply Nat.leb_le in K. rewrite K. cbn. eauto.
Qed.
Lemma sign_none : forall private h, (rsa_size (rk_n private) < 46)%nat -> pkcs1_sign private h = None.
Proof.
  intros private h K. unfold pkcs1_sign, emsa. apply Nat.leb_gt in K. rewrite K, andb_false_r. reflexivity.
Qed.

(** ** Pocklington's criterion, for the examples *)

Lemma pocklington : forall n q r a, 1 < n -> prime q -> n - 1 = q * r -> n < q * q -> 0 <= r ->
  a ^ (n - 1) mod n = 1 -> Z.gcd (a ^ r mod n - 1) n = 1 -> prime n.
Proof.
  intros n q r a Hn Hq HR HQ Hr HA HG. pose proof (prime_ge_2 q Hq) as Q2.
  destruct (prime_dec n) as [P|NP]; [exact P|exfalso].
  (* a prime factor s with s * s <= n *)
  assert (X : exists s, prime s /\ (s | n) /\ s * s <= n).
  { assert (W : forall m, 1 < m -> exists s, prime s /\ (s | m)).
    { intros m Hm. assert (0 <= m) by lia. revert Hm. pattern m. apply Z_lt_induction; [|assumption].
      intros x IH Hx. destruct (prime_dec x) as [Px|Nx]; [exists x; split; [exact Px|apply Z.divide_refl]|].
      destruct (not_prime_divide x Hx Nx) as [y [[Y1 Y2] D]]. destruct (IH y ltac:(lia) Y1) as [s [S1 S2]].
      exists s. split; [exact S1|]. now apply Z.divide_trans with y. }
    destruct (not_prime_divide n Hn NP) as [y [[Y1 Y2] [z D]]].
    destruct (Z_le_gt_dec (y * y) n) as [L|G].
    - destruct (W y Y1) as [s [S1 S2]]. exists s. split; [exact S1|]. split.
      + apply Z.divide_trans with y; [exact S2|]. exists z. exact D.
      + apply Z.divide_pos_le in S2; [|lia]. pose proof (prime_ge_2 s S1). nia.
    - assert (1 < z) by nia. destruct (W z ltac:(lia)) as [s [S1 S2]]. exists s. split; [exact S1|]. split.
      + apply Z.divide_trans with z; [exact S2|]. exists y. lia.
      + apply Z.divide_pos_le in S2; [|lia]. pose proof (prime_ge_2 s S1). assert (z < y) by nia. assert (s * s <= z * z) by nia. nia. }
  destruct X as [s [Ps [Ds SS]]]. pose proof (prime_ge_2 s Ps) as S2.
  assert (A1 : (s | a ^ (n - 1) - 1)).
  { apply Z.divide_trans with n; [exact Ds|]. exists (a ^ (n - 1) / n). pose proof (Z.div_mod (a ^ (n - 1)) n ltac:(lia)). lia. }
  set (b := a ^ r). assert (B1 : (s | b ^ q - 1)).
  { unfold b. rewrite <- Z.pow_mul_r by lia. now rewrite Z.mul_comm, <- HR. }
  assert (B2 : ~ (s | b - 1)).
  { intros D. assert (D2 : (s | a ^ r mod n - 1)).
    { assert (E : a ^ r mod n - 1 = (b - 1) - n * (a ^ r / n)) by (unfold b; pose proof (Z.div_mod (a ^ r) n ltac:(lia)); lia).
      rewrite E. apply Z.divide_sub_r; [exact D|]. now apply Z.divide_mul_l. }
    pose proof (Z.gcd_greatest _ _ _ D2 Ds) as G. rewrite HG in G. apply Z.divide_1_r in G. lia. }
  assert (B3 : ~ (s | b)).
  { intros D. assert (D2 : (s | 1)).
    { replace 1 with (b ^ q - (b ^ q - 1)) by lia. apply Z.divide_sub_r; [|exact B1].
      replace q with (1 + (q - 1)) by lia. rewrite Z.pow_add_r, Z.pow_1_r by lia. now apply Z.divide_mul_l. }
    apply Z.divide_1_r in D2. lia. }
  pose proof (fermat s b Ps B3) as F. clearbody b. clear a HA HG A1.
  destruct (Zdivide_dec q (s - 1)) as [DQ|NQ].
  - apply Z.divide_pos_le in DQ; [|lia]. clear - DQ SS HQ S2 Q2. nia.
  - pose proof (prime_rel_prime q Hq (s - 1) NQ) as RP. apply rel_prime_bezout in RP. destruct RP as [u v E].
    assert (K : forall x y, 0 <= x -> 0 <= y -> (s | b ^ x - 1) -> (s | b ^ y - 1) -> x = 1 + y -> (s | b - 1)).
    { intros x y Hx Hy [c C] [d D] ->. rewrite Z.pow_add_r, Z.pow_1_r in C by lia. exists (c - b * d).
      rewrite Z.mul_sub_distr_r, <- Z.mul_assoc, <- C, <- D. ring. }
    assert (B4 : forall k, 0 <= k -> (s | b ^ (q * k) - 1)).
    { intros k Hk. rewrite Z.pow_mul_r by lia. now apply divide_pow_one. }
    assert (B5 : forall k, 0 <= k -> (s | b ^ ((s - 1) * k) - 1)).
    { intros k Hk. rewrite Z.pow_mul_r by lia. now apply divide_pow_one. }
    apply B2. destruct (Z_le_gt_dec v 0) as [V|V].
    + assert (U : 0 <= u) by (clear - E V S2 Q2; nia).
      apply (K (q * u) ((s - 1) * (- v))); [clear - U Q2; nia|clear - V S2; nia|apply B4; lia|apply B5; lia|lia].
    + assert (U : u <= 0) by (clear - E V S2 Q2; nia).
      apply (K ((s - 1) * v) (q * (- u))); [clear - V S2; nia|clear - U Q2; nia|apply B5; lia|apply B4; lia|lia].
Qed.

(** The criterion as a computation. *)
Definition pock_check (n q r a : Z) : bool :=
  (1 <? n) && (n - 1 =? q * r) && (n <? q * q) && (0 <=? r)
  && (Zpow_mod a (n - 1) n =? 1) && (Z.gcd (Zpow_mod a r n - 1) n =? 1).
Lemma pock_prime : forall n q r a, prime q -> pock_check n q r a = true -> prime n.
Proof.
  unfold pock_check. intros n q r a Hq H. repeat (apply andb_prop in H as [H ?]).
  repeat match goal with X : (_ <? _) = true |- _ => apply Z.ltb_lt in X | X : (_ =? _) = true |- _ => apply Z.eqb_eq in X
    | X : (_ <=? _) = true |- _ => apply Z.leb_le in X end.
  rewrite Zpow_mod_correct in * by lia. now apply (pocklington n q r a).
Qed.

(** One signature is accepted for one digest only. *)
Lemma emsa_inj : forall k h h' em, emsa k h = Some em -> emsa k h' = Some em -> h = h'.
Proof.
  unfold emsa. intros k h h' em H H'. destruct (Nat.eqb (length h) 20 && Nat.leb 46 k); [|discriminate].
  destruct (Nat.eqb (length h') 20 && Nat.leb 46 k); [|discriminate]. injection H as <-. injection H' as E.
  apply app_inv_head in E. injection E as E. now symmetry.
Qed.
Lemma verify_inj : forall key h h' s, pkcs1_verify key h s = true -> pkcs1_verify key h' s = true -> h = h'.
Proof.
  unfold pkcs1_verify. intros key h h' s H H'. apply andb_prop in H as [_ H]. apply andb_prop in H' as [_ H'].
  destruct (emsa (rsa_size (rk_n key)) h) as [em|] eqn:E; [|discriminate].
  destruct (emsa (rsa_size (rk_n key)) h') as [em'|] eqn:E'; [|discriminate].
  apply bseqb_eq in H, H'. rewrite <- H in H'. subst em'. eapply emsa_inj; eauto.
Qed.
