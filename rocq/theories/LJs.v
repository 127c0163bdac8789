(** Division of integers below 2^53 by 1000 in binary64. *)
From Coq Require Import String.
From Coq Require Import Lia ZArith SpecFloat.
From Verif Require Import Bytes MJs.
Local Open Scope Z_scope.

Lemma digits_bounds : forall p, 2 ^ (Z.pos (digits2_pos p) - 1) <= Z.pos p < 2 ^ Z.pos (digits2_pos p).
Proof.
  induction p as [p IH|p IH|]; cbn [digits2_pos]; try (rewrite Pos2Z.inj_succ).
  - replace (Z.succ (Z.pos (digits2_pos p)) - 1) with (Z.succ (Z.pos (digits2_pos p) - 1)) by lia.
    rewrite !Z.pow_succ_r by lia. lia.
  - replace (Z.succ (Z.pos (digits2_pos p)) - 1) with (Z.succ (Z.pos (digits2_pos p) - 1)) by lia.
    rewrite !Z.pow_succ_r by lia. lia.
  - cbn. lia.
Qed.

(** The number of digits from the range. *)
Lemma digits_of : forall p d, 0 < d -> 2 ^ (d - 1) <= Z.pos p < 2 ^ d -> Z.pos (digits2_pos p) = d.
Proof.
  intros p d Hd H. pose proof (digits_bounds p) as B. set (k := Z.pos (digits2_pos p)) in *.
  assert (Hk : 0 < k) by (unfold k; lia).
  destruct (Z.lt_trichotomy k d) as [L|[E|L]]; [|exact E|].
  - assert (2 ^ k <= 2 ^ (d - 1)) by (apply Z.pow_le_mono_r; lia). lia.
  - assert (2 ^ d <= 2 ^ (k - 1)) by (apply Z.pow_le_mono_r; lia). lia.
Qed.

Definition two53 : Z := 9007199254740992.
Definition two52 : Z := 4503599627370496.

Lemma zdigits_53 : forall m, two52 <= m < two53 -> Zdigits2 m = 53.
Proof.
  intros m H. destruct m as [|p|p]; try (unfold two52, two53 in H; lia). cbn [Zdigits2]. apply digits_of; [lia|exact H].
Qed.
Lemma zdigits_54 : forall m, two53 <= m < 2 * two53 -> Zdigits2 m = 54.
Proof.
  intros m H. destruct m as [|p|p]; try (unfold two52, two53 in H; lia). cbn [Zdigits2]. apply digits_of; [lia|exact H].
Qed.

(** Rounding of a number with 53 or 54 digits to 53 digits. *)
Lemma fexp_normal : forall d e, -1000 < d + e -> fexp 53 1024 (d + e) - e = d - 53.
Proof. intros d e H. unfold fexp, emin. lia. Qed.

Lemma shr_fexp_53 : forall m e l, two52 <= m < two53 -> -1000 < e -> shr_fexp 53 1024 m e l = (shr_record_of_loc m l, e).
Proof.
  intros m e l H He. unfold shr_fexp. rewrite (zdigits_53 m H), fexp_normal by lia. reflexivity.
Qed.
Lemma shr_fexp_54 : forall m e l, two53 <= m < 2 * two53 -> -1000 < e ->
  shr_fexp 53 1024 m e l = (shr_1 (shr_record_of_loc m l), e + 1).
Proof.
  intros m e l H He. unfold shr_fexp. rewrite (zdigits_54 m H), fexp_normal by lia. reflexivity.
Qed.

(** Half of a positive number. *)
Lemma shr_1_pos : forall m r s, 1 < m ->
  shr_1 {| shr_m := m; shr_r := r; shr_s := s |} = {| shr_m := m / 2; shr_r := Z.odd m; shr_s := (r || s)%bool |}.
Proof.
  intros m r s H. destruct m as [|[p|p|]|p]; try lia; unfold shr_1; cbn [Z.odd]; f_equal.
  - change (Z.pos p~1) with (2 * Z.pos p + 1). rewrite Z.mul_comm, Z.div_add_l by lia. cbn. lia.
  - change (Z.pos p~0) with (2 * Z.pos p). rewrite Z.mul_comm, Z.div_mul by lia. reflexivity.
Qed.

(** What a location says about a remainder [r] of a division by the even number [m2]. *)
Definition located (m2 r : Z) (l : location) : Prop :=
  match l with
  | loc_Exact => r = 0
  | loc_Inexact Lt => 0 < r /\ 2 * r < m2
  | loc_Inexact Eq => 2 * r = m2
  | loc_Inexact Gt => m2 < 2 * r /\ r < m2
  end.

Lemma new_location_located : forall m2 r, Z.even m2 = true -> 0 < m2 -> 0 <= r < m2 -> located m2 r (new_location m2 r).
Proof.
  intros m2 r HE H1 H2. unfold new_location. rewrite HE. unfold new_location_even.
  destruct (Zeq_bool r 0) eqn:E; [now apply Zeq_bool_eq in E|]. apply Zeq_bool_neq in E.
  destruct (Z.compare_spec (2 * r) m2); cbn [located]; lia.
Qed.

(** Rounding to nearest moves by half a unit at most. *)
Lemma round_53 : forall m2 n q r l, 0 < m2 -> n = q * m2 + r -> 0 <= r < m2 -> located m2 r l ->
  let M := round_nearest_even q l in q <= M <= q + 1 /\ Z.abs (2 * (M * m2 - n)) <= m2.
Proof.
  intros m2 n q r l H0 -> H1 H2. cbv zeta. unfold round_nearest_even. destruct l as [|[| |]]; cbn [located] in H2; try (split; lia).
  destruct (Z.even q); split; lia.
Qed.

Lemma round_54 : forall m2 n q r l, 0 < m2 -> n = q * m2 + r -> 0 <= r < m2 -> located m2 r l -> 1 < q ->
  let rec := shr_1 (shr_record_of_loc q l) in
  let M := round_nearest_even (shr_m rec) (loc_of_shr_record rec) in
  q / 2 <= M <= q / 2 + 1 /\ Z.abs (2 * (M * (2 * m2) - n)) <= 2 * m2.
Proof.
  intros m2 n q r l H0 -> H1 H2 HQ. cbv zeta.
  assert (EQ : q = 2 * (q / 2) + (if Z.odd q then 1 else 0)).
  { rewrite (Z.div_mod q 2) at 1 by lia. rewrite Zmod_odd. destruct (Z.odd q); reflexivity. }
  set (h := q / 2) in *. clearbody h.
  destruct l as [|[| |]]; cbn [located shr_record_of_loc] in *; rewrite shr_1_pos by exact HQ; cbn [shr_m orb loc_of_shr_record];
    replace (q / 2) with h by (rewrite EQ; destruct (Z.odd q);
      [rewrite Z.mul_comm, Z.div_add_l by lia; cbn; lia|rewrite Z.add_0_r, Z.mul_comm, Z.div_mul by lia; reflexivity]);
    destruct (Z.odd q); cbn [round_nearest_even]; try (split; nia).
  destruct (Z.even h); split; nia.
Qed.

(** The end of [binary_round_aux], with a rounded mantissa. *)
Lemma finish : forall M e, two52 <= M <= two53 -> -200 < e < 0 ->
  f64_as_u64 (let '(mrs, e') := shr_fexp 53 1024 M e loc_Exact in
    match shr_m mrs with
    | Z0 => S754_zero false
    | Zpos m => if Zle_bool e' (1024 - 53) then S754_finite false m e' else S754_infinity false
    | _ => S754_nan
    end) = M / 2 ^ (- e).
Proof.
  intros M e HM He.
  assert (HU : forall a k, 0 <= a <= two53 -> 0 < k -> Z.min u64_max (a / k) = a / k).
  { intros a k Ha Hk. apply Z.min_r. transitivity a; [apply Z.div_le_upper_bound; nia|]. unfold two53, u64_max in *. lia. }
  destruct (Z.eq_dec M two53) as [->|N].
  - rewrite shr_fexp_54 by (unfold two53; lia). cbn [shr_record_of_loc]. rewrite shr_1_pos by (unfold two53; lia). cbn [shr_m].
    change (two53 / 2) with two52. unfold two52 at 1. destruct (Zle_bool (e + 1) (1024 - 53)) eqn:E; [|exfalso; lia].
    cbn [f64_as_u64]. fold two52. destruct (0 <=? e + 1) eqn:E1.
    + assert (e = -1) as -> by lia. reflexivity.
    + rewrite HU by (try apply Z.pow_pos_nonneg; unfold two52, two53; lia).
      assert (EP : 2 ^ (- e) = 2 ^ (- (e + 1)) * 2).
      { replace (- e) with (Z.succ (- (e + 1))) by lia. rewrite Z.pow_succ_r by lia. lia. }
      rewrite EP. change two53 with (two52 * 2). rewrite Z.div_mul_cancel_r; [reflexivity| |lia]. apply Z.pow_nonzero; lia.
  - rewrite shr_fexp_53 by (unfold two52, two53 in *; lia). cbn [shr_record_of_loc shr_m].
    destruct M as [|p|p]; try (unfold two52 in HM; lia). destruct (Zle_bool e (1024 - 53)) eqn:E; [|exfalso; lia].
    cbn [f64_as_u64]. destruct (0 <=? e) eqn:E1; [exfalso; lia|]. apply HU; [unfold two53 in *; lia|]. apply Z.pow_pos_nonneg; lia.
Qed.

Definition m1000 : Z := 8796093022208000.
Lemma f64_1000 : f64_of_Z 1000 = S754_finite false 8796093022208000 (-43).
Proof. reflexivity. Qed.

(** Dividing the float [m * 2^e] by 1000 and truncating. *)
Lemma div_truncated : forall p e, two52 <= Z.pos p < two53 -> -100 < e <= 0 ->
  exists M u, 9 <= u /\ 0 <= u + e /\ Z.abs (2 * (1000 * M - Z.pos p * 2 ^ (e + u))) <= 1000
    /\ js_timestamp (S754_finite false p e) = M / 2 ^ u.
Proof.
  intros p e HP He. unfold js_timestamp. rewrite f64_1000. unfold f64_div, SFdiv, SFdiv_core_binary.
  rewrite (zdigits_53 (Z.pos p) HP). change (Zdigits2 (Z.pos 8796093022208000)) with 53.
  assert (EE : Z.min (fexp 53 1024 (53 + e - (53 + -43))) (e - -43) = e - 10) by (unfold fexp, emin; lia).
  rewrite EE. replace (e - -43 - (e - 10)) with 53 by lia. cbv iota. rewrite Z.shiftl_mul_pow2 by lia.
  change (2 ^ 53) with two53. fold m1000. pose proof (Z_div_mod (Z.pos p * two53) m1000 ltac:(reflexivity)) as HD.
  destruct (Z.div_eucl (Z.pos p * two53) m1000) as [q r]. destruct HD as [HD HR].
  pose proof (new_location_located m1000 r eq_refl eq_refl HR) as HL. set (l := new_location m1000 r) in *. clearbody l.
  unfold binary_round_aux. cbn [xorb].
  assert (HQ : two52 <= q /\ q < two53 + 216172782113784) by (unfold two52, two53, m1000 in *; lia).
  destruct (Z_lt_ge_dec q two53) as [L|G].
  - rewrite (shr_fexp_53 q) by lia.
    assert (ES : shr_m (shr_record_of_loc q l) = q /\ loc_of_shr_record (shr_record_of_loc q l) = l) by (destruct l as [|[| |]]; auto).
    destruct ES as [-> ->]. destruct (round_53 m1000 (Z.pos p * two53) q r l eq_refl ltac:(lia) HR HL) as [B1 B2].
    exists (round_nearest_even q l), (10 - e). split; [lia|]. split; [lia|]. split.
    + replace (e + (10 - e)) with 10 by lia. change (2 ^ 10) with 1024. unfold m1000, two53 in *. lia.
    + rewrite finish by lia. do 2 f_equal. lia.
  - rewrite (shr_fexp_54 q) by (unfold two53 in *; lia).
    destruct (round_54 m1000 (Z.pos p * two53) q r l eq_refl ltac:(lia) HR HL ltac:(unfold two53 in *; lia)) as [B1 B2].
    set (rec := shr_1 (shr_record_of_loc q l)) in *. set (M := round_nearest_even (shr_m rec) (loc_of_shr_record rec)) in *. clearbody M.
    assert (HQ2 : two52 <= q / 2 /\ q / 2 + 1 <= two53).
    { split; [apply Z.div_le_lower_bound; unfold two52, two53 in *; lia|].
      assert (q / 2 < two53) by (apply Z.div_lt_upper_bound; unfold two53 in *; lia). lia. }
    exists M, (9 - e). split; [lia|]. split; [lia|]. split.
    + replace (e + (9 - e)) with 9 by lia. change (2 ^ 9) with 512. unfold m1000, two53 in *. lia.
    + rewrite finish by lia. do 2 f_equal. lia.
Qed.

(** The quotient is right. *)
Lemma truncated_quotient : forall t M u, 0 <= t -> 9 <= u -> Z.abs (2 * (1000 * M - t * 2 ^ u)) <= 1000 -> M / 2 ^ u = t / 1000.
Proof.
  intros t M u Ht Hu H. assert (HP : 512 <= 2 ^ u) by (change 512 with (2 ^ 9); apply Z.pow_le_mono_r; lia).
  pose proof (Z.div_mod t 1000 ltac:(lia)) as HD. pose proof (Z.mod_pos_bound t 1000 ltac:(lia)) as HM.
  set (k := t / 1000) in *. set (r := t mod 1000) in *. clearbody k r. set (P := 2 ^ u) in *. clearbody P.
  symmetry. apply (Z.div_unique M P k (M - P * k)); [left|lia]. subst t. split; nia.
Qed.

(** The float of an integer that fits. *)
Lemma f64_of_pos : forall p, Z.pos p < two53 -> exists m e, f64_of_Z (Z.pos p) = S754_finite false m e
  /\ two52 <= Z.pos m < two53 /\ -53 < e <= 0 /\ Z.pos m = Z.pos p * 2 ^ (- e).
Proof.
  intros p HP. pose proof (digits_bounds p) as HB. set (d := digits2_pos p) in *.
  assert (Hd : Z.pos d <= 53).
  { destruct (Z_le_gt_dec (Z.pos d) 53) as [L|G]; auto. exfalso.
    assert (2 ^ 53 <= 2 ^ (Z.pos d - 1)) by (apply Z.pow_le_mono_r; lia). change (2 ^ 53) with two53 in *. lia. }
  assert (X : forall m e, two52 <= Z.pos m < two53 -> -53 < e <= 0 ->
    binary_round_aux 53 1024 false (Z.pos m) e loc_Exact = S754_finite false m e).
  { intros m e Hm He. unfold binary_round_aux. rewrite (shr_fexp_53 (Z.pos m)) by lia. cbn [shr_record_of_loc shr_m loc_of_shr_record round_nearest_even].
    rewrite (shr_fexp_53 (Z.pos m)) by lia. cbn [shr_record_of_loc shr_m]. destruct (Zle_bool e (1024 - 53)) eqn:E; [reflexivity|]. exfalso. lia. }
  unfold f64_of_Z, binary_normalize, binary_round. fold d.
  assert (EF : fexp 53 1024 (Z.pos d + 0) = Z.pos d - 53) by (unfold fexp, emin; lia). rewrite EF. unfold shl_align. rewrite Z.sub_0_r.
  destruct (Z.pos d - 53) as [|k|k] eqn:ED; [|exfalso; lia|].
  - exists p, 0. assert (HR : two52 <= Z.pos p < two53) by (replace (Z.pos d) with 53 in HB by lia; exact HB).
    rewrite X by (auto; lia). split; [reflexivity|]. split; [exact HR|]. split; [lia|]. cbn. lia.
  - exists (shift_pos k p), (Z.neg k).
    assert (EV : Z.pos (shift_pos k p) = Z.pos p * 2 ^ Z.pos k) by (rewrite shift_pos_correct; apply Z.mul_comm).
    assert (HR : two52 <= Z.pos (shift_pos k p) < two53).
    { rewrite EV. assert (E1 : two53 = 2 ^ Z.pos d * 2 ^ Z.pos k) by (rewrite <- Z.pow_add_r by lia; replace (Z.pos d + Z.pos k) with 53 by lia; reflexivity).
      assert (E2 : two52 = 2 ^ (Z.pos d - 1) * 2 ^ Z.pos k) by (rewrite <- Z.pow_add_r by lia; replace (Z.pos d - 1 + Z.pos k) with 52 by lia; reflexivity).
      assert (0 < 2 ^ Z.pos k) by (apply Z.pow_pos_nonneg; lia). rewrite E1, E2. nia. }
    rewrite X by (auto; lia). split; [reflexivity|]. split; [exact HR|]. split; [lia|]. exact EV.
Qed.

Lemma js_timestamp_pos : forall t, 0 <= t < two53 -> js_timestamp (f64_of_Z t) = t / 1000.
Proof.
  intros t Ht. destruct t as [|p|p]; [reflexivity| |lia].
  destruct (f64_of_pos p ltac:(lia)) as [m [e [-> [Hm [He EM]]]]].
  destruct (div_truncated m e Hm ltac:(lia)) as [M [u [H1 [H2 [H3 ->]]]]].
  apply truncated_quotient; [lia|exact H1|]. replace (Z.pos p * 2 ^ u) with (Z.pos m * 2 ^ (e + u)); [exact H3|].
  rewrite EM, <- Z.mul_assoc, <- Z.pow_add_r by lia. do 2 f_equal. lia.
Qed.

Lemma js_timestamp_neg : forall p, js_timestamp (f64_of_Z (Z.neg p)) = 0.
Proof.
  intros p. unfold js_timestamp. rewrite f64_1000.
  assert (X : forall m e l, f64_as_u64 (binary_round_aux 53 1024 true m e l) = 0).
  { intros m e l. unfold binary_round_aux. destruct (shr_fexp _ _ m e l) as [a b]. destruct (shr_fexp _ _ _ b loc_Exact) as [a' b'].
    destruct (shr_m a'); auto. destruct (Zle_bool b' _); reflexivity. }
  assert (Y : forall x, match x with S754_finite s _ _ | S754_zero s | S754_infinity s => s = true | S754_nan => True end ->
    f64_as_u64 (f64_div x (S754_finite false 8796093022208000 (-43))) = 0).
  { intros [s|s| |s m e] H; try subst s; try reflexivity. unfold f64_div, SFdiv. destruct (SFdiv_core_binary _ _ _ _ _ _) as [[q e'] l].
    cbn [xorb]. apply X. }
  apply Y. unfold f64_of_Z, binary_normalize, binary_round. destruct (shl_align _ _ _) as [mz ez].
  unfold binary_round_aux. destruct (shr_fexp _ _ _ _ _) as [a b]. destruct (shr_fexp _ _ _ b loc_Exact) as [a' b'].
  destruct (shr_m a'); auto. destruct (Zle_bool b' _); reflexivity.
Qed.
