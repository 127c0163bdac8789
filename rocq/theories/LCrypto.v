(** Base 64, decimal numbers and generated nonces. *)
From Coq Require Import String.
From Coq Require Import Lia Arith ZArith ZifyNat ZifyN.
From Verif Require Import Bytes Crypto Spec MFmt MPercent MAuth LBytes LFmt LPercent.

Ltac Zify.zify_post_hook ::= Z.to_euclidean_division_equations.

(** ** Base 64 *)

Lemma list_ind3 : forall {A} (P : list A -> Prop),
  P [] -> (forall a, P [a]) -> (forall a b, P [a; b]) ->
  (forall a b c r, P r -> P (a :: b :: c :: r)) -> forall l, P l.
Proof.
  intros A P H0 H1 H2 H3. fix IH 1. intros [|a [|b [|c r]]]; [apply H0|apply H1|apply H2|apply H3, IH].
Qed.

Lemma bn_bound : forall b, (bn b < 256)%N.
Proof. exact bn_lt_256. Qed.

Lemma b64_digit_in : forall alpha n, length alpha = 64 -> (n < 64)%N -> In (b64_digit alpha n) alpha.
Proof. intros. unfold b64_digit. apply nth_In. lia. Qed.

Lemma b64_digit_inj : forall alpha i j, NoDup alpha -> length alpha = 64 ->
  (i < 64)%N -> (j < 64)%N -> b64_digit alpha i = b64_digit alpha j -> i = j.
Proof.
  intros alpha i j HN HL Hi Hj H. unfold b64_digit in H.
  apply (proj1 (NoDup_nth alpha x00) HN) in H; lia.
Qed.

Lemma d_hi : forall a, (bn a / 4 < 64)%N.
Proof. intros a. pose proof (bn_bound a). lia. Qed.
Lemma d_mid : forall a b, ((bn a mod 4) * 16 + bn b / 16 < 64)%N.
Proof. intros a b. pose proof (bn_bound b). lia. Qed.
Lemma d_low : forall b c, ((bn b mod 16) * 4 + bn c / 64 < 64)%N.
Proof. intros b c. pose proof (bn_bound c). lia. Qed.
Lemma d_last : forall c, (bn c mod 64 < 64)%N.
Proof. intros c. apply N.mod_lt. lia. Qed.
Lemma d_mid0 : forall a, ((bn a mod 4) * 16 < 64)%N.
Proof. intros a. lia. Qed.
Lemma d_low0 : forall b, ((bn b mod 16) * 4 < 64)%N.
Proof. intros b. lia. Qed.
Local Hint Resolve d_hi d_mid d_low d_last d_mid0 d_low0 : b64.

Lemma dec_a : forall a a', (bn a / 4 = bn a' / 4)%N -> (bn a mod 4 * 16 = bn a' mod 4 * 16)%N -> a = a'.
Proof. intros. apply bn_inj. lia. Qed.
Lemma dec_ab : forall a a' b b', (bn a / 4 = bn a' / 4)%N ->
  (bn a mod 4 * 16 + bn b / 16 = bn a' mod 4 * 16 + bn b' / 16)%N ->
  a = a' /\ (bn b / 16 = bn b' / 16)%N.
Proof.
  intros a a' b b' H1 H2. pose proof (bn_bound b). pose proof (bn_bound b').
  assert (bn a mod 4 = bn a' mod 4 /\ bn b / 16 = bn b' / 16)%N as [E1 E2] by lia.
  split; auto. apply bn_inj. lia.
Qed.
Lemma dec_b : forall b b', (bn b / 16 = bn b' / 16)%N -> (bn b mod 16 * 4 = bn b' mod 16 * 4)%N -> b = b'.
Proof. intros. apply bn_inj. lia. Qed.
Lemma dec_bc : forall b b' c c', (bn b / 16 = bn b' / 16)%N ->
  (bn b mod 16 * 4 + bn c / 64 = bn b' mod 16 * 4 + bn c' / 64)%N ->
  b = b' /\ (bn c / 64 = bn c' / 64)%N.
Proof.
  intros b b' c c' H1 H2. pose proof (bn_bound c). pose proof (bn_bound c').
  assert (bn b mod 16 = bn b' mod 16 /\ bn c / 64 = bn c' / 64)%N as [E1 E2] by lia.
  split; auto. apply bn_inj. lia.
Qed.
Lemma dec_c : forall c c', (bn c / 64 = bn c' / 64)%N -> (bn c mod 64 = bn c' mod 64)%N -> c = c'.
Proof. intros. apply bn_inj. lia. Qed.

Lemma base64_length : forall alpha l, length (base64 alpha false l) = Nat.div (4 * length l + 2) 3.
Proof.
  intros alpha. induction l as [|a|a b|a b c r IH] using list_ind3; try reflexivity.
  cbn [base64 app length]. rewrite IH. clear. lia.
Qed.

Lemma base64_chars : forall alpha pad l x, length alpha = 64 ->
  In x (base64 alpha pad l) -> In x alpha \/ (pad = true /\ x = "="%byte).
Proof.
  intros alpha pad l x HL.
  induction l as [|a|a b|a b c r IH] using list_ind3; cbn [base64]; intros H.
  - destruct H.
  - apply in_app_iff in H as [H'|H']; [|destruct pad; simpl in H'; intuition].
    destruct H' as [<-|[<-|[]]]; left; apply b64_digit_in; auto with b64.
  - apply in_app_iff in H as [H'|H']; [|destruct pad; simpl in H'; intuition].
    destruct H' as [<-|[<-|[<-|[]]]]; left; apply b64_digit_in; auto with b64.
  - apply in_app_iff in H as [H'|H']; auto.
    destruct H' as [<-|[<-|[<-|[<-|[]]]]]; left; apply b64_digit_in; auto with b64.
Qed.

Lemma base64_chars_nopad : forall alpha l x, length alpha = 64 ->
  In x (base64 alpha false l) -> In x alpha.
Proof. intros alpha l x HL H. apply base64_chars in H as [H|[H _]]; auto. discriminate. Qed.

Ltac digit_eqs HN HL :=
  repeat match goal with
  | H : b64_digit _ _ = b64_digit _ _ |- _ =>
      apply (b64_digit_inj _ _ _ HN HL) in H; [|solve [auto with b64]|solve [auto with b64]]
  end.

Lemma base64_inj : forall alpha, NoDup alpha -> length alpha = 64 ->
  forall l1 l2, base64 alpha false l1 = base64 alpha false l2 -> l1 = l2.
Proof.
  intros alpha HN HL.
  induction l1 as [|a|a b|a b c r IH] using list_ind3;
    intros [|a' [|b' [|c' r']]] H; cbn [base64 app] in H; try discriminate; auto.
  - injection H as K1 K2. digit_eqs HN HL. f_equal. now apply dec_a.
  - injection H as K1 K2 K3. digit_eqs HN HL.
    destruct (dec_ab _ _ _ _ K1 K2) as [<- E]. now rewrite (dec_b _ _ E K3).
  - injection H as K1 K2 K3 K4 K5. digit_eqs HN HL.
    destruct (dec_ab _ _ _ _ K1 K2) as [<- E]. destruct (dec_bc _ _ _ _ E K3) as [<- E'].
    rewrite (dec_c _ _ E' K4). now rewrite (IH _ K5).
Qed.

Lemma base64_pad_inj : forall alpha, NoDup alpha -> length alpha = 64 -> ~ In "="%byte alpha ->
  forall l1 l2, base64 alpha true l1 = base64 alpha true l2 -> l1 = l2.
Proof.
  intros alpha HN HL HE.
  assert (HX : forall n, (n < 64)%N -> b64_digit alpha n <> "="%byte).
  { intros n Hn E. apply HE. rewrite <- E. now apply b64_digit_in. }
  assert (HY : forall n, (n < 64)%N -> "="%byte <> b64_digit alpha n).
  { intros n Hn E. symmetry in E. now apply HX in E. }
  induction l1 as [|a|a b|a b c r IH] using list_ind3;
    intros [|a' [|b' [|c' r']]] H; cbn [base64 app] in H; try discriminate; auto.
  - injection H as K1 K2. digit_eqs HN HL. f_equal. now apply dec_a.
  - injection H as K1 K2 K3. apply HY in K3; [tauto|auto with b64].
  - injection H as K1 K2 K3 K4. apply HY in K3; [tauto|auto with b64].
  - injection H as K1 K2 K3. apply HX in K3; [tauto|auto with b64].
  - injection H as K1 K2 K3. digit_eqs HN HL.
    destruct (dec_ab _ _ _ _ K1 K2) as [<- E]. now rewrite (dec_b _ _ E K3).
  - injection H as K1 K2 K3 K4. apply HY in K4; [tauto|auto with b64].
  - injection H as K1 K2 K3 K4. apply HX in K3; [tauto|auto with b64].
  - injection H as K1 K2 K3 K4. apply HX in K4; [tauto|auto with b64].
  - injection H as K1 K2 K3 K4 K5. digit_eqs HN HL.
    destruct (dec_ab _ _ _ _ K1 K2) as [<- E]. destruct (dec_bc _ _ _ _ E K3) as [<- E'].
    rewrite (dec_c _ _ E' K4). now rewrite (IH _ K5).
Qed.

Definition byte_eq_dec (a b : byte) : {a = b} + {a <> b}.
Proof.
  destruct (beqb a b) eqn:E; [left; now apply beqb_eq | right].
  intros ->. rewrite beqb_refl in E. discriminate.
Defined.

Fixpoint nodupb (l : bytes) : bool :=
  match l with [] => true | a :: l' => negb (existsb (beqb a) l') && nodupb l' end.

Lemma nodupb_ok : forall l, nodupb l = true -> NoDup l.
Proof.
  induction l as [|a l IH]; simpl; intros H; constructor.
  - apply andb_true_iff in H as [H _]. intros HI. apply negb_true_iff in H.
    rewrite <- not_true_iff_false in H. apply H. apply existsb_exists. exists a. split; auto.
    apply beqb_refl.
  - apply andb_true_iff in H as [_ H]. auto.
Qed.

Lemma b64_url_nodup : NoDup b64_url.
Proof. apply nodupb_ok. vm_compute. reflexivity. Qed.
Lemma b64_std_nodup : NoDup b64_std.
Proof. apply nodupb_ok. vm_compute. reflexivity. Qed.

Lemma b64_url_safe : uri_safe b64_url.
Proof.
  intros b H. assert (HF : forallb unreserved b64_url = true) by (vm_compute; reflexivity).
  rewrite forallb_forall in HF. auto.
Qed.

(** ** Nonces *)

Lemma trim_zeroes_length : forall r, length (trim_zeroes r) <= length r.
Proof. induction r as [|b r IH]; simpl; auto. destruct (N.eqb (bn b) 0); simpl; lia. Qed.

Lemma trim_zeroes_split : forall r,
  r = repeat x00 (length r - length (trim_zeroes r)) ++ trim_zeroes r.
Proof.
  induction r as [|b r IH]; [reflexivity|]. cbn [trim_zeroes].
  destruct (N.eqb (bn b) 0) eqn:E.
  - pose proof (trim_zeroes_length r). cbn [length].
    replace (S (length r) - length (trim_zeroes r)) with (S (length r - length (trim_zeroes r))) by lia.
    cbn [repeat app]. rewrite <- IH. f_equal. apply bn_inj. apply N.eqb_eq in E. rewrite E. reflexivity.
  - rewrite Nat.sub_diag. reflexivity.
Qed.

Lemma trim_zeroes_inj : forall r1 r2, length r1 = length r2 ->
  trim_zeroes r1 = trim_zeroes r2 -> r1 = r2.
Proof.
  intros r1 r2 HL H. rewrite (trim_zeroes_split r1), (trim_zeroes_split r2), H, HL. reflexivity.
Qed.

(** The nonce for nine random bytes. *)
Definition nonce_text (rand : bytes) : bytes := base64 b64_url false (trim_zeroes rand).

Lemma nonce_text_safe : forall rand, uri_safe (nonce_text rand).
Proof.
  intros rand b H. apply base64_chars_nopad in H; [|reflexivity]. now apply b64_url_safe.
Qed.

Lemma nonce_text_length : forall rand, length rand = 9 -> length (nonce_text rand) <= 12.
Proof.
  intros rand H. unfold nonce_text. rewrite base64_length.
  pose proof (trim_zeroes_length rand). rewrite H in *. lia.
Qed.

Lemma gen_nonce_ok : forall rand, length rand = 9 -> gen_nonce rand = Ok (nonce_text rand).
Proof.
  intros rand H. unfold gen_nonce. fold (nonce_text rand).
  pose proof (nonce_text_length rand H) as HL. apply Nat.leb_le in HL.
  unfold NONCE_LEN. rewrite HL.
  replace (forallb is_ascii (nonce_text rand)) with true; auto.
  symmetry. apply forallb_forall. intros x Hx. apply unreserved_ascii. eapply nonce_text_safe; eauto.
Qed.

Lemma draw_length : forall e n, length (draw e n) = 9.
Proof. intros. unfold draw. rewrite map_length, seq_length. reflexivity. Qed.

Lemma nonce_text_inj : forall r1 r2, length r1 = 9 -> length r2 = 9 ->
  nonce_text r1 = nonce_text r2 -> r1 = r2.
Proof.
  intros r1 r2 H1 H2 H. apply base64_inj in H; auto using b64_url_nodup.
  apply trim_zeroes_inj in H; congruence.
Qed.

(** ** Decimal numbers *)

Definition is_digit (b : byte) : bool := match digit_val b with Some _ => true | None => false end.

Lemma digit_unreserved : forall b, is_digit b = true -> unreserved b = true.
Proof. intros b; destruct b; vm_compute; congruence. Qed.

Lemma digit_val_n2b : forall n, (n < 10)%N -> digit_val (n2b (48 + n)) = Some n.
Proof.
  intros n H.
  assert (HC : In n [0; 1; 2; 3; 4; 5; 6; 7; 8; 9]%N) by (cbn [In]; lia).
  cbn [In] in HC. repeat destruct HC as [<-|HC]; try reflexivity. destruct HC.
Qed.

Definition read_from (acc : option N) (s : bytes) : option N :=
  fold_left (fun acc b =>
               match acc, digit_val b with
               | Some a, Some d => Some (a * 10 + d)%N
               | _, _ => None
               end) s acc.

Lemma read_from_app : forall s t acc, read_from acc (s ++ t) = read_from (read_from acc s) t.
Proof. intros. apply fold_left_app. Qed.

Lemma dec_fuel_spec : forall fuel n acc, (n < 2 ^ N.of_nat fuel)%N -> fuel <> 0 ->
  exists ds, dec_fuel fuel n acc = ds ++ acc /\ read_from (Some 0%N) ds = Some n
             /\ forallb is_digit ds = true
             /\ ds <> [] /\ (n <> 0%N -> hd x00 ds <> "0"%byte) /\ (n = 0%N -> ds = ["0"%byte]).
Proof.
  induction fuel as [|f IH]; intros n acc Hn Hf; [lia|].
  cbn [dec_fuel].
  assert (HD : (n mod 10 < 10)%N) by (apply N.mod_lt; lia).
  pose proof (digit_val_n2b _ HD) as HV.
  destruct (N.ltb_spec n 10) as [H|H].
  - exists [n2b (48 + n mod 10)]. rewrite N.mod_small in * by auto. repeat split.
    + unfold read_from. cbn [fold_left]. rewrite HV. f_equal.
    + cbn [forallb]. unfold is_digit. rewrite HV. reflexivity.
    + discriminate.
    + intros H0 E. cbn [hd] in E. rewrite E in HV. vm_compute in HV. congruence.
    + intros ->. reflexivity.
  - assert (f <> 0) by (intros ->; simpl in Hn; lia).
    assert (HB : (n / 10 < 2 ^ N.of_nat f)%N).
    { apply N.div_lt_upper_bound; [lia|]. rewrite Nat2N.inj_succ, N.pow_succ_r' in Hn. lia. }
    destruct (IH (n / 10)%N (n2b (48 + n mod 10) :: acc) HB H0) as [ds [E1 [E2 [E3 [E4 [E5 E6]]]]]].
    exists (ds ++ [n2b (48 + n mod 10)]). repeat split.
    + rewrite E1. now rewrite <- app_assoc.
    + rewrite read_from_app, E2. unfold read_from. cbn [fold_left]. rewrite HV. f_equal.
      pose proof (N.div_mod n 10). lia.
    + rewrite forallb_app, E3. cbn [forallb]. unfold is_digit. rewrite HV. reflexivity.
    + destruct ds; discriminate.
    + intros _. destruct ds; [congruence|]. cbn [hd app]. apply E5. lia.
    + lia.
Qed.

Lemma decimal_spec : forall n,
  read_decimal (decimal n) = Some n /\ forallb is_digit (decimal n) = true
  /\ decimal n <> [] /\ (n <> 0%N -> hd x00 (decimal n) <> "0"%byte)
  /\ (n = 0%N -> decimal n = ["0"%byte]).
Proof.
  intros n.
  destruct (dec_fuel_spec (S (N.to_nat (N.size n))) n []) as [ds [E1 [E2 [E3 [E4 [E5 E6]]]]]].
  - rewrite Nat2N.inj_succ, N2Nat.id, N.pow_succ_r'. pose proof (N.size_gt n). lia.
  - lia.
  - fold (decimal n) in E1. rewrite app_nil_r in E1. rewrite E1. auto.
Qed.

Lemma decimal_safe : forall n, uri_safe (decimal n).
Proof.
  intros n b H. apply digit_unreserved. destruct (decimal_spec n) as [_ [HF _]].
  rewrite forallb_forall in HF. auto.
Qed.

Lemma decimal_inj : forall a b, decimal a = decimal b -> a = b.
Proof.
  intros a b H. destruct (decimal_spec a) as [Ha _]. destruct (decimal_spec b) as [Hb _].
  rewrite H in Ha. congruence.
Qed.
