(** Reading percent-encoded text and forms: the third-party code against the specification. *)
From Coq Require Import String.
From Coq Require Import Lia Arith Sorted Permutation NArith.
From Verif Require Import Bytes Crypto Spec SpecAuth SpecForm SpecHttp LBytes MFmt MPercent LPercent LForm LServer MHttp LHttp.

(** ** Percent decoding *)

Lemma hex_value_iff : forall b n, hex_value b n <-> hex_digit b = Some (N.of_nat n).
Proof.
  intros b n. split.
  - intros [H|H];
      do 16 (destruct n as [|n]; [cbn in H; inversion H; reflexivity|]);
      destruct n; discriminate H.
  - intros H. assert (K : exists k, hex_digit b = Some k /\ (k < 16)%N).
    { exists (N.of_nat n). split; auto. revert H. generalize (N.of_nat n) as k. intros k.
      destruct b; vm_compute; intros E; inversion E; reflexivity. }
    destruct K as [k [K1 K2]]. rewrite H in K1. inversion K1; subst. clear K1.
    assert (L : n < 16) by lia. clear K2.
    do 16 (destruct n as [|n]; [revert H; destruct b; intros H; vm_compute in H;
      first [discriminate H | left; reflexivity | right; reflexivity]|]). lia.
Qed.

Lemma escape_iff : forall b s n rest, escape (b :: s) n rest <->
  b = "%"%byte /\ exists h l x y, s = h :: l :: rest /\ hex_digit h = Some x /\ hex_digit l = Some y
    /\ N.of_nat n = (x * 16 + y)%N.
Proof.
  intros b s n rest. split.
  - intros [h [l [x [y [E [H1 [H2 ->]]]]]]]. inversion E; subst. split; auto. exists h, l, (N.of_nat x), (N.of_nat y).
    apply hex_value_iff in H1. apply hex_value_iff in H2. repeat split; auto. lia.
  - intros [-> [h [l [x [y [-> [H1 [H2 H3]]]]]]]]. exists h, l, (N.to_nat x), (N.to_nat y).
    split; auto. rewrite !hex_value_iff, !N2Nat.id. repeat split; auto. lia.
Qed.

Lemma escape_fun : forall s n rest n' rest', escape s n rest -> escape s n' rest' -> n = n' /\ rest = rest'.
Proof.
  intros [|b s] n rest n' rest' H H'; [destruct H as [h [l [x [y [E _]]]]]; discriminate|].
  apply escape_iff in H as [_ [h [l [x [y [-> [H1 [H2 H3]]]]]]]].
  apply escape_iff in H' as [_ [h' [l' [x' [y' [E [H1' [H2' H3']]]]]]]].
  inversion E; subst. rewrite H1 in H1'. rewrite H2 in H2'. inversion H1'. inversion H2'. subst. split; auto. lia.
Qed.

Lemma unescaped_fun : forall s t, unescaped s t -> forall t', unescaped s t' -> t = t'.
Proof.
  intros s t H. induction H as [|s n b rest t HE HB H IH|b s t HN H IH]; intros t' H'.
  - inversion H' as [|? n b rest t'' HE|]; subst; auto. destruct HE as [h [l [x [y [E _]]]]]. discriminate.
  - inversion H' as [|? n' b' rest' t'' HE' HB'|b' s' t'' HN']; subst.
    + destruct HE as [h [l [x [y [E _]]]]]. discriminate.
    + destruct (escape_fun _ _ _ _ _ HE HE') as [-> ->]. f_equal; auto. apply bn_inj. congruence.
    + exfalso. eapply HN', HE.
  - inversion H' as [|? n' b' rest' t'' HE' HB'|b' s' t'' HN']; subst.
    + exfalso. eapply HN, HE'.
    + f_equal. auto.
Qed.

Lemma hex_digit_lt : forall b x, hex_digit b = Some x -> (x < 16)%N.
Proof. intros b x. destruct b; vm_compute; intros E; inversion E; reflexivity. Qed.

Lemma bn_n2b : forall n, (n < 256)%N -> bn (n2b n) = n.
Proof.
  intros n H. unfold n2b. rewrite N.mod_small by exact H. destruct (Byte.of_N n) as [b|] eqn:E.
  - now apply Byte.to_of_N_iff in E.
  - apply Byte.of_N_None_iff in E. lia.
Qed.

Lemma unescaped_decode : forall k s, length s <= k -> unescaped s (percent_decode s).
Proof.
  induction k as [|k IH]; intros s L.
  { destruct s; [constructor|cbn [length] in L; lia]. }
  destruct s as [|b s]; [constructor|]. cbn [length] in L.
  assert (HB : (forall n rest, ~ escape (b :: s) n rest) -> unescaped (b :: s) (b :: percent_decode s)).
  { intros H. apply us_byte; auto. apply IH. lia. }
  cbn [percent_decode]. destruct (beqb b "%") eqn:E.
  - apply beqb_eq in E. subst b. destruct s as [|h [|l s]].
    + apply HB. intros n rest H. apply escape_iff in H as [_ [h [l [x [y [E _]]]]]]. discriminate.
    + apply HB. intros n rest H. apply escape_iff in H as [_ [h' [l [x [y [E _]]]]]]. discriminate.
    + destruct (hex_digit h) as [x|] eqn:E1.
      * destruct (hex_digit l) as [y|] eqn:E2.
        -- assert (X : (x < 16)%N) by now apply (hex_digit_lt h). assert (Y : (y < 16)%N) by now apply (hex_digit_lt l).
           eapply us_escape with (n := N.to_nat (x * 16 + y)) (rest := s).
           ++ apply escape_iff. split; auto. exists h, l, x, y. rewrite N2Nat.id. auto.
           ++ rewrite N2Nat.id. symmetry. apply bn_n2b. lia.
           ++ apply IH. cbn [length] in L. lia.
        -- apply HB. intros n rest H. apply escape_iff in H as [_ [h' [l' [x' [y [E [H1 [H2 _]]]]]]]].
           inversion E; subst. congruence.
      * apply HB. intros n rest H. apply escape_iff in H as [_ [h' [l' [x' [y [E [H1 [H2 _]]]]]]]].
        inversion E; subst. congruence.
  - apply HB. intros n rest H. apply escape_iff in H as [-> _]. discriminate.
Qed.

(** ** UTF-8 *)

Lemma char_prefix_free : forall c s c' s', utf8_char c -> utf8_char c' -> c ++ s = c' ++ s' -> c = c' /\ s = s'.
Proof.
  intros c s c' s' H H' E. pose proof (utf8_first_char c s H) as F. pose proof (utf8_first_char c' s' H') as F'.
  assert (c = c').
  { destruct c as [|b c]; [contradiction|]. destruct c' as [|b' c']; [contradiction|]. cbn [app] in E.
    inversion E; subst. rewrite H2 in F. rewrite F in F'. now inversion F'. }
  subst. split; auto. now apply app_inv_head in E.
Qed.

Lemma app_same_length : forall {A} (a b c d : list A), a ++ b = c ++ d -> length a = length c -> a = c /\ b = d.
Proof.
  intros A. induction a as [|x a IH]; intros b [|y c] d E L; try discriminate L; auto.
  cbn [app] in E. inversion E; subst. cbn [length] in L. destruct (IH b c d H1) as [-> ->]; auto.
Qed.

Lemma broken_fun : forall p s p' s', broken_piece p s -> broken_piece p' s' -> p ++ s = p' ++ s' -> p = p' /\ s = s'.
Proof.
  intros p s p' s' [_ [L M]] [_ [L' M']] E.
  assert (K : 1 <= length p).
  { destruct L as [L|[L _]]; [lia|]. destruct p; [contradiction|cbn [length]; lia]. }
  assert (K' : 1 <= length p').
  { destruct L' as [L'|[L' _]]; [lia|]. destruct p'; [contradiction|cbn [length]; lia]. }
  apply app_same_length; auto. apply Nat.le_antisymm.
  - destruct L as [L|[_ L]]; [lia|]. apply (M' p s); auto.
  - destruct L' as [L'|[_ L']]; [lia|]. apply (M p' s'); auto.
Qed.

Lemma broken_nonempty : forall p s, broken_piece p s -> p <> [].
Proof. intros p s [_ [[L|[L _]] _]]; [|exact L]. now destruct p. Qed.

Lemma shown_fun : forall s t, shown_as s t -> forall t', shown_as s t' -> t = t'.
Proof.
  intros s t H. induction H as [|c s t HC H IH|p s t HB H IH]; intros t' H'.
  - inversion H' as [|c s t HC H E|p s t HB H E]; subst; auto.
    + destruct (utf8_char_cons c HC) as [x [y ->]]. discriminate.
    + apply broken_nonempty in HB. destruct p; [contradiction|discriminate].
  - inversion H' as [E|c' s' t'' HC' H'' E|p s' t'' HB H'' E]; subst.
    + destruct (utf8_char_cons c HC) as [x [y ->]]. discriminate.
    + destruct (char_prefix_free _ _ _ _ HC' HC E) as [-> ->]. f_equal. auto.
    + destruct HB as [HB _]. exfalso. apply (HB c s); auto.
  - inversion H' as [E|c' s' t'' HC' H'' E|p' s' t'' HB' H'' E]; subst.
    + apply broken_nonempty in HB. destruct p; [contradiction|discriminate].
    + destruct HB as [HB _]. exfalso. apply (HB c' s'); auto.
    + destruct (broken_fun _ _ _ _ HB' HB E) as [-> ->]. f_equal. auto.
Qed.

Ltac ranges := rewrite ?beqb_bn, ?bn_224, ?bn_237, ?bn_240, ?bn_244 in *; unfold utf8_tail, between in *;
  repeat match goal with
  | |- context [(?a <=? ?b)%N] => destruct (N.leb_spec a b); try lia; cbn [andb]
  | |- context [(?a <? ?b)%N] => destruct (N.ltb_spec a b); try lia; cbn [andb]
  | |- context [(?a =? ?b)%N] => destruct (N.eqb_spec a b); try lia; cbn [andb]
  end.

(** A beginning of a character is at most as long as the piece that is replaced. *)
Lemma beginning_length : forall b q rest c, beginning (b :: q) -> utf8_first b (q ++ rest) = inr c ->
  length (b :: q) <= length c.
Proof.
  intros b q rest c [more [HM HU]].
  destruct q as [|d q].
  { intros E. apply utf8_first_inr in E as [E _]. destruct c; [contradiction|cbn [length]; lia]. }
  destruct q as [|f q].
  { destruct more as [|m more]; [contradiction|]. cbn [app] in *.
    inversion HU; subst; unfold utf8_first, is_cont, in_range; ranges;
      repeat match goal with
      | |- context [match ?x with [] => _ | _ :: _ => _ end] => destruct x
      | |- context [if ?x then _ else _] => destruct x
      end; intros E; inversion E; cbn [length]; lia. }
  destruct q as [|g q].
  { destruct more as [|m more]; [contradiction|]. cbn [app] in *.
    inversion HU; subst; unfold utf8_first, is_cont, in_range; ranges;
      repeat match goal with
      | |- context [match ?x with [] => _ | _ :: _ => _ end] => destruct x
      | |- context [if ?x then _ else _] => destruct x
      end; intros E; inversion E; cbn [length]; lia. }
  exfalso. destruct more as [|m more]; [contradiction|]. cbn [app] in HU. inversion HU; subst.
  all: destruct q; discriminate.
Qed.

(** What is replaced is one byte or a beginning. *)
Lemma first_broken : forall b rest c, utf8_first b rest = inr c -> length c = 1 \/ c <> [] /\ beginning c.
Proof.
  intros b rest c. unfold utf8_first.
  destruct (N.ltb_spec (bn b) 128); [discriminate|].
  destruct (in_range 194 223 b) eqn:R1.
  { destruct rest as [|d rest]; [|destruct (is_cont d)]; intros E; inversion E; now left. }
  destruct (in_range 224 239 b) eqn:R2.
  { apply between_range in R2. destruct rest as [|d rest]; [intros E; inversion E; now left|].
    destruct (if beqb b "224" then _ else _) eqn:C; [|intros E; inversion E; now left].
    assert (B : beginning [b; d]).
    { exists ["128"%byte]. split; [discriminate|]. cbn [app].
      assert (T : utf8_tail "128"%byte) by (vm_compute; split; discriminate).
      rewrite !beqb_bn, bn_224, bn_237 in C. unfold between in R2.
      destruct (N.eqb_spec (bn b) 224).
      { apply between_range in C. apply u3_e0; auto. unfold between. lia. }
      destruct (N.eqb_spec (bn b) 237).
      { apply between_range in C. apply u3_ed; auto. unfold between. lia. }
      apply between_range in C. destruct (N.ltb_spec (bn b) 237).
      - apply u3_low; auto. unfold between. lia.
      - apply u3_high; auto. unfold between. lia. }
    destruct rest as [|f rest]; [|destruct (is_cont f)]; intros E; inversion E; subst; right; (split; [discriminate|exact B]). }
  destruct (in_range 240 244 b) eqn:R3; [|intros E; inversion E; now left].
  apply between_range in R3. destruct rest as [|d rest]; [intros E; inversion E; now left|].
  destruct (if beqb b "240" then _ else _) eqn:C; [|intros E; inversion E; now left].
  assert (B : forall f g, utf8_tail f -> utf8_tail g -> utf8_char [b; d; f; g]).
  { intros f g F G. rewrite !beqb_bn, bn_240, bn_244 in C. unfold between in R3.
    destruct (N.eqb_spec (bn b) 240).
    { apply between_range in C. apply u4_f0; auto. unfold between. lia. }
    destruct (N.eqb_spec (bn b) 244).
    { apply between_range in C. apply u4_f4; auto. unfold between. lia. }
    apply between_range in C. apply u4_mid; auto. unfold between. lia. }
  assert (T : utf8_tail "128"%byte) by (vm_compute; split; discriminate).
  assert (B2 : beginning [b; d]) by (exists ["128"; "128"]%byte; split; [discriminate|now apply B]).
  destruct rest as [|f rest]; [intros E; inversion E; subst; right; split; [discriminate|exact B2]|].
  destruct (is_cont f) eqn:F; [|intros E; inversion E; subst; right; split; [discriminate|exact B2]].
  apply between_range in F.
  assert (B3 : beginning [b; d; f]) by (exists ["128"]%byte; split; [discriminate|now apply B]).
  destruct rest as [|g rest]; [|destruct (is_cont g)]; intros E; inversion E; subst; right; (split; [discriminate|exact B3]).
Qed.

Lemma first_broken_piece : forall b rest c, utf8_first b rest = inr c ->
  exists more, b :: rest = c ++ more /\ broken_piece c more.
Proof.
  intros b rest c E. pose proof (utf8_first_inr b rest c E) as [HN [more HE]]. exists more. split; auto.
  split; [|split].
  - intros c' more' E' HC. pose proof (utf8_first_char c' more' HC) as F. destruct c' as [|b' c']; [contradiction|].
    rewrite <- HE in E'. cbn [app] in E'. inversion E'; subst. congruence.
  - now apply (first_broken b rest).
  - intros q more' E' HB. destruct q as [|b' q]; [cbn [length]; lia|].
    rewrite <- HE in E'. cbn [app] in E'. inversion E'; subst. now apply (beginning_length b' q more').
Qed.

Lemma shown_lossy : forall s, shown_as s (from_utf8_lossy s).
Proof.
  intros s. unfold from_utf8_lossy. assert (L : length s <= length s) by lia. revert L.
  generalize (length s) at 2 3 as fuel. intros fuel. revert s.
  induction fuel as [|fuel IH]; intros s L.
  { destruct s; [constructor|cbn [length] in L; lia]. }
  destruct s as [|b rest]; [constructor|]. cbn [lossy_loop].
  destruct (utf8_first b rest) as [c|c] eqn:F.
  - apply utf8_first_inl in F as [HC [more E]]. rewrite E, skipn_app_length. apply sh_char; auto. apply IH.
    destruct (utf8_char_cons c HC) as [x [y ->]]. apply (f_equal (@length byte)) in E.
    rewrite app_length in E. cbn [length] in *. lia.
  - apply first_broken_piece in F as [more [E HB]]. rewrite E, skipn_app_length. apply sh_broken; auto. apply IH.
    apply broken_nonempty in HB. apply (f_equal (@length byte)) in E. rewrite app_length in E.
    destruct c; [contradiction|]. cbn [length] in *. lia.
Qed.

Lemma shown_iff : forall s t, shown_as s t <-> from_utf8_lossy s = t.
Proof.
  intros s t. split; [|intros <-; apply shown_lossy]. intros H. eapply shown_fun; [apply shown_lossy|exact H].
Qed.

Lemma unescaped_iff : forall s t, unescaped s t <-> percent_decode s = t.
Proof.
  intros s t. split; [|intros <-; now apply (unescaped_decode (length s))].
  intros H. eapply unescaped_fun; [now apply (unescaped_decode (length s))|exact H].
Qed.

Lemma reads_iff : forall s t, decodes_to s t <-> decode_utf8_lossy s = t.
Proof.
  intros s t. unfold decodes_to, decode_utf8_lossy. split.
  - intros [raw [H1 H2]]. apply unescaped_iff in H1 as <-. now apply shown_iff.
  - intros H. exists (percent_decode s). split; [now apply unescaped_iff|now apply shown_iff].
Qed.

Lemma pair_reads_iff : forall p q, pair_decodes_to p q <-> (decode_utf8_lossy (fst p), decode_utf8_lossy (snd p)) = q.
Proof.
  intros p [k v]. unfold pair_decodes_to. rewrite !reads_iff. cbn [fst snd]. split; [intros [<- <-]; reflexivity|].
  intros E. now inversion E.
Qed.

Lemma pairs_read_iff : forall l l', Forall2 pair_decodes_to l l'
  <-> map (fun p => (decode_utf8_lossy (fst p), decode_utf8_lossy (snd p))) l = l'.
Proof.
  induction l as [|p l IH]; intros l'; cbn [map].
  - split; [now inversion 1|intros <-; constructor].
  - split.
    + inversion 1; subst. apply pair_reads_iff in H2 as <-. f_equal. now apply IH.
    + intros <-. constructor; [now apply pair_reads_iff|now apply IH].
Qed.

(** ** Forms *)

Lemma form_decode_eq : forall s, form_decode s = decode_utf8_lossy (plus_to_space s).
Proof. reflexivity. Qed.

Lemma splitn2_cases : forall sep s,
  (~ In sep s /\ splitn2 sep s = (s, []))
  \/ exists a b, ~ In sep a /\ s = a ++ sep :: b /\ splitn2 sep s = (a, b).
Proof.
  intros sep. induction s as [|x s IH]; [left; split; [auto|reflexivity]|].
  cbn [splitn2]. destruct (beqb x sep) eqn:E.
  - apply beqb_eq in E. subst. right. exists [], s. auto.
  - destruct IH as [[H1 ->]|[a [b [H1 [-> ->]]]]].
    + left. split; auto. intros [->|X]; auto. now rewrite beqb_refl in E.
    + right. exists (x :: a), b. repeat split; auto. intros [->|X]; auto. now rewrite beqb_refl in E.
Qed.

Definition field_of (f : bytes) : pair := let '(name, value) := splitn2 "=" f in (form_decode name, form_decode value).

Lemma field_reads_iff : forall f p, field_reads_as f p <-> field_of f = p.
Proof.
  intros f [k v]. unfold field_reads_as, field_of. cbn [fst snd]. split.
  - intros [name [value [[->|[-> ->]] [H [H1 H2]]]]]; apply reads_iff in H1 as <-; apply reads_iff in H2 as <-.
    + change (lit "=" ++ value) with ("="%byte :: value). now rewrite splitn2_app.
    + now rewrite splitn2_none.
  - destruct (splitn2_cases "=" f) as [[H1 ->]|[a [b [H1 [-> ->]]]]]; intros E; inversion E; subst.
    + exists f, []. rewrite !reads_iff. auto.
    + exists a, b. rewrite !reads_iff. auto.
Qed.

Lemma fields_read_iff : forall fields l, Forall2 field_reads_as fields l <-> map field_of fields = l.
Proof.
  induction fields as [|f fields IH]; intros l; cbn [map].
  - split; [now inversion 1|intros <-; constructor].
  - split.
    + inversion 1; subst. apply field_reads_iff in H2 as <-. f_equal. now apply IH.
    + intros <-. constructor; [now apply field_reads_iff|now apply IH].
Qed.

Lemma split_all_parts : forall sep s, Forall (fun f => ~ In sep f) (split_all sep s) /\ s = join [sep] (split_all sep s).
Proof.
  intros sep. induction s as [|x s [IH1 IH2]]; cbn [split_all].
  - split; [repeat constructor; auto|reflexivity].
  - pose proof (split_all_nonempty sep s) as HN. destruct (beqb x sep) eqn:E.
    + apply beqb_eq in E. subst x. split; [constructor; auto|]. rewrite join_cons by exact HN. cbn [app]. now f_equal.
    + destruct (split_all sep s) as [|f l]; [contradiction|]. inversion IH1; subst. split.
      * constructor; auto. intros [->|X]; auto. now rewrite beqb_refl in E.
      * cbn [join] in *. destruct l; cbn [app]; now f_equal.
Qed.

Definition nonempty (f : bytes) : bool := negb (bseqb f []).

Lemma form_loop_split : forall fuel s, length s <= fuel ->
  form_parse_loop fuel s = map field_of (filter nonempty (split_all "&" s)).
Proof.
  induction fuel as [|fuel IH]; intros s L.
  { destruct s; [reflexivity|cbn [length] in L; lia]. }
  destruct s as [|x s]; [reflexivity|].
  cbn [form_parse_loop]. destruct (splitn2_cases "&" (x :: s)) as [[H1 ->]|[a [b [H1 [E ->]]]]].
  - rewrite split_all_none by exact H1. cbn [filter nonempty bseqb bcmp negb map].
    unfold field_of. destruct (splitn2 "=" (x :: s)). now destruct fuel.
  - rewrite E, split_all_app by exact H1.
    assert (IHb : form_parse_loop fuel b = map field_of (filter nonempty (split_all "&" b))).
    { apply IH. rewrite E in L. rewrite app_length in L. cbn [length] in L. lia. }
    destruct a as [|y a]; [exact IHb|].
    cbn [filter]. change (nonempty (y :: a)) with true. cbn iota. cbn [map]. rewrite <- IHb. unfold field_of.
    now destruct (splitn2 "=" (y :: a)).
Qed.

Lemma form_reads_iff : forall form l, form_reads_as form l <-> form_parse form = l.
Proof.
  intros form l. unfold form_reads_as, form_parse. rewrite form_loop_split by lia. split.
  - intros [fields [HN [-> [HF H]]]]. rewrite split_all_join by auto. now apply fields_read_iff.
  - intros H. destruct (split_all_parts "&" form) as [H1 H2]. exists (split_all "&" form).
    split; [apply split_all_nonempty|]. split; [exact H2|]. split; [exact H1|]. now apply fields_read_iff.
Qed.
