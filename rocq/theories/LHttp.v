(** Lemmas about the third-party code: UTF-8, percent decoding, forms. *)
From Coq Require Import String.
From Coq Require Import Lia Arith Sorted Permutation NArith.
From Verif Require Import Bytes Crypto Spec SpecAuth SpecForm SpecHttp LBytes MFmt MPercent LPercent LForm MHttp.

(** ** UTF-8 *)

Lemma between_range : forall lo hi b, in_range lo hi b = true <-> between lo hi b.
Proof. intros. unfold in_range, between. rewrite andb_true_iff, !N.leb_le. tauto. Qed.
Lemma not_range : forall lo hi b, ~ between lo hi b -> in_range lo hi b = false.
Proof. intros lo hi b H. destruct (in_range lo hi b) eqn:E; auto. exfalso. apply H. now apply between_range. Qed.

Lemma beqb_bn : forall a b, beqb a b = N.eqb (bn a) (bn b).
Proof.
  intros a b. destruct (N.eqb_spec (bn a) (bn b)) as [E|E].
  - apply bn_inj in E as ->. apply beqb_refl.
  - apply beqb_neq. congruence.
Qed.

Lemma bn_224 : bn "224" = 224%N. Proof. reflexivity. Qed.
Lemma bn_237 : bn "237" = 237%N. Proof. reflexivity. Qed.
Lemma bn_240 : bn "240" = 240%N. Proof. reflexivity. Qed.
Lemma bn_244 : bn "244" = 244%N. Proof. reflexivity. Qed.

Lemma utf8_first_char : forall c rest, utf8_char c ->
  match c with [] => False | b :: c' => utf8_first b (c' ++ rest) = inl c end.
Proof.
  intros c rest H.
  destruct H; cbn [app]; unfold utf8_first, is_cont, in_range; rewrite ?beqb_bn, ?bn_224, ?bn_237, ?bn_240, ?bn_244;
    unfold utf8_tail, between in *;
    repeat match goal with
    | |- context [(?a <=? ?b)%N] => destruct (N.leb_spec a b); try lia; cbn [andb]
    | |- context [(?a <? ?b)%N] => destruct (N.ltb_spec a b); try lia; cbn [andb]
    | |- context [(?a =? ?b)%N] => destruct (N.eqb_spec a b); try lia; cbn [andb]
    end; try reflexivity.
Qed.

Lemma utf8_first_inl : forall b rest c, utf8_first b rest = inl c ->
  utf8_char c /\ exists rest', b :: rest = c ++ rest'.
Proof.
  intros b rest c. unfold utf8_first.
  destruct (N.ltb_spec (bn b) 128).
  { intros E. inversion E; subst. split; [|now exists rest]. constructor. unfold between. lia. }
  destruct (in_range 194 223 b) eqn:R1.
  { apply between_range in R1. destruct rest as [|d rest]; [discriminate|]. destruct (is_cont d) eqn:C; [|discriminate].
    apply between_range in C. intros E. inversion E; subst. split; [now constructor|now exists rest]. }
  destruct (in_range 224 239 b) eqn:R2.
  { apply between_range in R2. destruct rest as [|d rest]; [discriminate|].
    destruct (if beqb b "224" then _ else _) eqn:C; [|discriminate].
    destruct rest as [|f rest]; [discriminate|]. destruct (is_cont f) eqn:F; [|discriminate].
    apply between_range in F. intros E. inversion E; subst. split; [|now exists rest].
    rewrite !beqb_bn, bn_224, bn_237 in C. unfold between in R2.
    destruct (N.eqb_spec (bn b) 224).
    { apply between_range in C. apply u3_e0; auto. unfold between. lia. }
    destruct (N.eqb_spec (bn b) 237).
    { apply between_range in C. apply u3_ed; auto. unfold between. lia. }
    apply between_range in C. destruct (N.ltb_spec (bn b) 237).
    - apply u3_low; auto. unfold between. lia.
    - apply u3_high; auto. unfold between. lia. }
  destruct (in_range 240 244 b) eqn:R3; [|discriminate].
  apply between_range in R3. destruct rest as [|d rest]; [discriminate|].
  destruct (if beqb b "240" then _ else _) eqn:C; [|discriminate].
  destruct rest as [|f rest]; [discriminate|]. destruct (is_cont f) eqn:F; [|discriminate].
  destruct rest as [|g rest]; [discriminate|]. destruct (is_cont g) eqn:G; [|discriminate].
  apply between_range in F. apply between_range in G. intros E. inversion E; subst. split; [|now exists rest].
  rewrite !beqb_bn, bn_240, bn_244 in C. unfold between in R3.
  destruct (N.eqb_spec (bn b) 240).
  { apply between_range in C. apply u4_f0; auto. unfold between. lia. }
  destruct (N.eqb_spec (bn b) 244).
  { apply between_range in C. apply u4_f4; auto. unfold between. lia. }
  apply between_range in C. apply u4_mid; auto. unfold between. lia.
Qed.

Lemma utf8_first_inr : forall b rest c, utf8_first b rest = inr c -> c <> [] /\ exists rest', b :: rest = c ++ rest'.
Proof.
  intros b rest c. unfold utf8_first.
  repeat match goal with
  | |- context [if ?x then _ else _] => destruct x
  | |- context [match ?x with [] => _ | _ :: _ => _ end] => destruct x
  end; intros E; inversion E; subst; (split; [discriminate|]); eexists; cbn [app]; reflexivity.
Qed.

Lemma utf8_char_cons : forall c, utf8_char c -> exists b c', c = b :: c'.
Proof. intros c H. destruct H; eauto. Qed.

Lemma skipn_app_length : forall {A} (a b : list A), skipn (length a) (a ++ b) = b.
Proof. intros. induction a; simpl; auto. Qed.

Lemma lossy_chars : forall chars fuel, Forall utf8_char chars -> length (concat chars) <= fuel ->
  lossy_loop fuel (concat chars) = concat chars /\ utf8_loop fuel (concat chars) = true.
Proof.
  induction chars as [|c chars IH]; intros fuel H L; [destruct fuel; split; reflexivity|].
  inversion H as [|? ? H1 H2]; subst. pose proof (utf8_first_char c (concat chars) H1) as F.
  destruct (utf8_char_cons c H1) as [b [c' ->]]. cbn [concat app] in *.
  destruct fuel as [|fuel]; [cbn [length] in L; lia|]. cbn [lossy_loop utf8_loop]. rewrite F.
  change (b :: c' ++ concat chars) with ((b :: c') ++ concat chars). rewrite skipn_app_length.
  cbn [length] in L. rewrite app_length in L.
  destruct (IH fuel H2 ltac:(lia)) as [-> ->]. split; reflexivity.
Qed.

Lemma lossy_utf8 : forall s, utf8 s -> from_utf8_lossy s = s.
Proof. intros s [chars [H ->]]. now apply lossy_chars. Qed.

Lemma is_utf8_iff : forall s, is_utf8 s = true <-> utf8 s.
Proof.
  intros s. split.
  - unfold is_utf8. assert (L : length s <= length s) by lia. revert L. generalize (length s) at 2 3 as fuel.
    intros fuel. revert s. induction fuel as [|fuel IH]; intros s L H.
    + destruct s; [now exists []|cbn [length] in L; lia].
    + destruct s as [|b rest]; [now exists []|]. cbn [utf8_loop] in H.
      destruct (utf8_first b rest) as [c|c] eqn:F; [|discriminate].
      apply utf8_first_inl in F as [HC [rest' E]]. rewrite E, skipn_app_length in H.
      destruct (utf8_char_cons c HC) as [x [c' ->]].
      apply IH in H as [chars [H1 ->]].
      * exists ((x :: c') :: chars). split; [now constructor|exact E].
      * assert (length (b :: rest) = length ((x :: c') ++ rest')) as EL by now rewrite E.
        cbn [length app] in EL, L. rewrite app_length in EL. lia.
  - intros [chars [H ->]]. now apply lossy_chars.
Qed.

(** The result of the lossy conversion is always text. *)
Lemma utf8_app : forall a b, utf8 a -> utf8 b -> utf8 (a ++ b).
Proof.
  intros a b [ca [Ha ->]] [cb [Hb ->]]. exists (ca ++ cb). split; [now apply Forall_app|]. now rewrite concat_app.
Qed.
Lemma utf8_one : forall c, utf8_char c -> utf8 c.
Proof. intros c H. exists [c]. split; [now constructor|]. cbn [concat]. now rewrite app_nil_r. Qed.
Lemma utf8_nil : utf8 [].
Proof. now exists []. Qed.
Lemma utf8_replacement : utf8 replacement.
Proof. apply utf8_one. apply u3_high; split; discriminate. Qed.

Lemma utf8_lossy : forall s, utf8 (from_utf8_lossy s).
Proof.
  intros s. unfold from_utf8_lossy. generalize (length s) as fuel. intros fuel. revert s.
  induction fuel as [|fuel IH]; intros [|b rest]; try apply utf8_nil.
  cbn [lossy_loop]. destruct (utf8_first b rest) as [c|c] eqn:F; apply utf8_app; auto.
  - apply utf8_first_inl in F as [H _]. now apply utf8_one.
  - apply utf8_replacement.
Qed.

Lemma utf8_ascii : forall s, Forall (fun b => (bn b < 128)%N) s -> utf8 s.
Proof.
  induction s as [|b s IH]; intros H; [apply utf8_nil|]. inversion H as [|? ? H1 H2]; subst.
  change (b :: s) with ([b] ++ s). apply utf8_app; auto. apply utf8_one. constructor. unfold between. lia.
Qed.

Lemma utf8_pair_ascii : forall a b, forallb (fun x => (bn x <? 128)%N) (a ++ b) = true -> utf8_pair (a, b).
Proof.
  intros a b H. rewrite forallb_app in H. apply andb_true_iff in H as [H1 H2].
  split; apply utf8_ascii; apply Forall_forall; intros x Hx; eapply forallb_forall in Hx; eauto;
    now apply N.ltb_lt.
Qed.

Lemma utf8_text : forall s, forallb (fun x => (bn x <? 128)%N) s = true -> utf8 s.
Proof.
  intros s H. apply utf8_ascii. apply Forall_forall. intros x Hx. eapply forallb_forall in Hx; eauto.
  now apply N.ltb_lt.
Qed.

Lemma safe_utf8 : forall s, uri_safe s -> utf8 s.
Proof.
  intros s H. apply utf8_ascii, Forall_forall. intros b Hb. specialize (H b Hb). apply unreserved_ascii in H.
  unfold is_ascii in H. revert H. rewrite ?N.ltb_lt. auto.
Qed.

(** ** Percent encoding *)

Lemma percent_encode_text_spec : forall s, percent_encode_text s = pct_encode s.
Proof. intros. unfold percent_encode_text. apply pe_chunks_spec. lia. Qed.

Lemma hex_digit_unhex : forall b, hex_digit b = unhex b.
Proof. reflexivity. Qed.

Lemma percent_decode_pct : forall n s t, length s <= n -> pct_decode s = Some t -> percent_decode s = t.
Proof.
  induction n as [|n IH]; intros s t L H.
  - destruct s; [now inversion H|cbn [length] in L; lia].
  - destruct s as [|b s]; [now inversion H|]. cbn [length] in L. cbn [pct_decode percent_decode] in *.
    destruct (beqb b "%").
    + destruct s as [|h [|l s]]; try discriminate.
      destruct (unhex h) as [x|] eqn:E1; [|discriminate]. destruct (unhex l) as [y|] eqn:E2; [|discriminate].
      rewrite <- hex_digit_unhex in E1. rewrite <- hex_digit_unhex in E2. rewrite E1, E2.
      destruct (pct_decode s) as [r|] eqn:E; [|discriminate]. inversion H; subst. f_equal.
      apply IH; auto. cbn [length] in L. lia.
    + destruct (pct_decode s) as [r|] eqn:E; [|discriminate]. cbn [option_map] in H. inversion H; subst. f_equal.
      apply IH; auto. lia.
Qed.

Lemma percent_decode_encode : forall s, percent_decode (pct_encode s) = s.
Proof. intros s. eapply percent_decode_pct; [|apply pct_decode_encode]. reflexivity. Qed.

Lemma decode_encode : forall s, utf8 s -> decode_utf8_lossy (pct_encode s) = s.
Proof. intros s H. unfold decode_utf8_lossy. rewrite percent_decode_encode. now apply lossy_utf8. Qed.

Lemma decode_safe : forall s, uri_safe s -> decode_utf8_lossy s = s.
Proof. intros s H. rewrite <- (pct_encode_safe s H) at 1. apply decode_encode. now apply safe_utf8. Qed.

(** ** Forms *)

Lemma replace_plus_none : forall s, ~ In "+"%byte s -> replace_plus s = s.
Proof. exact plus_none. Qed.

Lemma form_decode_encode : forall s, utf8 s -> form_decode (pct_encode s) = s.
Proof.
  intros s H. unfold form_decode. rewrite replace_plus_none by (apply enc_no; [reflexivity|discriminate]).
  now apply decode_encode.
Qed.
Lemma form_decode_safe : forall s, uri_safe s -> form_decode s = s.
Proof. intros s H. rewrite <- (pct_encode_safe s H) at 1. apply form_decode_encode. now apply safe_utf8. Qed.

Lemma splitn2_app : forall sep a b, ~ In sep a -> splitn2 sep (a ++ sep :: b) = (a, b).
Proof.
  induction a as [|x a IH]; intros b H; cbn [app splitn2].
  - now rewrite beqb_refl.
  - assert (beqb x sep = false) as -> by (apply beqb_neq; intros ->; apply H; now left).
    rewrite IH; auto. intros HX. apply H. now right.
Qed.
Lemma splitn2_none : forall sep a, ~ In sep a -> splitn2 sep a = (a, []).
Proof.
  induction a as [|x a IH]; intros H; cbn [splitn2]; auto.
  assert (beqb x sep = false) as -> by (apply beqb_neq; intros ->; apply H; now left).
  rewrite IH; auto. intros HX. apply H. now right.
Qed.

(** Parsing any text made of fields [name=value] joined with "&". *)
Definition field_text (p : pair) : bytes := fst p ++ lit "=" ++ snd p.

Lemma form_parse_fields : forall fields fuel,
  Forall (fun p => ~ In "="%byte (fst p) /\ ~ In "&"%byte (fst p) /\ ~ In "&"%byte (snd p)) fields ->
  length (join (lit "&") (map field_text fields)) <= fuel ->
  form_parse_loop fuel (join (lit "&") (map field_text fields))
  = map (fun p => (form_decode (fst p), form_decode (snd p))) fields.
Proof.
  induction fields as [|[k v] fields IH]; intros fuel H L; [destruct fuel; reflexivity|].
  inversion H as [|? ? [K1 [K2 K3]] H2]; subst. cbn [fst snd] in *.
  assert (HA : ~ In "&"%byte (field_text (k, v))).
  { unfold field_text. cbn [fst snd]. rewrite !in_app_iff. intros [X|[X|X]]; auto.
    destruct X as [X|[]]; discriminate. }
  assert (HE : splitn2 "=" (field_text (k, v)) = (k, v)).
  { unfold field_text. cbn [fst snd]. now apply (splitn2_app "=" k v). }
  assert (HN : exists x y, field_text (k, v) = x :: y).
  { unfold field_text. cbn [fst snd]. destruct k; cbn [app lit list_byte_of_string]; eauto.
    change (lit "=" ++ v) with ("="%byte :: v). eauto. }
  destruct HN as [x [y HN]].
  destruct fields as [|q fields].
  - cbn [map join] in *. destruct fuel as [|fuel]; [rewrite HN in L; cbn [length] in L; lia|].
    cbn [form_parse_loop]. rewrite HN at 1. cbn [form_parse_loop].
    rewrite splitn2_none by exact HA. rewrite HN at 1. rewrite HE. destruct fuel; reflexivity.
  - change (map field_text ((k, v) :: q :: fields)) with (field_text (k, v) :: map field_text (q :: fields)) in *.
    rewrite join_cons in * by discriminate.
    change (lit "&" ++ join (lit "&") (map field_text (q :: fields)))
      with ("&"%byte :: join (lit "&") (map field_text (q :: fields))) in *.
    destruct fuel as [|fuel]; [rewrite app_length in L; cbn [length] in L; lia|].
    assert (HS : exists z t, field_text (k, v) ++ "&"%byte :: join (lit "&") (map field_text (q :: fields)) = z :: t).
    { rewrite HN. cbn [app]. eauto. }
    destruct HS as [z [t HS]]. cbn [form_parse_loop]. rewrite HS, <- HS.
    rewrite splitn2_app by exact HA. rewrite HN at 1. rewrite HE.
    rewrite IH; auto. rewrite app_length in L. cbn [length] in L. lia.
Qed.

Lemma form_parse_text : forall l, safe_keys l -> Forall utf8_pair l ->
  form_parse (form_text (map enc_value l)) = l.
Proof.
  intros l HS HU. unfold form_parse, form_text.
  change (map form_pair (map enc_value l)) with (map field_text (map enc_value l)).
  rewrite form_parse_fields; auto.
  - rewrite map_map. rewrite <- (map_id l) at 2. apply map_ext_in. intros [k v] Hp. cbn [enc_value fst snd].
    unfold safe_keys in HS. rewrite Forall_forall in HS, HU. specialize (HS _ Hp). specialize (HU _ Hp).
    cbn [fst] in HS. destruct HU as [_ HU]. cbn [snd] in HU.
    now rewrite form_decode_safe, form_decode_encode.
  - apply Forall_map. eapply Forall_impl; [|exact HS]. intros [k v] H. cbn [enc_value fst snd] in *.
    repeat split; try (apply safe_no; auto; reflexivity). apply enc_no; [reflexivity|discriminate].
Qed.

(** [byte_serialize] and back. *)
Lemma byte_serialize_no : forall c s, is_alphanumeric c = false ->
  ~ In c (lit "*-._+%") -> ~ In c (byte_serialize s).
Proof.
  intros c s HC HN HI. unfold byte_serialize in HI. apply in_flat_map in HI as [b [_ HI]].
  destruct (is_alphanumeric b || beqb b "*" || beqb b "-" || beqb b "." || beqb b "_") eqn:E.
  - destruct HI as [<-|[]]. rewrite HC in E. apply HN. cbn [orb] in E. rewrite !orb_true_iff in E.
    cbn. destruct E as [[[E|E]|E]|E]; apply beqb_eq in E; subst; tauto.
  - destruct (beqb b " ").
    + destruct HI as [<-|[]]. apply HN. cbn. tauto.
    + rewrite percent_encode_byte_spec in HI. assert (HX : forall n, is_alphanumeric (upper_hex n) = true \/ upper_hex n = x00).
      { intros n. unfold upper_hex. destruct (N.to_nat n) as [|[|[|[|[|[|[|[|[|[|[|[|[|[|[|[|k]]]]]]]]]]]]]]]]; auto.
        right. cbn [nth]. destruct k; reflexivity. }
      assert (HB : forall b, forallb (fun x => is_alphanumeric x || beqb x "%")
        ["%"%byte; upper_hex (bn b / 16); upper_hex (bn b mod 16)] = true) by (intros []; reflexivity).
      specialize (HB b). rewrite forallb_forall in HB. specialize (HB c HI). rewrite HC in HB. cbn [orb] in HB.
      apply beqb_eq in HB. subst. apply HN. cbn. tauto.
Qed.

Lemma form_decode_serialize_bytes : forall s,
  percent_decode (replace_plus (byte_serialize s)) = s.
Proof.
  intros s. eapply percent_decode_pct; [reflexivity|].
  unfold byte_serialize, replace_plus. induction s as [|b s IH]; [reflexivity|].
  cbn [flat_map]. rewrite map_app.
  assert (HB : forall t,
    pct_decode (map (fun b => if beqb b "+" then " "%byte else b)
      (if is_alphanumeric b || beqb b "*" || beqb b "-" || beqb b "." || beqb b "_" then [b]
       else if beqb b " " then ["+"%byte] else percent_encode_byte b) ++ t) = option_map (cons b) (pct_decode t)).
  { intros t. destruct b; cbn [app pct_decode map]; reflexivity || (destruct (pct_decode t); reflexivity). }
  rewrite HB, IH. reflexivity.
Qed.

Lemma form_decode_serialize : forall s, utf8 s -> form_decode (byte_serialize s) = s.
Proof.
  intros s H. unfold form_decode, decode_utf8_lossy. rewrite form_decode_serialize_bytes. now apply lossy_utf8.
Qed.

(** What is serialized is read back. *)
Lemma form_parse_urlencoded : forall l, Forall utf8_pair l -> form_parse (urlencoded_to_string l) = l.
Proof.
  intros l HU. unfold form_parse, urlencoded_to_string.
  assert (E : map (fun p => byte_serialize (fst p) ++ lit "=" ++ byte_serialize (snd p)) l
    = map field_text (map (fun p => (byte_serialize (fst p), byte_serialize (snd p))) l)).
  { rewrite map_map. reflexivity. }
  rewrite E. rewrite form_parse_fields; auto.
  - rewrite map_map. rewrite <- (map_id l) at 2. apply map_ext_in. intros [k v] Hp. cbn [fst snd].
    rewrite Forall_forall in HU. destruct (HU _ Hp) as [H1 H2]. cbn [fst snd] in *.
    now rewrite !form_decode_serialize.
  - apply Forall_map, Forall_forall. intros [k v] _. cbn [fst snd].
    repeat split; apply byte_serialize_no; try reflexivity; cbn; intuition discriminate.
Qed.

(** A serialized form is ASCII, so it is text. *)
Lemma byte_serialize_ascii : forall s, Forall (fun b => (bn b < 128)%N) (byte_serialize s).
Proof.
  intros s. unfold byte_serialize. apply Forall_flat_map, Forall_forall. intros b _.
  assert (HB : forallb (fun x => (bn x <? 128)%N)
    (if is_alphanumeric b || beqb b "*" || beqb b "-" || beqb b "." || beqb b "_" then [b]
     else if beqb b " " then ["+"%byte] else percent_encode_byte b) = true) by (destruct b; reflexivity).
  apply Forall_forall. intros x Hx. rewrite forallb_forall in HB. now apply N.ltb_lt, HB.
Qed.

Lemma urlencoded_utf8 : forall l, utf8 (urlencoded_to_string l).
Proof.
  intros l. apply utf8_ascii. unfold urlencoded_to_string.
  assert (HF : forall p : pair, Forall (fun b => (bn b < 128)%N) (byte_serialize (fst p) ++ lit "=" ++ byte_serialize (snd p))).
  { intros p. rewrite !Forall_app. repeat split; try apply byte_serialize_ascii. repeat constructor. }
  induction l as [|p l IH]; [constructor|]. destruct l as [|q l].
  - cbn [map join]. apply HF.
  - change (map ?f (p :: q :: l)) with (f p :: map f (q :: l)) in *. rewrite join_cons by discriminate.
    apply Forall_app. split; [apply HF|]. apply Forall_app. split; [repeat constructor|]. apply IH.
Qed.
