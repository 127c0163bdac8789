(** Percent encoding: the model computes the RFC 5849 encoding. *)
From Coq Require Import String.
From Coq Require Import Lia Arith.
From Verif Require Import Bytes Crypto Spec MFmt MPercent LBytes LFmt.

(** ** Facts about single bytes, by case analysis on all 256 of them *)

Lemma should_encode_unreserved : forall b, should_percent_encode b = Ok (negb (unreserved b)).
Proof. intros b; destruct b; vm_compute; reflexivity. Qed.

Lemma lib_should_encode_unreserved : forall b, lib_should_encode b = negb (unreserved b).
Proof. intros b; destruct b; vm_compute; reflexivity. Qed.

Lemma hex_upper_spec : forall n, hex_upper n = upper_hex n.
Proof. reflexivity. Qed.

Lemma percent_encode_byte_spec : forall b,
  percent_encode_byte b = ["%"%byte; upper_hex (bn b / 16); upper_hex (bn b mod 16)].
Proof. reflexivity. Qed.

Lemma double_encode_byte_spec : forall b,
  unreserved b = false -> double_encode_byte b = Ok (pct_encode (pct_byte b)).
Proof. intros b; destruct b; vm_compute; intros H; try reflexivity; discriminate. Qed.

Lemma unreserved_ascii : forall b, unreserved b = true -> is_ascii b = true.
Proof. intros b; destruct b; vm_compute; congruence. Qed.

Lemma pct_byte_unreserved : forall b, unreserved b = true -> pct_byte b = [b].
Proof. intros b H. unfold pct_byte. now rewrite H. Qed.

Lemma pct_byte_chars_b : forall b,
  forallb (fun x => unreserved x || beqb x "%") (pct_byte b) = true.
Proof. intros b; destruct b; vm_compute; reflexivity. Qed.

Lemma pct_byte_chars : forall b x, In x (pct_byte b) -> unreserved x = true \/ x = "%"%byte.
Proof.
  intros b x H. pose proof (pct_byte_chars_b b) as HF. rewrite forallb_forall in HF.
  specialize (HF x H). apply orb_true_iff in HF as [HF|HF]; auto. right. now apply beqb_eq.
Qed.

Lemma unreserved_not_percent : forall b, unreserved b = true -> beqb b "%" = false.
Proof. intros b; destruct b; vm_compute; congruence. Qed.

Lemma unhex_upper_hex : forall b,
  unhex (upper_hex (bn b / 16)) = Some (bn b / 16)%N /\
  unhex (upper_hex (bn b mod 16)) = Some (bn b mod 16)%N.
Proof. intros b; destruct b; vm_compute; split; reflexivity. Qed.

Lemma n2b_div_mod : forall b, n2b (bn b / 16 * 16 + bn b mod 16) = b.
Proof. intros b; destruct b; vm_compute; reflexivity. Qed.

Lemma pct_decode_byte : forall b s,
  pct_decode (pct_byte b ++ s) = option_map (cons b) (pct_decode s).
Proof.
  intros b s. unfold pct_byte. destruct (unreserved b) eqn:E.
  - cbn [app pct_decode]. now rewrite unreserved_not_percent.
  - cbn [app pct_decode]. rewrite beqb_refl. destruct (unhex_upper_hex b) as [-> ->].
    rewrite n2b_div_mod. destruct (pct_decode s); reflexivity.
Qed.

(** ** [pct_encode] *)

Lemma pct_encode_app : forall a b, pct_encode (a ++ b) = pct_encode a ++ pct_encode b.
Proof. intros. apply flat_map_app. Qed.

Lemma pct_encode_cons : forall a b, pct_encode (a :: b) = pct_byte a ++ pct_encode b.
Proof. reflexivity. Qed.

Lemma pct_encode_safe : forall s, uri_safe s -> pct_encode s = s.
Proof.
  induction s; intros H; auto. rewrite pct_encode_cons, pct_byte_unreserved by (apply H; now left).
  simpl. f_equal. apply IHs. intros b Hb. apply H. now right.
Qed.

Lemma pct_decode_encode_app : forall s t,
  pct_decode (pct_encode s ++ t) = option_map (app s) (pct_decode t).
Proof.
  induction s; intros t; [simpl; now destruct (pct_decode t)|].
  rewrite pct_encode_cons, <- app_assoc, pct_decode_byte, IHs. destruct (pct_decode t); reflexivity.
Qed.

Lemma pct_decode_encode : forall s, pct_decode (pct_encode s) = Some s.
Proof.
  intros s. pose proof (pct_decode_encode_app s []) as H. rewrite app_nil_r in H.
  rewrite H. simpl. now rewrite app_nil_r.
Qed.

Lemma pct_encode_inj : forall a b, pct_encode a = pct_encode b -> a = b.
Proof.
  intros a b H. assert (Some a = Some b) by (rewrite <- !pct_decode_encode; congruence). congruence.
Qed.

Lemma pct_encode_chars : forall s x, In x (pct_encode s) -> unreserved x = true \/ x = "%"%byte.
Proof.
  intros s x H. unfold pct_encode in H. apply in_flat_map in H as [b [_ H]].
  eapply pct_byte_chars; eauto.
Qed.

(** ** The encoder of the [percent-encoding] crate *)

Lemma span_plain_spec : forall l p r,
  span_plain l = (p, r) ->
  l = p ++ r /\ uri_safe p /\ length r <= length l /\
  match r with [] => True | b :: _ => unreserved b = false end.
Proof.
  induction l as [|b l IH]; simpl; intros p r H.
  - inversion H; subst. repeat split; auto. intros x [].
  - rewrite lib_should_encode_unreserved in H. destruct (unreserved b) eqn:E; simpl in H.
    + destruct (span_plain l) as [p' r'] eqn:E2. inversion H; subst.
      destruct (IH p' r eq_refl) as [H1 [H2 [H3 H4]]]. subst. simpl in *.
      repeat split; auto.
      intros x [<-|Hx]; auto.
    + inversion H; subst. repeat split; auto. intros x [].
Qed.

Lemma pe_chunks_spec : forall fuel l, length l <= fuel -> concat (pe_chunks fuel l) = pct_encode l.
Proof.
  induction fuel; intros l H.
  - destruct l; simpl in *; auto; lia.
  - destruct l as [|b l]; simpl; auto.
    rewrite lib_should_encode_unreserved. simpl in H.
    destruct (unreserved b) eqn:E; simpl.
    + destruct (span_plain l) as [p r] eqn:E2. apply span_plain_spec in E2 as [-> [H2 [H3 _]]].
      simpl. rewrite IHfuel by lia. rewrite pct_encode_app, (pct_encode_safe p) by auto.
      unfold pct_byte. rewrite E. reflexivity.
    + rewrite IHfuel by lia. unfold pct_byte. rewrite E. reflexivity.
Qed.

Lemma dtext_percent_encode : forall s, dtext (percent_encode s) = pct_encode s.
Proof. intros. unfold percent_encode. rewrite dtext_dchunks. apply pe_chunks_spec. lia. Qed.

Lemma dok_percent_encode : forall s, dok (percent_encode s).
Proof. intros. apply dok_dchunks. Qed.

Lemma propagates_percent_encode : forall s, propagates (percent_encode s).
Proof. intros. apply propagates_dchunks. Qed.

(** ** [PercentEncode] *)

Lemma dfinal_PercentEncode : forall d, dfinal (PercentEncode d) = dfinal d.
Proof.
  induction d as [b|p|c k IH]; simpl; auto.
  rewrite dfinal_dbind. rewrite (dok_percent_encode c). apply IH.
Qed.

Lemma dtext_PercentEncode : forall d, dtext (PercentEncode d) = pct_encode (dtext d).
Proof.
  induction d as [b|p|c k IH]; simpl; auto.
  rewrite dtext_dbind, (dok_percent_encode c), dtext_percent_encode, IH.
  now rewrite pct_encode_app.
Qed.

Lemma dok_PercentEncode : forall d, dok d -> dok (PercentEncode d).
Proof. unfold dok. intros. now rewrite dfinal_PercentEncode. Qed.

(** ** [DoublePercentEncode] *)

Lemma find_encode_spec : forall l i,
  (find_encode i l = Ok None /\ uri_safe l) \/
  exists run b rest, l = run ++ b :: rest /\ uri_safe run /\ unreserved b = false /\
                     find_encode i l = Ok (Some (i + length run, b)).
Proof.
  induction l as [|x l IH]; intros i; simpl.
  - left. split; auto. intros b [].
  - rewrite should_encode_unreserved. simpl. destruct (unreserved x) eqn:E; simpl.
    + destruct (IH (S i)) as [[H1 H2]|[run [b [rest [H1 [H2 [H3 H4]]]]]]].
      * left. split; auto. intros b [<-|Hb]; auto.
      * right. exists (x :: run), b, rest. subst. repeat split; auto.
        -- intros y [<-|Hy]; auto.
        -- rewrite H4. simpl. do 3 f_equal. lia.
    + right. exists [], x, l. repeat split; auto.
      * intros b [].
      * simpl. now rewrite Nat.add_0_r.
Qed.

Lemma slice_prefix : forall a b, slice (a ++ b) 0 (length a) = Ok a.
Proof.
  intros. unfold slice. rewrite app_length.
  replace (length a <=? length a + length b) with true by (symmetry; apply Nat.leb_le; lia).
  cbn [Nat.leb andb]. rewrite Nat.sub_0_r. change (skipn 0 (a ++ b)) with (a ++ b).
  rewrite firstn_app, firstn_all, Nat.sub_diag. simpl. now rewrite app_nil_r.
Qed.

Lemma slice_suffix : forall a b, slice (a ++ b) (length a) (length (a ++ b)) = Ok b.
Proof.
  intros. unfold slice. rewrite app_length.
  replace (length a <=? length a + length b) with true by (symmetry; apply Nat.leb_le; lia).
  rewrite Nat.leb_refl. cbn [andb].
  rewrite skipn_app, skipn_all, Nat.sub_diag. cbn [app skipn].
  rewrite firstn_all2; auto. lia.
Qed.

Lemma from_utf8_safe : forall s, uri_safe s -> from_utf8_unchecked s = Ok s.
Proof.
  intros s H. unfold from_utf8_unchecked.
  replace (forallb is_ascii s) with true; auto. symmetry. apply forallb_forall.
  intros x Hx. apply unreserved_ascii. auto.
Qed.

(** The loop never hits an error state; it writes the doubly encoded text. *)
Lemma dpe_write_fuel : forall fuel s, length s <= fuel ->
  dok (dpe_write fuel s) /\ dtext (dpe_write fuel s) = pct_encode (pct_encode s)
  /\ propagates (dpe_write fuel s) /\ no_panic (dpe_write fuel s).
Proof.
  induction fuel; intros s H.
  - destruct s; simpl in H; [|lia]. repeat split.
  - destruct s as [|b rem]; [repeat split|]. simpl in H.
    cbn [dpe_write]. rewrite should_encode_unreserved.
    destruct (unreserved b) eqn:E; simpl negb; cbn [dlift].
    + destruct (find_encode_spec rem 1) as [[H1 H2]|[run [b' [rest [H1 [H2 [H3 H4]]]]]]].
      * rewrite H1. cbn [dlift]. rewrite from_utf8_safe by (intros x [<-|Hx]; auto). cbn [dlift].
        assert (HS : uri_safe (b :: rem)) by (intros x [<-|Hx]; auto).
        rewrite (pct_encode_safe _ HS), (pct_encode_safe _ HS), dtext_dstr.
        split; [|split; [|split]]; auto using dok_dstr, propagates_dstr, no_panic_dstr.
      * subst rem. rewrite H4. cbn [dlift].
        replace (slice (b :: run ++ b' :: rest) (1 + length run + 1) (length (b :: run ++ b' :: rest)))
          with (Ok rest).
        2:{ replace (b :: run ++ b' :: rest) with ((b :: run ++ [b']) ++ rest)
              by (simpl; now rewrite <- app_assoc).
            replace (1 + length run + 1) with (length (b :: run ++ [b']))
              by (simpl; rewrite app_length; simpl; lia).
            symmetry. apply slice_suffix. }
        replace (slice (b :: run ++ b' :: rest) 0 (1 + length run)) with (Ok (b :: run)).
        2:{ symmetry. apply (slice_prefix (b :: run)). }
        cbn [dlift].
        rewrite from_utf8_safe by (intros x [<-|Hx]; auto). cbn [dlift].
        rewrite double_encode_byte_spec by auto. cbn [dlift].
        simpl in H. rewrite app_length in H. simpl in H.
        assert (T : pct_encode (pct_encode (b :: run ++ b' :: rest))
                    = (b :: run) ++ pct_encode (pct_byte b') ++ pct_encode (pct_encode rest)).
        { change (b :: run ++ b' :: rest) with ((b :: run) ++ b' :: rest).
          rewrite pct_encode_app, (pct_encode_cons b' rest), !pct_encode_app.
          assert (HS : uri_safe (b :: run)) by (intros x [<-|Hx]; auto).
          rewrite (pct_encode_safe _ HS), (pct_encode_safe _ HS). reflexivity. }
        destruct (IHfuel rest ltac:(lia)) as [HA [HB [HC HD]]]. rewrite T, <- HB.
        split; [|split; [|split]].
        -- auto using dok_dseq, dok_dstr.
        -- rewrite !dtext_dseq, !dtext_dstr by auto using dok_dstr. reflexivity.
        -- auto using propagates_dseq, propagates_dstr.
        -- apply no_panic_dseq; auto using no_panic_dstr, no_panic_dseq.
    + rewrite double_encode_byte_spec by auto. cbn [dlift].
      assert (T : pct_encode (pct_encode (b :: rem))
                  = pct_encode (pct_byte b) ++ pct_encode (pct_encode rem)).
      { rewrite pct_encode_cons. now rewrite pct_encode_app. }
      destruct (IHfuel rem ltac:(lia)) as [HA [HB [HC HD]]]. rewrite T, <- HB.
      split; [|split; [|split]].
      * auto using dok_dseq, dok_dstr.
      * rewrite !dtext_dseq, !dtext_dstr by auto using dok_dstr. reflexivity.
      * auto using propagates_dseq, propagates_dstr.
      * apply no_panic_dseq; auto using no_panic_dstr.
Qed.

Lemma dpe_write_spec : forall s,
  dok (dpe_write (length s) s) /\ dtext (dpe_write (length s) s) = pct_encode (pct_encode s)
  /\ propagates (dpe_write (length s) s) /\ no_panic (dpe_write (length s) s).
Proof. intros s. now apply dpe_write_fuel. Qed.

Lemma dfinal_DoublePercentEncode : forall d, dfinal (DoublePercentEncode d) = dfinal d.
Proof.
  induction d as [b|p|c k IH]; simpl; auto.
  destruct (dpe_write_spec c) as [H _]. unfold dok in H. rewrite dfinal_dbind, H. apply IH.
Qed.

Lemma dok_DoublePercentEncode : forall d, dok d -> dok (DoublePercentEncode d).
Proof. unfold dok. intros. now rewrite dfinal_DoublePercentEncode. Qed.

Lemma dtext_DoublePercentEncode : forall d,
  dtext (DoublePercentEncode d) = pct_encode (pct_encode (dtext d)).
Proof.
  induction d as [b|p|c k IH]; simpl; auto.
  destruct (dpe_write_spec c) as [H [H2 _]]. unfold dok in H.
  rewrite dtext_dbind, H, H2, IH. now rewrite !pct_encode_app.
Qed.

(** ** Error propagation and absence of panics are preserved *)

Lemma always_err_PercentEncode : forall d, always_err d -> always_err (PercentEncode d).
Proof.
  induction d as [b|p|c k IH]; simpl; auto. intros [H1 H2].
  apply always_err_dbind_all. intros [|]; auto.
Qed.

Lemma propagates_PercentEncode : forall d, propagates d -> propagates (PercentEncode d).
Proof.
  induction d as [b|p|c k IH]; simpl; auto. intros [H1 H2].
  apply propagates_dbind; auto using propagates_percent_encode, always_err_PercentEncode.
  intros [|]; auto using always_err_PercentEncode, always_err_propagates.
Qed.

Lemma no_panic_PercentEncode : forall d, no_panic d -> no_panic (PercentEncode d).
Proof.
  induction d as [b|p|c k IH]; simpl; auto. intros [H1 H2].
  apply no_panic_dbind; [apply no_panic_dchunks|]. intros [|]; auto.
Qed.

Lemma always_err_DoublePercentEncode : forall d, always_err d -> always_err (DoublePercentEncode d).
Proof.
  induction d as [b|p|c k IH]; simpl; auto. intros [H1 H2].
  apply always_err_dbind_all. intros [|]; auto.
Qed.

Lemma propagates_DoublePercentEncode : forall d, propagates d -> propagates (DoublePercentEncode d).
Proof.
  induction d as [b|p|c k IH]; simpl; auto. intros [H1 H2].
  destruct (dpe_write_spec c) as [_ [_ [H3 _]]].
  apply propagates_dbind; auto using always_err_DoublePercentEncode.
  intros [|]; auto using always_err_DoublePercentEncode, always_err_propagates.
Qed.

Lemma no_panic_DoublePercentEncode : forall d, no_panic d -> no_panic (DoublePercentEncode d).
Proof.
  induction d as [b|p|c k IH]; simpl; auto. intros [H1 H2].
  destruct (dpe_write_spec c) as [_ [_ [_ H3]]].
  apply no_panic_dbind; auto. intros [|]; auto.
Qed.
