(** Properties C01-C04: percent encoding. *)
From Coq Require Import String.
From Coq Require Import Lia Arith.
From Verif Require Import Bytes Crypto Spec MFmt MPercent MSerializer MRequest MBuilder ModelTests
  SpecFmt SpecCalls SpecAuth SpecForm LBytes LFmt LPercent LFmt2 LTrace LForm LReq.

(** A value that writes its text in three pieces, with bytes of every kind. *)
Definition chunky : disp := dchunks [lit "a &"; [xc3]; [xa9] ++ lit "=~/"].
Definition chunky_text : bytes := lit "a &" ++ [xc3; xa9] ++ lit "=~/".

(** ** C01: the encoded text, for [String]s and for any writer; only the displayed text matters. *)
Theorem C01_percent_encode : forall v, dok v ->
  to_string (PercentEncode v) = Ok (pct_encode (dtext v)).
Proof. intros v H. rewrite to_string_ok by auto using dok_PercentEncode. now rewrite dtext_PercentEncode. Qed.
Print Assumptions C01_percent_encode.

Theorem C01_percent_encode_any_writer : forall (w : Writer) (s s' : w) v, propagates v ->
  write_unwrap (PercentEncode v) s = Ok s' ->
  exists ch, writes_ok s ch s' /\ concat ch = pct_encode (dtext v).
Proof. exact PercentEncode_any. Qed.
Print Assumptions C01_percent_encode_any_writer.

Theorem C01_chunking_irrelevant : forall v v', dok v -> dok v' -> dtext v = dtext v' ->
  to_string (PercentEncode v) = to_string (PercentEncode v').
Proof. intros v v' H H' E. rewrite !C01_percent_encode by auto. now rewrite E. Qed.
Print Assumptions C01_chunking_irrelevant.

(** In a form and in a query (longer ones: C13 and C14). *)
Theorem C01_form_value : forall dbg k v, dok v ->
  to_form (AssertSorted dbg [(k, v)]) = Ok (k ++ lit "=" ++ pct_encode (dtext v)).
Proof.
  intros dbg k v H. apply (to_form_exact _ _ _ (AssertSorted_calls dbg [(k, v)])). split.
  - apply displays_calls_of. repeat constructor. exact H.
  - now rewrite form_fields_calls_of.
Qed.
Print Assumptions C01_form_value.

Theorem C01_query_value : forall dbg uri k v, dok v ->
  to_query uri (AssertSorted dbg [(k, v)]) = Ok (uri ++ lit "?" ++ k ++ lit "=" ++ pct_encode (dtext v)).
Proof.
  intros dbg uri k v H. apply (to_query_exact _ _ _ _ (AssertSorted_calls dbg [(k, v)])). split.
  - apply displays_calls_of. repeat constructor. exact H.
  - now rewrite form_fields_calls_of.
Qed.
Print Assumptions C01_query_value.

Example C01_example : dok chunky /\ propagates chunky /\ dtext chunky = chunky_text
  /\ pct_encode chunky_text = lit "a%20%26%C3%A9%3D~%2F"
  /\ to_string (PercentEncode chunky) = Ok (lit "a%20%26%C3%A9%3D~%2F").
Proof. vm_compute. intuition. Qed.

(** ** C02: decoding gives the value back; injective; alphabet. *)
Theorem C02_decode : forall v s, to_string (PercentEncode v) = Ok s -> pct_decode s = Some (dtext v).
Proof.
  intros v s H. apply to_string_inv in H as [_ ->]. rewrite dtext_PercentEncode. apply pct_decode_encode.
Qed.
Print Assumptions C02_decode.

Theorem C02_injective : forall v v' s,
  to_string (PercentEncode v) = Ok s -> to_string (PercentEncode v') = Ok s -> dtext v = dtext v'.
Proof. intros v v' s H H'. apply C02_decode in H, H'. congruence. Qed.
Print Assumptions C02_injective.

Theorem C02_alphabet : forall v s b,
  to_string (PercentEncode v) = Ok s -> In b s -> unreserved b = true \/ b = "%"%byte.
Proof.
  intros v s b H. apply to_string_inv in H as [_ ->]. rewrite dtext_PercentEncode. apply pct_encode_chars.
Qed.
Print Assumptions C02_alphabet.

(** Text that needs no encoding is left alone, and only that. *)
Theorem C02_fixed_points : forall v, dok v ->
  (to_string (PercentEncode v) = Ok (dtext v) <-> uri_safe (dtext v)).
Proof.
  intros v D. rewrite C01_percent_encode by auto. split.
  - intros H. assert (E : pct_encode (dtext v) = dtext v) by congruence. clear H D.
    assert (HL : forall s, length s <= length (pct_encode s)).
    { induction s as [|b s IH]; [auto|]. rewrite pct_encode_cons, app_length. unfold pct_byte.
      destruct (unreserved b); cbn; lia. }
    revert E. generalize (dtext v). induction b as [|b s IH]; intros E; [intros x []|].
    rewrite pct_encode_cons in E. unfold pct_byte in E. destruct (unreserved b) eqn:U.
    + intros x [<-|Hx]; auto. apply IH; auto. cbn in E. congruence.
    + exfalso. assert (length (["%"%byte; upper_hex (bn b / 16); upper_hex (bn b mod 16)] ++ pct_encode s) = length (b :: s))
        as E' by now rewrite E. cbn in E'. specialize (HL s). lia.
  - intros H. now rewrite pct_encode_safe.
Qed.
Print Assumptions C02_fixed_points.

Example C02_example : to_string (PercentEncode chunky) = Ok (lit "a%20%26%C3%A9%3D~%2F")
  /\ pct_decode (lit "a%20%26%C3%A9%3D~%2F") = Some chunky_text.
Proof. vm_compute. auto. Qed.

(** ** C03: the value that enters the signature is encoded twice. *)
Theorem C03_double_encode : forall v, dok v ->
  to_string (DoublePercentEncode v) = Ok (pct_encode (pct_encode (dtext v))).
Proof. intros v H. rewrite to_string_ok by auto using dok_DoublePercentEncode. now rewrite dtext_DoublePercentEncode. Qed.
Print Assumptions C03_double_encode.

Theorem C03_twice : forall v s, dok v -> to_string (PercentEncode v) = Ok s ->
  to_string (DoublePercentEncode v) = to_string (PercentEncode (dstr s)).
Proof.
  intros v s D H. apply to_string_inv in H as [_ ->]. rewrite C03_double_encode by auto.
  rewrite C01_percent_encode by apply dok_dstr. now rewrite dtext_dstr, dtext_PercentEncode.
Qed.
Print Assumptions C03_twice.

Theorem C03_double_encode_any_writer : forall (w : Writer) (s s' : w) v, propagates v ->
  write_unwrap (DoublePercentEncode v) s = Ok s' ->
  exists ch, writes_ok s ch s' /\ concat ch = pct_encode (pct_encode (dtext v)).
Proof. exact DoublePercentEncode_any. Qed.
Print Assumptions C03_double_encode_any_writer.

(** The table, for every byte. *)
Theorem C03_table : forall b, unreserved b = false -> double_encode_byte b = Ok (pct_encode (pct_byte b)).
Proof.
  intros b H.
  assert (HS : forallb (fun b => unreserved b || match double_encode_byte b with
             Ok t => bseqb t (pct_encode (pct_byte b)) | Panic _ => false end)
             (map (fun n => n2b (N.of_nat n)) (seq 0 256)) = true) by (vm_compute; reflexivity).
  rewrite forallb_forall in HS. assert (HB : In b (map (fun n => n2b (N.of_nat n)) (seq 0 256))).
  { apply in_map_iff. exists (N.to_nat (bn b)). rewrite N2Nat.id. split.
    - apply bn_inj. destruct b; reflexivity.
    - apply in_seq. pose proof (bn_lt_256 b). lia. }
  specialize (HS b HB). rewrite H in HS. cbn [orb] in HS.
  destruct (double_encode_byte b) as [t|]; [|discriminate]. f_equal. now apply bseqb_eq.
Qed.
Print Assumptions C03_table.

(** ... and the bit map that decides which bytes go through the table. *)
Theorem C03_bit_map : forall b, should_percent_encode b = Ok (negb (unreserved b)).
Proof. exact should_encode_unreserved. Qed.
Print Assumptions C03_bit_map.

Example C03_example :
  to_string (DoublePercentEncode chunky) = Ok (lit "a%2520%2526%25C3%25A9%253D~%252F").
Proof. vm_compute. reflexivity. Qed.

(** ** C04: no out-of-range slice and no unchecked conversion of non-ASCII bytes.  In the model
    each of these is a panic of its own, so their absence is the absence of panics. *)
Theorem C04_no_panic : forall v, no_panic v -> no_panic (DoublePercentEncode v).
Proof. exact no_panic_DoublePercentEncode. Qed.
Print Assumptions C04_no_panic.

Theorem C04_no_panic_run : forall (w : Writer) v (s : w), no_panic v ->
  (forall (s : w) c, exists r, write_str s c = Ok r) ->
  exists r, run_disp (DoublePercentEncode v) s = Ok r.
Proof. intros w v s H HW. apply run_no_panic; auto. now apply C04_no_panic. Qed.
Print Assumptions C04_no_panic_run.

(** Every piece handed on is ASCII, for every value whatsoever. *)
Theorem C04_ascii : forall v, all_chunks ascii_text (DoublePercentEncode v).
Proof. exact DoublePercentEncode_ascii. Qed.
Print Assumptions C04_ascii.

Example C04_example : no_panic (dchunks [[xff; x80; x00]; lit "abc"; [xe2]; [x82; xac]])
  /\ to_string (DoublePercentEncode (dchunks [[xff; x80; x00]; lit "abc"; [xe2]; [x82; xac]]))
     = Ok (lit "%25FF%2580%2500abc%25E2%2582%25AC").
Proof. vm_compute. intuition. Qed.
