(** C63, C64, C67: keys, default lists, lengths. *)
From Coq Require Import String.
From Coq Require Import Lia Arith Sorted Permutation.
From Verif Require Import Bytes Crypto Spec MFmt MPercent MSerializer MSign MRequest MCredentials MAuth MBuilder ModelTests
  SpecFmt SpecCalls SpecCalls2 SpecAuth SpecBuild SpecForm SpecServer SpecParams SpecSign
  LBytes LFmt LPercent LTrace LAuth LSign LBuild LForm LBase LBase2 LReq LReq2 LPanic LTop LParams LServer LReveal
  PropsServer PropsPanic.

Fixpoint total (l : list nat) : nat := match l with [] => 0 | n :: l' => n + total l' end.

Lemma total_perm : forall l l', Permutation l l' -> total l = total l'.
Proof. intros l l' P. induction P; cbn [total]; lia. Qed.

Lemma total_eq : forall {A} (g h : A -> nat) l, (forall x, In x l -> g x <= h x) ->
  total (map g l) = total (map h l) -> forall x, In x l -> g x = h x.
Proof.
  intros A g h. induction l as [|a l IH]; intros HL HE x HX; [destruct HX|]. cbn [map total] in HE.
  assert (L1 : g a <= h a) by (apply HL; now left).
  assert (L2 : total (map g l) <= total (map h l)).
  { clear - HL. induction l as [|b l IH]; [cbn; lia|]. cbn [map total]. pose proof (HL b (or_intror (or_introl eq_refl))).
    assert (total (map g l) <= total (map h l)); [apply IH; intros x [->|Hx]; apply HL; cbn; auto|lia]. }
  destruct HX as [->|HX]; [lia|]. apply IH; auto; [intros; apply HL; now right|lia].
Qed.

Lemma join_length : forall sep l, length (join sep l) = total (map (@length byte) l) + pred (length l) * length sep.
Proof.
  intros sep. induction l as [|x l IH]; [reflexivity|]. destruct l as [|y l]; [cbn; lia|].
  change (join sep (x :: y :: l)) with (x ++ sep ++ join sep (y :: l)). rewrite !app_length, IH. cbn [map total length pred]. lia.
Qed.

Lemma encoded_key_safe : forall s, length (pct_encode (pct_encode s)) = length s -> uri_safe s.
Proof.
  intros s H. destruct (pct_encode_longer s) as [L1 L2]. destruct (pct_encode_longer (pct_encode s)) as [L3 _].
  apply L2. lia.
Qed.

(** ** C63 Parameter names are encoded like values *)

(** False: a name goes out as it is.  Then a reader may see other parameters, and different requests
    have the same form. *)
Theorem C63_refuted :
  (exists l out, to_form (AssertSorted true l) = Ok out /\ parse_form out <> Some (texts l))
  /\ exists l l' out, to_form (AssertSorted true l) = Ok out /\ to_form (AssertSorted true l') = Ok out
       /\ parse_form out = Some (texts l) /\ texts l <> texts l'.
Proof.
  split.
  - exists [kvs "a&b" "c"]. eexists. split; [vm_compute; reflexivity|]. vm_compute. discriminate.
  - exists [kvs "a" "1"; kvs "b" "2"], [kvs "a=1&b" "2"]. eexists.
    split; [vm_compute; reflexivity|]. split; [vm_compute; reflexivity|]. split; [vm_compute; reflexivity|]. discriminate.
Qed.
Print Assumptions C63_refuted.

(** A form has encoded names exactly if no name needs encoding, ... *)
Theorem C63_form_partial : forall r cs l out, makes_calls r cs -> carries cs l -> to_form r = Ok out ->
  (out = form_text (map encode_pair l) <-> safe_keys l).
Proof.
  intros r cs l out HM HC H. apply (to_form_exact r cs out HM) in H as [_ ->]. rewrite HC. split.
  - intros E. apply (f_equal (@length byte)) in E. unfold form_text in E. rewrite !join_length, !map_map, !map_length in E.
    assert (ET : total (map (fun p => length (form_pair (enc_value p))) l) = total (map (fun p => length (form_pair (encode_pair p))) l)) by lia.
    assert (HL : forall p, In p l -> length (form_pair (enc_value p)) <= length (form_pair (encode_pair p))).
    { intros p _. unfold form_pair, enc_value, encode_pair. cbn [fst snd]. rewrite !app_length.
      pose proof (proj1 (pct_encode_longer (fst p))). lia. }
    pose proof (total_eq _ _ l HL ET) as HE. unfold safe_keys. apply Forall_forall. intros p Hp. specialize (HE p Hp).
    unfold form_pair, enc_value, encode_pair in HE. cbn [fst snd] in HE. rewrite !app_length in HE.
    apply (proj2 (pct_encode_longer (fst p))). lia.
  - intros HS. f_equal. apply map_ext_in. intros p Hp. unfold safe_keys in HS. rewrite Forall_forall in HS.
    unfold enc_value, encode_pair. now rewrite (pct_encode_safe _ (HS p Hp)).
Qed.
Print Assumptions C63_form_partial.

Lemma signed_lengths : forall cf cs l, Permutation (call_protos cs) all_protos -> carries cs l ->
  Permutation (map enc_value (protocol_pairs cf ++ l)) (signed_fields cf cs).
Proof.
  intros cf cs l HP HC. rewrite signed_perm_gen, map_app. apply Permutation_app; [|now rewrite HC].
  unfold protocol_pairs. rewrite HP.
  replace (map enc_value (flat_map (fun p => match sent cf 0 0 p with Some v => [(proto_key p, v)] | None => [] end) all_protos))
    with (flat_map (fun p => match sent cf 0 0 p with Some v => [(proto_key p, pct_encode v)] | None => [] end) all_protos);
    [reflexivity|].
  generalize all_protos. clear. induction l as [|p ps IH]; [reflexivity|]. cbn [flat_map]. rewrite map_app, IH.
  f_equal. destruct (sent cf 0 0 p); reflexivity.
Qed.

Lemma hashed_length : forall m u fields, length (hashed_text m u fields)
  = length m + 2 + length (pct_encode u)
    + (total (map (fun p => length (fst p) + 3 + length (pct_encode (snd p))) fields) + pred (length fields) * 3).
Proof.
  intros m u fields. unfold hashed_text. rewrite !app_length, join_length, map_map, map_length.
  rewrite (map_ext (fun x => length (fst x ++ lit "%3D" ++ pct_encode (snd x))) (fun p => length (fst p) + 3 + length (pct_encode (snd p)))).
  2:{ intros p. rewrite !app_length. change (length (lit "%3D")) with 3. lia. }
  change (length (lit "%26")) with 3. change (length (lit "&")) with 1.
  match goal with |- ?a + (1 + (?b + (1 + (?t + ?x)))) = _ => change (a + (1 + (b + (1 + (t + x)))) = a + 2 + b + (t + x)); lia end.
Qed.

Lemma pct_encode_app : forall a b, pct_encode (a ++ b) = pct_encode a ++ pct_encode b.
Proof. intros. unfold pct_encode. apply flat_map_app. Qed.

Lemma base_length : forall m u l, normal_method m -> length (base_string m u l)
  = length m + 2 + length (pct_encode u)
    + (total (map (fun p => length (pct_encode (pct_encode (fst p))) + 3 + length (pct_encode (pct_encode (snd p)))) l) + pred (length l) * 3).
Proof.
  intros m u l HM. unfold base_string, normalize. rewrite HM, pct_encode_join, !app_length, join_length, !map_map, !map_length.
  rewrite (total_perm (map (fun x => length (pct_encode (fst x ++ lit "=" ++ snd x))) (sort_pairs (map encode_pair l)))
    (map (fun x => length (pct_encode (fst x ++ lit "=" ++ snd x))) (map encode_pair l))).
  2:{ apply Permutation_map, Permutation_sym, sort_perm. }
  rewrite map_map.
  rewrite (map_ext (fun x => length (pct_encode (fst (encode_pair x) ++ lit "=" ++ snd (encode_pair x))))
    (fun p => length (pct_encode (pct_encode (fst p))) + 3 + length (pct_encode (pct_encode (snd p))))).
  2:{ intros p. rewrite !pct_encode_app, !app_length. change (length (pct_encode (lit "="))) with 3. cbn [encode_pair fst snd]. lia. }
  assert (EL : length (sort_pairs (map encode_pair l)) = length l).
  { rewrite <- (Permutation_length (sort_perm (map encode_pair l))). apply map_length. }
  change (length (lit "%26")) with 3. change (length (lit "&")) with 1.
  match goal with |- ?a + (1 + (?b + (1 + (?t + ?x)))) = _ =>
    transitivity (a + 2 + b + (t + x)); [lia|change (a + 2 + b + (t + x) = a + 2 + b + (t + pred (length l) * 3))] end.
  do 4 f_equal. exact EL.
Qed.

(** ... and the signed text is the base string of RFC 5849 exactly if, besides, repeated names are in
    its order (C12). *)
Theorem C63_signed_partial : forall c e b name r cs l method uri out,
  bd_signature_method b = Reveal name -> uri_safe name -> normal_method method ->
  makes_calls r cs -> Permutation (call_protos cs) all_protos -> ascending (map call_key cs) ->
  carries cs l -> no_oauth_keys l ->
  Builder_authorize c e b method uri r = Ok out ->
  (out = header_text (wire_fields (conf_of name e b) (call_protos cs))
           (pct_encode (base_string method (dtext uri) (protocol_pairs (conf_of name e b) ++ l)))
   <-> safe_keys l /\ rfc_sorted l).
Proof.
  intros c e b name r cs l method uri out HB HN HM M P A C O H. split.
  - intros E. assert (S : safe_keys l).
    { apply (reveal_authorize c e b name r cs method uri out HB HN M P) in H as [_ [_ EO]]. rewrite EO in E.
      unfold header_text in E. apply app_inv_head, app_inv_head, app_inv_head, app_inv_tail in E.
      apply pct_encode_inj in E. apply (f_equal (@length byte)) in E. rewrite hashed_length, base_length in E by exact HM.
      pose proof (signed_lengths (conf_of name e b) cs l P C) as PS.
      rewrite (total_perm _ _ (Permutation_map (fun p => length (fst p) + 3 + length (pct_encode (snd p))) (Permutation_sym PS))) in E.
      rewrite <- (Permutation_length PS), map_length, map_map in E.
      set (ps := protocol_pairs (conf_of name e b) ++ l) in *.
      assert (ET : total (map (fun x => length (fst (enc_value x)) + 3 + length (pct_encode (snd (enc_value x)))) ps)
        = total (map (fun p => length (pct_encode (pct_encode (fst p))) + 3 + length (pct_encode (pct_encode (snd p)))) ps)).
      { match type of E with ?a + (?t + ?x) = _ + (?t' + _) =>
          change (a + (t + x) = a + (t' + x)) in E; assert (E' : t = t') by lia; exact E' end. }
      apply Forall_forall. intros p Hp. apply encoded_key_safe.
      assert (HP : In p ps) by (apply in_app_iff; now right).
      assert (HL : forall q, In q ps -> length (fst (enc_value q)) + 3 + length (pct_encode (snd (enc_value q)))
        <= length (pct_encode (pct_encode (fst q))) + 3 + length (pct_encode (pct_encode (snd q)))).
      { intros q _. cbn [enc_value fst snd]. pose proof (proj1 (pct_encode_longer (fst q))).
        pose proof (proj1 (pct_encode_longer (pct_encode (fst q)))). lia. }
      pose proof (total_eq _ _ ps HL ET p HP) as EP. cbn [enc_value fst snd] in EP. lia. }
    split; auto. now apply (C17_order_exact c e b name r cs l method uri out HB HN HM M P A C S O H).
  - intros [S R]. now apply (C17_order_exact c e b name r cs l method uri out HB HN HM M P A C S O H).
Qed.
Print Assumptions C63_signed_partial.

Example C63_example : carries (calls_of [kvs "a b" "1"; kvs "c" "2"]) [(lit "a b", lit "1"); (lit "c", lit "2")]
  /\ to_form (AssertSorted true [kvs "a b" "1"; kvs "c" "2"]) = Ok (lit "a b=1&c=2")
  /\ form_text (map encode_pair [(lit "a b", lit "1"); (lit "c", lit "2")]) = lit "a%20b=1&c=2".
Proof. repeat split. Qed.

(** ** C64 The default list is sorted *)

(** False: [Default] does not sort, so with an unsorted default container the order check fires when
    the "sorted" list is used. *)
Theorem C64_refuted : exists d b, ~ kv_sorted (pl_default d)
  /\ Builder_authorize dbg_std env0 b (lit "GET") (s2d "http://h/") (Request_pl true (pl_default d)) = Panic PDictOrder.
Proof.
  exists [kvs "b" ""; kvs "a" ""], doc_builder. split.
  - intros H. apply pl_is_sorted_spec in H. vm_compute in H. discriminate.
  - refine (proj2 (proj1 (C34_assert_sorted dbg_std env0 doc_builder _ _ _ _ true _ _ (bi_hmac) _ _ _ _ _ _ _)) _); try reflexivity.
    + left. reflexivity.
    + intros H. vm_compute in H. intuition discriminate.
    + repeat constructor.
    + discriminate.
    + intros H. inversion H as [|x y _ HF]. inversion HF as [|z w HB]. vm_compute in HB. congruence.
Qed.
Print Assumptions C64_refuted.

(** With a built-in method it does so exactly if the keys of the default container are out of order;
    never for an empty default. *)
Theorem C64_partial : forall c e b name strict f d dbg method uri,
  builtin (bd_signature_method b) name strict f -> timestamp_available c (conf_of name e b) ->
  cf_debug c = true -> cf_alloc c = true -> dok uri -> ~ has_question (dtext uri) ->
  Forall (fun p => dok (snd p)) d -> (forall text, f (client_secret b) (token_secret b) text <> None) ->
  ((exists out, Builder_authorize c e b method uri (Request_pl dbg (pl_default d)) = Ok out) <-> ascending (map fst d))
  /\ kv_sorted (pl_default []).
Proof.
  intros. split; [|constructor]. unfold pl_default, Request_pl. eapply C34_assert_sorted; eauto.
Qed.
Print Assumptions C64_partial.

Example C64_example : ascending (map fst [kvs "a" "2"; kvs "a" "1"; kvs "b" ""]) /\ ~ ascending (map fst [kvs "b" ""; kvs "a" ""])
  /\ match Builder_authorize dbg_std env0 doc_builder (lit "GET") (s2d "http://h/") (Request_pl true (pl_default [kvs "a" "2"; kvs "a" "1"; kvs "b" ""])) with
     | Ok _ => true
     | Panic _ => false
     end = true.
Proof.
  split; [repeat (constructor; [|repeat constructor; vm_compute; reflexivity]); constructor|]. split; [|vm_compute; reflexivity].
  intros H. inversion H as [|x y _ HF]. inversion HF as [|z w HB]. vm_compute in HB. congruence.
Qed.

(** ** C67 Sizes *)

Lemma pct_encode_bound : forall s, length (pct_encode s) <= 3 * length s.
Proof.
  induction s as [|b s IH]; [cbn; lia|]. change (pct_encode (b :: s)) with (pct_byte b ++ pct_encode s).
  rewrite app_length, pct_byte_length. cbn [length]. destruct (unreserved b); lia.
Qed.

Lemma twice_bound : forall s, length (pct_encode (pct_encode s)) <= 5 * length s.
Proof.
  induction s as [|b s IH]; [cbn; lia|]. change (pct_encode (b :: s)) with (pct_byte b ++ pct_encode s).
  rewrite pct_encode_app, app_length. assert (length (pct_encode (pct_byte b)) <= 5); [|cbn [length]; lia].
  apply Nat.leb_le. destruct b; vm_compute; reflexivity.
Qed.

Theorem C67_values : forall d, dok d ->
  (length (dtext (PercentEncode d)) <= 3 * length (dtext d))
  /\ (length (dtext (DoublePercentEncode d)) <= 5 * length (dtext d)).
Proof.
  intros d HD. rewrite dtext_PercentEncode, dtext_DoublePercentEncode by exact HD.
  split; [apply pct_encode_bound|apply twice_bound].
Qed.
Print Assumptions C67_values.

Theorem C67_form : forall r cs l out, makes_calls r cs -> carries cs l -> to_form r = Ok out ->
  length out = total (map (fun p => length (fst p) + 1 + length (pct_encode (snd p))) l) + pred (length l)
  /\ length out <= total (map (fun p => length (fst p) + 3 * length (snd p) + 2) l).
Proof.
  intros r cs l out HM HC H. apply (to_form_exact r cs out HM) in H as [_ ->]. rewrite HC.
  assert (E : length (form_text (map enc_value l))
    = total (map (fun p => length (fst p) + 1 + length (pct_encode (snd p))) l) + pred (length l)).
  { unfold form_text. rewrite join_length, !map_map, !map_length. change (length (lit "&")) with 1.
    rewrite (map_ext (fun x => length (form_pair (enc_value x))) (fun p => length (fst p) + 1 + length (pct_encode (snd p)))); [f_equal; apply Nat.mul_1_r|].
    intros [k v]. unfold form_pair, enc_value. cbn [fst snd]. rewrite !app_length. change (length (lit "=")) with 1. apply Nat.add_assoc. }
  split; [exact E|]. rewrite E. clear. induction l as [|p l IH]; [cbn; lia|]. cbn [map total length pred].
  destruct p as [k v]. cbn [fst snd] in *. pose proof (pct_encode_bound v) as HP.
  destruct l as [|q l]; cbn [map total length pred] in *; lia.
Qed.
Print Assumptions C67_form.

Example C67_example : length (pct_encode (pct_encode (lit " &"))) = 5 * length (lit " &")
  /\ to_form (AssertSorted true [kvs "k" " &"]) = Ok (lit "k=%20%26").
Proof. split; reflexivity. Qed.
