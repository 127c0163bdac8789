(** Properties C09-C12 (and C06 for parameter lists): [ParameterList]. *)
From Coq Require Import String.
From Coq Require Import Lia Arith Sorted Permutation.
From Verif Require Import Bytes Crypto Spec MFmt MPercent MSerializer MSign MRequest MCredentials MAuth MBuilder ModelTests
  SpecFmt SpecCalls SpecCalls2 SpecAuth SpecBuild SpecForm SpecParams
  LBytes LFmt LPercent LTrace LAuth LSign LBuild LForm LBase LReq LReq2 LPanic LTop LParams.

(** ** C09 *)

(** The comparison function is a total order, so the promise of the sort applies. *)
Theorem C09_total_order : total_order pl_cmp.
Proof. exact pl_cmp_total. Qed.
Print Assumptions C09_total_order.

Theorem C09_sorted : forall sort l p, conforming sort -> history sort l p -> kv_sorted p /\ Permutation p l.
Proof. exact history_sorted. Qed.
Print Assumptions C09_sorted.

(** A call that hands over a parameter of the request. *)
Definition not_protocol (c : call) : bool := match c with CProto _ => false | _ => true end.

Lemma pairs_called : forall l ps,
  filter not_protocol (merge_calls ps l) = map (fun q => CParam (fst q) (snd q)) l.
Proof.
  assert (HP : forall ps, filter not_protocol (map CProto ps) = []) by (induction ps; simpl; auto).
  induction l as [|[k v] l IH]; intros ps; [apply HP|]. cbn [merge_calls map fst snd].
  rewrite filter_app, HP. cbn [app filter not_protocol]. now rewrite IH.
Qed.

(** However the list is looked at, it shows these pairs in this order, and it serializes them so. *)
Theorem C09_views : forall sort l p, conforming sort -> history sort l p ->
  Forall (fun shown => kv_sorted shown /\ Permutation shown l) [pl_iter p; pl_into_inner p; pl_as_ref p]
  /\ pl_into_inner p = pl_iter p /\ pl_as_ref p = pl_iter p
  /\ forall dbg cs, makes_calls (Request_pl dbg p) cs ->
       filter not_protocol cs = map (fun q => CParam (fst q) (snd q)) (pl_iter p).
Proof.
  intros sort l p HC HH. pose proof (history_sorted sort l p HC HH) as H. split; [repeat constructor; apply H|].
  split; [reflexivity|]. split; [reflexivity|]. intros dbg cs HM.
  rewrite (makes_calls_unique _ _ _ HM (AssertSorted_calls dbg p)). apply pairs_called.
Qed.
Print Assumptions C09_views.

(** The promise can be kept. *)
Theorem C09_sort_exists : conforming insertion_sort.
Proof. exact insertion_conforming. Qed.
Print Assumptions C09_sort_exists.

Definition mixed : list kv := [kvs "z" "1"; kvs "a" "2"; kvs "a" "1"].
Example C09_example :
  history insertion_sort (mixed ++ [kvs "b" "3"; kvs "a" "0"])
    (pl_extend insertion_sort (pl_new insertion_sort mixed) [kvs "b" "3"; kvs "a" "0"])
  /\ pl_extend insertion_sort (pl_new insertion_sort mixed) [kvs "b" "3"; kvs "a" "0"]
     = [kvs "a" "0"; kvs "a" "1"; kvs "a" "2"; kvs "b" "3"; kvs "z" "1"].
Proof. split; [apply hi_extend, hi_new|reflexivity]. Qed.

(** ** C06 for parameter lists: always in order *)
Theorem C06_parameter_list : forall sort l p dbg cs, conforming sort -> history sort l p ->
  makes_calls (Request_pl dbg p) cs -> ascending (map call_key cs).
Proof.
  intros sort l p dbg cs HC HH HM. destruct (history_sorted sort l p HC HH) as [HS _].
  rewrite (makes_calls_unique _ _ _ HM (AssertSorted_calls dbg p)). now apply calls_of_ascending, sorted_map_fst.
Qed.
Print Assumptions C06_parameter_list.

(** ** C10 *)
Theorem C10_from_sorted : forall l p, pl_from_sorted l = Some p <-> p = l /\ kv_sorted l.
Proof.
  intros l p. unfold pl_from_sorted. rewrite <- pl_is_sorted_spec. destruct (pl_is_sorted l).
  - split; [intros H; inversion H; auto|]. intros [-> _]. reflexivity.
  - split; [discriminate|]. intros [_ H]. discriminate.
Qed.
Print Assumptions C10_from_sorted.

Theorem C10_rejects : forall l, pl_from_sorted l = None <-> ~ kv_sorted l.
Proof.
  intros l. unfold pl_from_sorted. rewrite <- pl_is_sorted_spec. destruct (pl_is_sorted l); split; congruence.
Qed.
Print Assumptions C10_rejects.

Theorem C10_short : forall l, length l <= 1 -> pl_from_sorted l = Some l.
Proof. intros [|a [|b l]] H; auto. cbn in H. lia. Qed.
Print Assumptions C10_short.

Example C10_example : pl_from_sorted [kvs "a" "1"; kvs "a" "1"; kvs "a" "2"; kvs "b" ""]
    = Some [kvs "a" "1"; kvs "a" "1"; kvs "a" "2"; kvs "b" ""]
  /\ pl_from_sorted mixed = None /\ pl_from_sorted [kvs "a" "2"; kvs "a" "1"] = None.
Proof. repeat split. Qed.

(** ** C11 *)

(** The keys and displayed values do not depend on the order of supply, nor on the sort used. *)
Theorem C11_texts : forall sort sort' l l' p p', conforming sort -> conforming sort' ->
  history sort l p -> history sort' l' p' -> Permutation l l' -> texts p = texts p'.
Proof.
  intros sort sort' l l' p p' HC HC' H H' HP.
  destruct (history_sorted _ _ _ HC H) as [S P], (history_sorted _ _ _ HC' H') as [S' P'].
  apply sorted_texts_unique; auto. now rewrite P, P'.
Qed.
Print Assumptions C11_texts.

Lemma histories_same : forall sort sort' l l' p p', conforming sort -> conforming sort' ->
  history sort l p -> history sort' l' p' -> Permutation l l' -> shown_ok l ->
  same_calls (calls_of p) (calls_of p').
Proof.
  intros sort sort' l l' p p' HC HC' H H' HP D.
  destruct (history_sorted _ _ _ HC H) as [S P], (history_sorted _ _ _ HC' H') as [S' P'].
  apply calls_of_same, texts_same.
  - apply (shown_ok_perm l p); auto. now apply Permutation_sym.
  - apply (shown_ok_perm l p'); auto. rewrite P'. exact HP.
  - exact (C11_texts _ _ _ _ _ _ HC HC' H H' HP).
Qed.

Theorem C11_form : forall sort sort' l l' p p' dbg out, conforming sort -> conforming sort' ->
  history sort l p -> history sort' l' p' -> Permutation l l' -> shown_ok l ->
  (to_form (Request_pl dbg p) = Ok out <-> to_form (Request_pl dbg p') = Ok out).
Proof.
  intros sort sort' l l' p p' dbg out HC HC' H H' HP D. apply (same_to_form _ _ _ _ out (AssertSorted_calls dbg p) (AssertSorted_calls dbg p')).
  exact (histories_same _ _ _ _ _ _ HC HC' H H' HP D).
Qed.
Print Assumptions C11_form.

Theorem C11_query : forall sort sort' l l' p p' dbg uri out, conforming sort -> conforming sort' ->
  history sort l p -> history sort' l' p' -> Permutation l l' -> shown_ok l ->
  (to_query uri (Request_pl dbg p) = Ok out <-> to_query uri (Request_pl dbg p') = Ok out).
Proof.
  intros sort sort' l l' p p' dbg uri out HC HC' H H' HP D. apply (same_to_query _ _ _ _ uri out (AssertSorted_calls dbg p) (AssertSorted_calls dbg p')).
  exact (histories_same _ _ _ _ _ _ HC HC' H H' HP D).
Qed.
Print Assumptions C11_query.

Theorem C11_authorize : forall sort sort' l l' p p' c e b name strict f method uri out,
  conforming sort -> conforming sort' ->
  history sort l p -> history sort' l' p' -> Permutation l l' -> shown_ok l ->
  builtin (bd_signature_method b) name strict f ->
  (Builder_authorize c e b method uri (Request_pl (cf_debug c) p) = Ok out
   <-> Builder_authorize c e b method uri (Request_pl (cf_debug c) p') = Ok out).
Proof.
  intros sort sort' l l' p p' c e b name strict f method uri out HC HC' H H' HP D HB.
  eapply same_authorize; eauto using AssertSorted_calls.
  - rewrite call_protos_calls_of. auto.
  - exact (histories_same _ _ _ _ _ _ HC HC' H H' HP D).
Qed.
Print Assumptions C11_authorize.

(** When the values are determined by their text (strings, numbers, ...), the lists are the same and
    therefore drive every serializer in the same way. *)
Theorem C11_every_serializer : forall (show : bytes -> disp) sort sort' l l' p p' dbg (S : Serializer) (s : S),
  conforming sort -> conforming sort' -> history sort l p -> history sort' l' p' -> Permutation l l' ->
  Forall (fun q => snd q = show (dtext (snd q))) l ->
  Request_pl dbg p S s = Request_pl dbg p' S s.
Proof.
  intros show sort sort' l l' p p' dbg S s HC HC' H H' HP HV. f_equal.
  pose proof (C11_texts _ _ _ _ _ _ HC HC' H H' HP) as E.
  destruct (history_sorted _ _ _ HC H) as [_ P], (history_sorted _ _ _ HC' H') as [_ P'].
  assert (V : Forall (fun q => snd q = show (dtext (snd q))) p) by now rewrite P.
  assert (V' : Forall (fun q => snd q = show (dtext (snd q))) p') by now rewrite P', <- HP.
  assert (R : forall q : list kv, Forall (fun q => snd q = show (dtext (snd q))) q ->
     q = map (fun x => (fst x, show (snd x))) (texts q)).
  { clear. induction q as [|[k v] q IH]; intros F; [reflexivity|]. inversion F as [|? ? F1 F2]; subst.
    cbn [texts map fst snd] in *. f_equal; [now rewrite <- F1|]. exact (IH F2). }
  rewrite (R p V), (R p' V'), E. reflexivity.
Qed.
Print Assumptions C11_every_serializer.

Example C11_example : Permutation mixed [kvs "a" "1"; kvs "z" "1"; kvs "a" "2"] /\ shown_ok mixed
  /\ Forall (fun q => snd q = dstr (dtext (snd q))) mixed
  /\ to_form (Request_pl true (pl_new insertion_sort mixed)) = Ok (lit "a=1&a=2&z=1").
Proof.
  split; [|split; [|split]].
  - unfold mixed. etransitivity; [apply perm_skip, perm_swap|]. apply perm_swap.
  - repeat constructor.
  - repeat constructor.
  - reflexivity.
Qed.

(** ** C12

    The full statement, "for every list of pairs the [ParameterList] made from it is in RFC 5849
    order", is false: repeated keys are ordered by raw value, RFC 5849 orders by encoded value. *)
Theorem C12_refuted : exists l, forall sort, conforming sort -> ~ rfc_sorted (texts (pl_new sort l)).
Proof.
  exists [kvs "k" "a/"; kvs "k" "a-"]. intros sort HC H.
  rewrite (C11_texts sort insertion_sort _ _ _ (pl_new insertion_sort [kvs "k" "a/"; kvs "k" "a-"]) HC
             insertion_conforming (hi_new _ _) (hi_new _ _) (Permutation_refl _)) in H.
  unfold rfc_sorted in H. vm_compute in H. inversion H as [|? ? H1 H2]. clear - H2. inversion H2 as [|? ? HL _]. discriminate HL.
Qed.
Print Assumptions C12_refuted.

Definition c12_uri : bytes := lit "https://example.com/".
Definition c12_pairs : list kv := [kvs "k" "a/"; kvs "k" "a-"].

(** The consequence: a conforming server rejects the request, with every conforming sort ... *)
Theorem C12_rejected_refuted : exists b l, forall sort, conforming sort ->
  exists header body,
    Builder_post dbg_std env0 b (dstr c12_uri) (Request_pl true (pl_new sort l)) = Ok header
    /\ to_form (Request_pl true (pl_new sort l)) = Ok body
    /\ server_verify (client_secret b) (token_secret b) (lit "POST") c12_uri header body = None.
Proof.
  exists doc_builder, c12_pairs. intros sort HC.
  assert (D : shown_ok c12_pairs) by repeat constructor.
  do 2 eexists. split; [|split].
  - unfold Builder_post.
    apply (C11_authorize sort insertion_sort c12_pairs c12_pairs (pl_new sort c12_pairs) (pl_new insertion_sort c12_pairs) dbg_std env0 doc_builder _ _ _ (lit "POST") (dstr c12_uri) _ HC
             insertion_conforming (hi_new _ _) (hi_new _ _) (Permutation_refl _) D bi_hmac).
    vm_compute. reflexivity.
  - apply (C11_form sort insertion_sort c12_pairs c12_pairs (pl_new sort c12_pairs) (pl_new insertion_sort c12_pairs) true _ HC
             insertion_conforming (hi_new _ _) (hi_new _ _) (Permutation_refl _) D).
    vm_compute. reflexivity.
  - vm_compute. reflexivity.
Qed.
Print Assumptions C12_rejected_refuted.

(** ... while the same pairs in the order of RFC 5849 are accepted. *)
Example C12_rfc_order_accepted : exists header body,
  Builder_post dbg_std env0 doc_builder (dstr c12_uri) (AssertSorted true c12_pairs) = Ok header
  /\ to_form (AssertSorted true c12_pairs) = Ok body
  /\ server_verify (client_secret doc_builder) (token_secret doc_builder) (lit "POST") c12_uri header body <> None.
Proof. do 2 eexists. split; [vm_compute; reflexivity|]. split; [vm_compute; reflexivity|]. vm_compute. discriminate. Qed.

Lemma rfc_sorted_from : forall p : list kv, kv_sorted p ->
  (forall a b, In a p -> In b p -> fst a = fst b -> bleb (dtext (snd a)) (dtext (snd b)) = true -> a <> b ->
     bleb (pct_encode (dtext (snd a))) (pct_encode (dtext (snd b))) = true) ->
  rfc_sorted (texts p).
Proof.
  intros p HS HV. unfold rfc_sorted, texts. rewrite map_map. induction HS as [|a p HS IH HF]; [constructor|].
  cbn [map]. constructor.
  - apply IH. intros x y Hx Hy. apply HV; now right.
  - rewrite Forall_map. apply Forall_forall. intros b Hb. rewrite Forall_forall in HF.
    specialize (HF b Hb). unfold kv_le, kv_text in HF. unfold enc_value. cbn [fst snd].
    apply pair_le_spec in HF. apply pair_le_spec. cbn [fst snd] in *. destruct HF as [HF|[HE HF]]; auto.
    right. split; auto.
    destruct (bleb (pct_encode (dtext (snd a))) (pct_encode (dtext (snd b)))) eqn:E; auto.
    rewrite <- E. apply HV; auto; [now left|now right|]. intros ->. rewrite bleb_refl in E. discriminate.
Qed.

(** It holds when no key is repeated. *)
Theorem C12_distinct_keys_partial : forall sort l p, conforming sort -> history sort l p ->
  NoDup (map fst l) -> rfc_sorted (texts p).
Proof.
  intros sort l p HC HH HN. destruct (history_sorted _ _ _ HC HH) as [HS HP]. apply rfc_sorted_from; auto.
  intros a b Ha Hb E _ HD. exfalso. apply HD.
  assert (N : NoDup (map fst p)) by (eapply Permutation_NoDup; [|exact HN]; apply Permutation_map, Permutation_sym, HP).
  clear - N Ha Hb E. induction p as [|x p IH]; [destruct Ha|]. cbn [map] in N. inversion N as [|? ? N1 N2]; subst.
  destruct Ha as [<-|Ha], Hb as [<-|Hb]; auto.
  - exfalso. apply N1. rewrite E. now apply in_map.
  - exfalso. apply N1. rewrite <- E. now apply in_map.
Qed.
Print Assumptions C12_distinct_keys_partial.

(** It holds when the values of repeated keys need no encoding. *)
Theorem C12_safe_values_partial : forall sort l p, conforming sort -> history sort l p ->
  (forall k v v' l1 l2 l3, l = l1 ++ (k, v) :: l2 ++ (k, v') :: l3 -> uri_safe (dtext v) /\ uri_safe (dtext v')) ->
  rfc_sorted (texts p).
Proof.
  intros sort l p HC HH HV. destruct (history_sorted _ _ _ HC HH) as [HS HP]. apply rfc_sorted_from; auto.
  intros [k v] [k' v'] Ha Hb E HL HD. cbn [fst snd] in *. subst k'.
  assert (HI : In (k, v) l) by (eapply Permutation_in; eauto).
  assert (HI' : In (k, v') l) by (eapply Permutation_in; eauto).
  assert (HU : uri_safe (dtext v) /\ uri_safe (dtext v')).
  { apply in_split in HI as [l1 [l2 ->]]. apply in_app_or in HI' as [HI'|[HI'|HI']].
    - apply in_split in HI' as [l3 [l4 ->]]. rewrite <- app_assoc in HV. cbn in HV.
      destruct (HV k v' v l3 l4 l2 eq_refl). auto.
    - congruence.
    - apply in_split in HI' as [l3 [l4 ->]]. eapply HV. reflexivity. }
  destruct HU as [U U']. now rewrite !pct_encode_safe.
Qed.
Print Assumptions C12_safe_values_partial.

Example C12_example : exists p, history insertion_sort [kvs "b" "x/"; kvs "a" "2"; kvs "a" "1"] p
  /\ rfc_sorted (texts p).
Proof.
  eexists. split; [apply hi_new|]. unfold rfc_sorted. vm_compute.
  repeat (first [apply SSorted_cons | apply SSorted_nil | constructor | reflexivity]).
Qed.
