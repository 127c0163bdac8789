(** The example server reads what the builder writes. *)
From Coq Require Import String.
From Coq Require Import Lia Arith Sorted Permutation NArith.
From Verif Require Import Bytes Crypto Spec MFmt MPercent MSerializer MSign MRequest MCredentials MAuth MBuilder
  SpecFmt SpecCalls SpecCalls2 SpecAuth SpecBuild SpecForm SpecServer SpecParams SpecHttp
  LBytes LFmt LPercent LTrace LCrypto LAuth LSign LBuild LForm LBase LBase2 LReq LReq2 LPanic LTop LParams LServer
  MHttp LHttp MServer LGrammar SpecExample.

(** ** Lists of parameters *)

Lemma sort_params_eq : forall l, sort_params l = sort_pairs l.
Proof.
  assert (HI : forall p l, insert_param p l = insert_pair p l).
  { intros p. induction l as [|q l IH]; [reflexivity|]. cbn [insert_param insert_pair]. now rewrite IH. }
  induction l as [|p l IH]; [reflexivity|]. cbn [sort_params sort_pairs fold_right]. rewrite IH. apply HI.
Qed.

Definition find_value (key : bytes) (l : list pair) : option bytes :=
  option_map snd (find (fun p => bseqb (fst p) key) l).

Lemma find_value_cons : forall key k v l,
  find_value key ((k, v) :: l) = if bseqb k key then Some v else find_value key l.
Proof. intros. unfold find_value. cbn [find fst]. now destruct (bseqb k key). Qed.
Lemma find_value_none : forall key l, ~ In key (map fst l) -> find_value key l = None.
Proof.
  intros key. induction l as [|p l IH]; intros H; [reflexivity|]. unfold find_value. cbn [find].
  destruct (bseqb (fst p) key) eqn:E.
  - apply bseqb_eq in E. exfalso. apply H. now left.
  - apply IH. intros X. apply H. now right.
Qed.
Lemma find_value_some : forall key v l, In (key, v) l -> (forall v', In (key, v') l -> v' = v) ->
  find_value key l = Some v.
Proof.
  intros key v. induction l as [|[k w] l IH]; intros H HU; [destruct H|]. unfold find_value. cbn [find fst].
  destruct (bseqb k key) eqn:E.
  - apply bseqb_eq in E. subst. cbn [option_map snd]. f_equal. apply HU. now left.
  - destruct H as [H|H].
    + inversion H; subst. rewrite bseqb_refl in E. discriminate.
    + apply IH; auto. intros v' Hv'. apply HU. now right.
Qed.
Lemma find_value_in : forall key v l, find_value key l = Some v -> In (key, v) l.
Proof.
  intros key v. induction l as [|[k w] l IH]; intros H; [discriminate|]. unfold find_value in H. cbn [find fst] in H.
  destruct (bseqb k key) eqn:E.
  - apply bseqb_eq in E. subst. cbn [option_map snd] in H. inversion H; subst. now left.
  - right. apply IH. exact H.
Qed.

(** [get] finds the first value and keeps what is needed for larger keys. *)
Lemma ascending_cons : forall (p : pair) l, ascending (map fst (p :: l)) ->
  ascending (map fst l) /\ forall q, In q l -> bleb (fst p) (fst q) = true.
Proof.
  intros p l H. cbn [map] in H. inversion H as [|? ? H1 H2]; subst. split; auto. intros q Hq.
  rewrite Forall_forall in H2. apply H2. now apply in_map.
Qed.

Lemma get_spec : forall l key, ascending (map fst l) ->
  fst (get l key) = find_value key l /\ ascending (map fst (snd (get l key)))
  /\ (forall key', bltb key key' = true -> find_value key' (snd (get l key)) = find_value key' l)
  /\ (forall p, In p (snd (get l key)) -> In p l).
Proof.
  induction l as [|[k v] l IH]; intros key H; [cbn; auto|].
  destruct (ascending_cons _ _ H) as [HA HL]. cbn [fst] in HL. cbn [get].
  destruct (bcmp k key) eqn:E.
  - apply bcmp_eq in E. subst. cbn [fst snd]. rewrite find_value_cons, bseqb_refl.
    split; [reflexivity|]. split; [exact HA|]. split; [|intros p Hp; now right]. intros key' HK.
    rewrite find_value_cons.
    destruct (bseqb key key') eqn:EB; auto. apply bseqb_eq in EB. subst. now rewrite bltb_irrefl in HK.
  - destruct (IH key HA) as [H1 [H2 [H3 H4]]]. rewrite find_value_cons.
    assert (EK : bseqb k key = false).
    { apply bseqb_neq. intros ->. rewrite bcmp_refl in E. discriminate. }
    rewrite EK. split; [exact H1|]. split; [exact H2|]. split; [|intros p Hp; right; auto].
    intros key' HK. rewrite H3, find_value_cons by auto.
    assert (EK' : bseqb k key' = false).
    { apply bseqb_neq. intros ->. apply bltb_lt in HK. pose proof (bcmp_lt_trans _ _ _ HK E) as X.
      rewrite bcmp_refl in X. discriminate. }
    now rewrite EK'.
  - cbn [fst snd]. split; [|split; [exact H|split; [auto|auto]]].
    symmetry. apply find_value_none. cbn [map fst]. intros [->|HI].
    + rewrite bcmp_refl in E. discriminate.
    + apply in_map_iff in HI as [q [<- Hq]]. specialize (HL q Hq). apply bleb_le in HL.
      rewrite bcmp_antisym in HL. rewrite bcmp_antisym in E. destruct (bcmp (fst q) k); cbn in *; congruence.
Qed.

Lemma sorted_ascending : forall l, StronglySorted pair_le l -> ascending (map fst l).
Proof.
  induction l as [|p l IH]; intros H; [constructor|]. inversion H as [|? ? H1 H2]; subst. cbn [map].
  constructor; [exact (IH H1)|]. apply Forall_map, Forall_forall. intros q Hq. rewrite Forall_forall in H2.
  specialize (H2 q Hq). apply pair_le_spec in H2 as [H2|[-> _]]; [now apply bltb_bleb|apply bleb_refl].
Qed.

Lemma ascending_skipn : forall n (l : list pair), ascending (map fst l) -> ascending (map fst (skipn n l)).
Proof.
  induction n as [|n IH]; intros [|p l] H; auto. cbn [skipn]. apply IH. now apply ascending_cons in H.
Qed.

Lemma skipn_in : forall {A} n (l : list A) x, In x (skipn n l) -> In x l.
Proof. intros A. induction n as [|n IH]; intros [|a l] x H; auto. right. auto. Qed.

(** Skipping keys that are smaller does not matter. *)
Lemma find_value_skipn : forall n l key, Forall (fun p => bltb (fst p) key = true) (firstn n l) ->
  find_value key (skipn n l) = find_value key l.
Proof.
  induction n as [|n IH]; intros [|p l] key H; auto. cbn [skipn firstn] in *. inversion H as [|? ? H1 H2]; subst.
  rewrite IH by auto. unfold find_value. cbn [find].
  assert (bseqb (fst p) key = false) as -> by (apply bseqb_neq; intros E; rewrite E, bltb_irrefl in H1; discriminate).
  reflexivity.
Qed.

Lemma nth_firstn_le : forall n (l : list pair) x, ascending (map fst l) -> nth_error l n = Some x ->
  Forall (fun p => bleb (fst p) (fst x) = true) (firstn n l).
Proof.
  induction n as [|n IH]; intros [|p l] x HA H; try constructor; cbn [firstn nth_error] in *; try constructor.
  - apply ascending_cons in HA as [_ HA]. apply HA. eapply nth_error_In; eauto.
  - apply ascending_cons in HA as [HA _]. eauto.
Qed.

(** What the index found by the binary search leaves. *)
Lemma search_find : forall search params key key', search_ok search -> ascending (map fst params) ->
  bltb key key' = true -> find_value key' (skipn (search key params) params) = find_value key' params.
Proof.
  intros search params key key' HS HA HK. apply find_value_skipn.
  destruct (HS key params HA) as [[v H]|[_ [_ H]]].
  - eapply Forall_impl; [|apply (nth_firstn_le _ _ _ HA H)]. intros p Hp. cbn [fst] in Hp.
    eapply bleb_bltb_trans; eauto.
  - eapply Forall_impl; [|exact H]. intros p Hp. cbn beta in *. eapply bltb_trans; eauto.
Qed.
Lemma search_find_same : forall search params key v, search_ok search -> ascending (map fst params) ->
  (forall v', In (key, v') params -> v' = v) -> find_value key (skipn (search key params) params) = find_value key params.
Proof.
  intros search params key v HS HA HU. destruct (HS key params HA) as [[w H]|[HN [HL H]]].
  - assert (HI : In (key, w) params) by (eapply nth_error_In; eauto).
    assert (w = v) by auto. subst w.
    rewrite (find_value_some key v params HI HU). apply find_value_some.
    + apply nth_error_split in H as [l1 [l2 [E EL]]]. rewrite <- EL, E.
      rewrite skipn_app_length. now left.
    + intros v' Hv'. apply HU. eapply skipn_in; eauto.
  - rewrite find_value_skipn by exact H. reflexivity.
Qed.

(** ** Reading the protocol parameters *)

Definition unique_keys (keys : list bytes) (l : list pair) : Prop :=
  forall k v v', In k keys -> In (k, v) l -> In (k, v') l -> v = v'.

(** The chain of [get]s. *)
Lemma get_step : forall l0 l key, ascending (map fst l) ->
  (forall key', bltb key key' = true \/ key = key' -> find_value key' l = find_value key' l0) ->
  exists rest, get l key = (find_value key l0, rest) /\ ascending (map fst rest)
    /\ (forall key', bltb key key' = true -> find_value key' rest = find_value key' l0).
Proof.
  intros l0 l key HA HK. destruct (get_spec l key HA) as [H1 [H2 [H3 _]]].
  exists (snd (get l key)). split.
  - rewrite <- (HK key) by auto. rewrite <- H1. now destruct (get l key).
  - split; auto. intros key' H. rewrite H3 by auto. apply HK. now left.
Qed.

Lemma collect_exact : forall search params, search_ok search -> ascending (map fst params) ->
  unique_keys [lit "oauth_callback"] params ->
  collect_oauth_params search params =
  match find_value (lit "oauth_consumer_key") params with
  | None => inr StUnauthorized
  | Some consumer_key =>
      match find_value (lit "oauth_signature") params with
      | None => inr StBadRequest
      | Some signature =>
          match find_value (lit "oauth_signature_method") params with
          | None => inr StBadRequest
          | Some signature_method =>
              match match find_value (lit "oauth_timestamp") params with
                    | Some v => match parse_u64 v with Some t => inl (Some t) | None => inr StBadRequest end
                    | None => inl None
                    end with
              | inr e => inr e
              | inl timestamp =>
                  inl {| oa_consumer_key := consumer_key; oa_token := find_value (lit "oauth_token") params;
                         oa_signature_method := signature_method; oa_timestamp := timestamp;
                         oa_nonce := find_value (lit "oauth_nonce") params; oa_signature := signature;
                         oa_callback := find_value (lit "oauth_callback") params;
                         oa_verifier := find_value (lit "oauth_verifier") params |}
              end
          end
      end
  end.
Proof.
  intros search params HS HA HU. unfold collect_oauth_params.
  match goal with |- context [get ?x (lit "oauth_callback")] => set (l0 := x) end.
  assert (HA0 : ascending (map fst l0)) by (apply ascending_skipn; exact HA).
  assert (H0 : forall key', bltb (lit "oauth_callback") key' = true \/ lit "oauth_callback" = key' ->
    find_value key' l0 = find_value key' params).
  { unfold l0. intros key' [H|<-]; [now apply search_find|].
    destruct (find_value (lit "oauth_callback") params) as [v|] eqn:E.
    - rewrite <- E. apply (search_find_same search params _ v); auto. intros v' Hv'.
      eapply HU; eauto; [now left|]. now apply find_value_in.
    - rewrite <- E. destruct (HS (lit "oauth_callback") params HA) as [[w H]|[HN [HL H]]].
      + apply nth_error_In in H. apply (search_find_same search params _ w); auto. intros v' Hv'.
        eapply HU; eauto. now left.
      + now apply find_value_skipn. }
  destruct (get_step params _ _ HA0 H0) as [l1 [-> [HA1 H1]]].
  destruct (get_step params l1 (lit "oauth_consumer_key") HA1) as [l2 [-> [HA2 H2]]].
  { intros k [Hk|<-]; apply H1; [|reflexivity]. eapply bltb_trans; [|exact Hk]. reflexivity. }
  destruct (find_value (lit "oauth_consumer_key") params); [|reflexivity].
  destruct (get_step params l2 (lit "oauth_nonce") HA2) as [l3 [-> [HA3 H3]]].
  { intros k [Hk|<-]; apply H2; [|reflexivity]. eapply bltb_trans; [|exact Hk]. reflexivity. }
  destruct (get_step params l3 (lit "oauth_signature") HA3) as [l4 [-> [HA4 H4]]].
  { intros k [Hk|<-]; apply H3; [|reflexivity]. eapply bltb_trans; [|exact Hk]. reflexivity. }
  destruct (find_value (lit "oauth_signature") params); [|reflexivity].
  destruct (get_step params l4 (lit "oauth_signature_method") HA4) as [l5 [-> [HA5 H5]]].
  { intros k [Hk|<-]; apply H4; [|reflexivity]. eapply bltb_trans; [|exact Hk]. reflexivity. }
  destruct (find_value (lit "oauth_signature_method") params); [|reflexivity].
  destruct (get_step params l5 (lit "oauth_timestamp") HA5) as [l6 [-> [HA6 H6]]].
  { intros k [Hk|<-]; apply H5; [|reflexivity]. eapply bltb_trans; [|exact Hk]. reflexivity. }
  destruct (match find_value (lit "oauth_timestamp") params with Some _ => _ | None => _ end); [|reflexivity].
  destruct (get_step params l6 (lit "oauth_token") HA6) as [l7 [-> [HA7 H7]]].
  { intros k [Hk|<-]; apply H6; [|reflexivity]. eapply bltb_trans; [|exact Hk]. reflexivity. }
  destruct (get_step params l7 (lit "oauth_verifier") HA7) as [l8 [-> [HA8 H8]]].
  { intros k [Hk|<-]; apply H7; [|reflexivity]. eapply bltb_trans; [|exact Hk]. reflexivity. }
  reflexivity.
Qed.

(** ** Timestamps *)

Lemma parse_digits_read : forall s acc n, read_from (Some acc) s = Some n -> (n < 2 ^ 64)%N -> (acc < 2 ^ 64)%N ->
  parse_digits acc s = Some n.
Proof.
  assert (HM : forall s a n, read_from (Some a) s = Some n -> (a <= n)%N).
  { induction s as [|b s IH]; intros a n H; unfold read_from in H; cbn [fold_left] in H.
    - inversion H. lia.
    - destruct (digit_val b) as [d|].
      + apply IH in H. lia.
      + exfalso. clear - H. induction s; cbn [fold_left] in H; [discriminate|auto]. }
  induction s as [|b s IH]; intros acc n H HN HA; [exact H|].
  unfold read_from in H. cbn [fold_left] in H. cbn [parse_digits].
  change (dec_digit b) with (digit_val b). destruct (digit_val b) as [d|].
  - pose proof (HM s (acc * 10 + d)%N n H) as HL.
    destruct (N.ltb_spec (acc * 10 + d) (2 ^ 64)); [|lia]. apply IH; auto.
  - exfalso. clear - H. induction s; cbn [fold_left] in H; [discriminate|auto].
Qed.

Lemma parse_u64_decimal : forall n, (n < 2 ^ 64)%N -> parse_u64 (decimal n) = Some n.
Proof.
  intros n H. destruct (decimal_spec n) as [H1 [H2 [H3 _]]]. unfold parse_u64.
  destruct (decimal n) as [|b s] eqn:E; [congruence|].
  assert (beqb b "+" = false) as ->.
  { apply beqb_neq. intros ->. cbn [forallb] in H2. discriminate. }
  apply parse_digits_read; auto. reflexivity.
Qed.

(** ** The base string *)

Lemma without_cons : forall (p : pair) l,
  without_signature (p :: l)
  = if bseqb (fst p) (lit "oauth_signature") then without_signature l else p :: without_signature l.
Proof.
  intros p l. unfold without_signature. cbn [filter]. unfold has_key at 1.
  now destruct (bseqb (fst p) (lit "oauth_signature")).
Qed.

Definition joined (l : list pair) : bytes :=
  pct_encode (join (lit "&") (map (fun p => fst p ++ lit "=" ++ snd p) (map encode_pair l))).

Lemma joined_cons : forall (p : pair) l, joined (p :: l)
  = pct_encode (pct_encode (fst p)) ++ lit "%3D" ++ pct_encode (pct_encode (snd p))
    ++ match l with [] => [] | _ => lit "%26" end ++ joined l.
Proof.
  intros [k v] l. unfold joined. cbn [map encode_pair fst snd]. destruct l as [|q r].
  - cbn [map join]. rewrite !pct_encode_app. rewrite !app_nil_r. reflexivity.
  - cbn [map]. rewrite join_cons by discriminate. rewrite !pct_encode_app. rewrite <- !app_assoc. reflexivity.
Qed.

Lemma base_params_spec : forall (l : list pair) first,
  base_params first l =
  (if first then [] else match without_signature l with [] => [] | _ => lit "%26" end)
  ++ joined (without_signature l).
Proof.
  induction l as [|p l IH]; intros first; [destruct first; reflexivity|].
  rewrite without_cons. cbn [base_params]. destruct p as [k v]. cbn [fst].
  destruct (bseqb k (lit "oauth_signature")) eqn:E; [apply IH|].
  rewrite !percent_encode_text_spec, IH, joined_cons. cbn [fst snd]. destruct first; reflexivity.
Qed.

Lemma filter_sorted : forall (g : pair -> bool) l, StronglySorted pair_le l -> StronglySorted pair_le (filter g l).
Proof.
  intros g. induction l as [|p l IH]; intros H; [constructor|]. inversion H as [|? ? H1 H2]; subst. cbn [filter].
  destruct (g p); auto. constructor; auto. apply Forall_forall. intros q Hq. apply filter_In in Hq as [Hq _].
  rewrite Forall_forall in H2. auto.
Qed.
Lemma filter_perm : forall {A} (g : A -> bool) l l', Permutation l l' -> Permutation (filter g l) (filter g l').
Proof.
  intros A g l l' H. induction H; cbn [filter]; auto.
  - destruct (g x); auto.
  - destruct (g x), (g y); auto. constructor.
  - eapply Permutation_trans; eauto.
Qed.

Lemma create_base_string_spec : forall req params,
  create_base_string req (sort_pairs params)
  = raw_base_string (rq_method req) (origin ++ rq_path req) (without_signature params).
Proof.
  intros req params. unfold create_base_string, raw_base_string, raw_normalize.
  fold (joined (sort_pairs (without_signature params))).
  rewrite !percent_encode_text_spec, base_params_spec. cbn [app]. unfold origin. rewrite !pct_encode_app.
  change (pct_encode (lit "http://127.0.0.1:8080")) with (pct_encode SCHEME ++ lit "%3A%2F%2F" ++ pct_encode AUTHORITY).
  assert (HP : without_signature (sort_pairs params) = sort_pairs (without_signature params)).
  { apply sorted_unique.
    - apply filter_sorted, sort_sorted.
    - apply sort_sorted.
    - eapply Permutation_trans; [|apply sort_perm]. apply filter_perm. symmetry. apply sort_perm. }
  rewrite HP, <- !app_assoc. reflexivity.
Qed.

(** ** What the client signs *)

Lemma merge_sorted : forall D : list pair, ascending (map fst D) ->
  NoDup (map fst (filter oauth_key D)) -> StronglySorted pair_le (filter (fun f => negb (oauth_key f)) D) ->
  StronglySorted pair_le D.
Proof.
  assert (HK : forall f g : pair, fst f = fst g -> oauth_key f = oauth_key g).
  { intros f g E. unfold oauth_key. now rewrite E. }
  induction D as [|p D IH]; intros HA HN HS; [constructor|].
  destruct (ascending_cons _ _ HA) as [HA1 HL]. cbn [filter] in *. destruct (oauth_key p) eqn:E; cbn [negb] in *.
  - cbn [map] in HN. inversion HN as [|? ? HN1 HN2]; subst. constructor; [auto|]. apply Forall_forall. intros q Hq.
    apply pair_le_spec. specialize (HL q Hq). apply bleb_lt_or_eq in HL as [HL|HL]; [now left|].
    exfalso. apply HN1. rewrite HL. apply in_map. apply filter_In. split; auto. rewrite <- (HK p q HL). exact E.
  - inversion HS as [|? ? HS1 HS2]; subst. constructor; [auto|]. apply Forall_forall. intros q Hq.
    apply pair_le_spec. pose proof (HL q Hq) as HQ. apply bleb_lt_or_eq in HQ as [HQ|HQ]; [now left|].
    rewrite Forall_forall in HS2. specialize (HS2 q). apply pair_le_spec. apply HS2. apply filter_In. split; auto.
    now rewrite <- (HK p q HQ), E.
Qed.

Definition dec_value (f : pair) : pair := (fst f, percent_decode (snd f)).

Lemma dec_enc_pair : forall p, uri_safe (fst p) -> dec_value (encode_pair p) = p.
Proof.
  intros [k v] H. unfold dec_value, encode_pair. cbn [fst snd] in *.
  now rewrite percent_decode_encode, pct_encode_safe.
Qed.

Lemma protocol_keys_safe : forall cf, safe_keys (protocol_pairs cf).
Proof.
  intros cf. apply Forall_forall. intros f Hf. rewrite <- raw_all in Hf. apply raw_in in Hf as [p [_ [-> _]]].
  apply proto_key_safe.
Qed.

Lemma filter_map_comm : forall {A B} (f : A -> B) (g : B -> bool) (h : A -> bool) l,
  (forall x, g (f x) = h x) -> filter g (map f l) = map f (filter h l).
Proof.
  intros A B f g h l H. induction l as [|a l IH]; [reflexivity|]. cbn [map filter]. rewrite H.
  destruct (h a); cbn [map]; now rewrite IH.
Qed.

Lemma hashed_is_raw : forall cf cs l method uri,
  normal_method method -> Permutation (call_protos cs) all_protos -> ascending (map call_key cs) ->
  carries cs l -> safe_keys l -> no_oauth_keys l -> StronglySorted pair_le l ->
  hashed_text method uri (signed_fields cf cs) = raw_base_string method uri (protocol_pairs cf ++ l).
Proof.
  intros cf cs l method uri HM HP HA HC HS HO HL.
  pose proof (signed_perm cf cs l HP HC HS) as HQ.
  assert (HSafe : safe_keys (protocol_pairs cf ++ l)).
  { apply Forall_app. split; [apply protocol_keys_safe|exact HS]. }
  set (D := map dec_value (signed_fields cf cs)).
  assert (HD : Permutation (protocol_pairs cf ++ l) D).
  { unfold D. rewrite <- HQ, map_map. rewrite <- (map_id (protocol_pairs cf ++ l)) at 1.
    erewrite map_ext_in; [reflexivity|]. intros p Hp. cbn beta. symmetry. apply dec_enc_pair.
    unfold safe_keys in HSafe. rewrite Forall_forall in HSafe. now apply HSafe. }
  assert (HE : map encode_pair D = signed_fields cf cs).
  { unfold D. rewrite map_map. rewrite <- (map_id (signed_fields cf cs)) at 2. apply map_ext_in. intros f Hf.
    assert (HI : In f (map encode_pair (protocol_pairs cf ++ l))).
    { eapply Permutation_in; [|exact Hf]. now symmetry. }
    apply in_map_iff in HI as [g [<- Hg]]. rewrite dec_enc_pair; auto.
    unfold safe_keys in HSafe. rewrite Forall_forall in HSafe. now apply HSafe. }
  assert (HSD : StronglySorted pair_le D).
  { apply merge_sorted.
    - unfold D. rewrite map_map. cbn [dec_value fst]. now apply signed_keys_ascending.
    - unfold D. rewrite (filter_map_comm dec_value oauth_key oauth_key) by reflexivity.
      rewrite signed_protocol_part by (now apply (carries_no_oauth cs l)). rewrite map_map. cbn [dec_value fst].
      assert (HN : NoDup (call_protos cs)).
      { eapply Permutation_NoDup; [symmetry; exact HP|apply all_protos_nodup]. }
      clear - HN. unfold enc_protos. induction (call_protos cs) as [|p ps IH]; [constructor|].
      inversion HN as [|? ? H1 H2]; subst. cbn [flat_map]. destruct (sent cf 0 0 p); [|auto]. cbn [app map fst].
      constructor; [|auto]. intros HI. apply in_map_iff in HI as [f [E Hf]]. apply in_flat_map in Hf as [q [Hq Hf]].
      destruct (sent cf 0 0 q); [|destruct Hf]. destruct Hf as [<-|[]]. cbn [fst] in E. apply proto_key_inj in E. now subst.
    - unfold D. rewrite (filter_map_comm dec_value (fun f => negb (oauth_key f)) (fun f => negb (oauth_key f))) by reflexivity.
      rewrite signed_request_part by (now apply (carries_no_oauth cs l)). rewrite HC, map_map.
      erewrite map_ext_in; [rewrite map_id; exact HL|]. intros [k v] _. unfold dec_value, enc_value. cbn [fst snd].
      now rewrite percent_decode_encode. }
  assert (HSort : sort_pairs (protocol_pairs cf ++ l) = D).
  { apply sorted_unique; auto using sort_sorted. eapply Permutation_trans; [|exact HD]. symmetry. apply sort_perm. }
  unfold raw_base_string, raw_normalize. rewrite HSort, HE, HM.
  rewrite hashed_text_encode by (apply signed_safe; now apply (carries_safe cs l)). reflexivity.
Qed.

(** ** The header *)

Definition ptext (f : pair) : bytes := fst f ++ lit "=""" ++ snd f ++ lit """".

(** A field that is a token and a value of [qdtext] bytes. *)
Definition wire_ok (eo : bool) (f : pair) : Prop :=
  token_text (fst f) /\ Forall qdtext (snd f) /\ (snd f <> [] \/ eo = true).

Lemma quoted_plain : forall v, Forall qdtext v -> quoted_text v v.
Proof. intros v H. induction H; constructor; auto. Qed.

Lemma ptext_ok : forall eo f, wire_ok eo f -> auth_param_text eo (ptext f) f.
Proof.
  intros eo [k v] [H1 [H2 H3]]. cbn [fst snd] in *.
  change (ptext (k, v)) with (k ++ [] ++ lit "=" ++ [] ++ lit """" ++ v ++ lit """").
  apply ap_quoted; auto; try constructor. now apply quoted_plain.
Qed.

Lemma header_more : forall eo fs last, Forall (wire_ok eo) fs -> wire_ok eo last ->
  more_params_text eo (lit "," ++ concat (map header_field fs) ++ ptext last) (fs ++ [last]).
Proof.
  intros eo fs last H HL. induction H as [|f fs HF H IH].
  - cbn [map concat app]. rewrite <- (app_nil_r (ptext last)).
    apply (mp_cons eo [] [] (ptext last) last [] []); try constructor. now apply ptext_ok.
  - cbn [map concat]. replace (lit "," ++ (header_field f ++ concat (map header_field fs)) ++ ptext last)
      with ([] ++ lit "," ++ [] ++ ptext f ++ (lit "," ++ concat (map header_field fs) ++ ptext last)).
    + apply (mp_cons eo [] [] (ptext f) f); try constructor; auto using ptext_ok.
    + unfold header_field, ptext. rewrite <- !app_assoc. reflexivity.
Qed.

Lemma header_params : forall eo fs last, Forall (wire_ok eo) fs -> wire_ok eo last ->
  params_list_text eo (concat (map header_field fs) ++ ptext last) (fs ++ [last]).
Proof.
  intros eo [|f fs] last H HL.
  - cbn [map concat app]. rewrite <- (app_nil_r (ptext last)). apply as_cons; [now apply ptext_ok|constructor].
  - inversion H as [|? ? H1 H2]; subst. cbn [map concat app].
    replace ((header_field f ++ concat (map header_field fs)) ++ ptext last)
      with (ptext f ++ (lit "," ++ concat (map header_field fs) ++ ptext last)).
    + apply as_cons; [now apply ptext_ok|now apply header_more].
    + unfold header_field, ptext. rewrite <- !app_assoc. reflexivity.
Qed.

Lemma header_grammar : forall eo fs sig, Forall (wire_ok eo) fs -> wire_ok eo (lit "oauth_signature", sig) ->
  authorization_text eo (lit "OAuth") 1 (header_text fs sig) (fs ++ [(lit "oauth_signature", sig)])
  /\ has_scheme (lit "OAuth") (header_text fs sig).
Proof.
  intros eo fs sig H HL. pose proof (header_params eo fs _ H HL) as HP.
  set (t := concat (map header_field fs) ++ ptext (lit "oauth_signature", sig)) in *.
  assert (E : header_text fs sig = lit "OAuth" ++ repeat " "%byte 1 ++ t).
  { unfold header_text, t, ptext. cbn [fst snd repeat]. change (lit "OAuth ") with (lit "OAuth" ++ [" "%byte]).
    rewrite <- !app_assoc. reflexivity. }
  rewrite E. split.
  - apply at_params; auto.
  - split; [apply oauth_token|]. eexists. split; [reflexivity|]. cbn [repeat app]. intros HT.
    apply tchar_iff in HT. discriminate.
Qed.

Lemma unreserved_qdtext : forall b, unreserved b = true -> qdtext b.
Proof. intros b H. apply qdtext_iff. revert H. destruct b; vm_compute; congruence. Qed.
Lemma unreserved_tchar : forall b, unreserved b = true -> tchar b.
Proof. intros b H. apply tchar_iff. revert H. destruct b; vm_compute; congruence. Qed.
Lemma enc_qdtext : forall v, Forall qdtext (pct_encode v).
Proof.
  intros v. apply Forall_forall. intros b Hb. apply pct_encode_chars in Hb as [Hb|Hb]; [now apply unreserved_qdtext|].
  subst b. now apply qdtext_iff.
Qed.
Lemma enc_nonempty : forall v, v <> [] -> pct_encode v <> [].
Proof.
  intros [|b v] H E; [congruence|]. rewrite pct_encode_cons in E. unfold pct_byte in E.
  destruct (unreserved b); discriminate.
Qed.
Lemma safe_token : forall k, k <> [] -> uri_safe k -> token_text k.
Proof.
  intros k HN H. split; auto. apply Forall_forall. intros b Hb. apply unreserved_tchar. now apply H.
Qed.

Lemma proto_key_nonempty : forall p, proto_key p <> [].
Proof. intros []; discriminate. Qed.

Lemma wire_fields_ok : forall eo cf ps, uri_safe (cn_name cf) ->
  (eo = true \/ Forall (fun p => snd p <> []) (raw_fields cf ps)) -> Forall (wire_ok eo) (wire_fields cf ps).
Proof.
  intros eo cf ps HN HE. apply Forall_forall. intros f Hf. apply in_flat_map in Hf as [p [Hp Hf]].
  destruct (sent cf 0 0 p) as [v|] eqn:E; [|destruct Hf]. destruct Hf as [<-|[]].
  split; [apply safe_token; [apply proto_key_nonempty|apply proto_key_safe]|]. cbn [fst snd].
  assert (HV : v <> [] \/ eo = true).
  { destruct HE as [HE|HE]; [now right|]. left. rewrite Forall_forall in HE. apply (HE (proto_key p, v)).
    apply in_flat_map. exists p. split; auto. rewrite E. now left. }
  assert (HW : on_wire p v = pct_encode v).
  { destruct p; try reflexivity. cbn [sent] in E. inversion E; subst. cbn [on_wire]. now rewrite pct_encode_safe. }
  rewrite HW. split; [apply enc_qdtext|]. destruct HV as [HV|HV]; [left; now apply enc_nonempty|now right].
Qed.

Lemma wire_decoded : forall cf ps, uri_safe (cn_name cf) -> Forall utf8_pair (raw_fields cf ps) ->
  map decode_pair (wire_fields cf ps) = raw_fields cf ps.
Proof.
  intros cf ps HN. induction ps as [|p ps IH]; intros HU; [reflexivity|].
  unfold wire_fields, raw_fields in *. cbn [flat_map] in *. apply Forall_app in HU as [HU1 HU2].
  etransitivity; [apply map_app|]. f_equal; [|exact (IH HU2)].
  destruct (sent cf 0 0 p) as [v|] eqn:E; [|reflexivity].
  assert (HW : on_wire p v = pct_encode v).
  { destruct p; try reflexivity. cbn [sent] in E. inversion E; subst. cbn [on_wire]. now rewrite pct_encode_safe. }
  cbn [map]. rewrite HW. unfold decode_pair. cbn [fst snd]. inversion HU1 as [|? ? [U1 U2] _]; subst. cbn [snd] in U2.
  now rewrite decode_encode, decode_safe by (auto using proto_key_safe).
Qed.

(** ** Signatures *)

Lemma be_bytes_length : forall n x, length (be_bytes n x) = n.
Proof.
  induction n as [|n IH]; intros x; [reflexivity|]. cbn [be_bytes]. rewrite app_length, IH. cbn [length]. lia.
Qed.
Lemma sha1_length : forall m, length (sha1 m) = 20.
Proof.
  intros m. unfold sha1. destruct (fold_left sha1_block _ _) as [[[[a b] c] d] f].
  rewrite !app_length, !be_bytes_length. reflexivity.
Qed.
Lemma hmac_length : forall k m, length (hmac_sha1 k m) = 20.
Proof. intros. apply sha1_length. Qed.
Lemma base64_20 : forall x, length x = 20 -> length (base64 b64_std true x) = 28.
Proof.
  intros x H. do 20 (destruct x as [|? x]; [discriminate|]). destruct x; [reflexivity|discriminate].
Qed.

Lemma key_plain : forall cs ts, uri_safe cs -> uri_safe (match ts with Some t => t | None => [] end) ->
  signing_key cs ts = plain_key cs (match ts with Some t => t | None => [] end).
Proof. intros cs ts H1 H2. unfold signing_key, plain_key. now rewrite !pct_encode_safe. Qed.

(** ** Values in the sorted list *)

Section Values.
  Variables (cf : conf) (sig : bytes) (l : list pair).
  Hypothesis HO : no_oauth_keys l.
  Let all := sent_params cf sig ++ l.

  Lemma in_all_proto : forall p v, In (proto_key p, v) all <-> sent cf 0 0 p = Some v.
  Proof.
    intros p v. unfold all, sent_params. rewrite !in_app_iff. split.
    - intros [[H|H]|H].
      + rewrite <- raw_all in H. apply raw_in in H as [q [_ [E H]]]. cbn [fst snd] in *.
        apply proto_key_inj in E. now subst.
      + destruct H as [H|[]]. inversion H as [[E _]]. exfalso. apply (sig_not_proto p). congruence.
      + exfalso. unfold no_oauth_keys in HO. rewrite Forall_forall in HO. apply (HO _ H). apply proto_in_keys.
    - intros H. left. left. apply in_flat_map. exists p. split; [destruct p; cbn; tauto|]. rewrite H. now left.
  Qed.
  Lemma in_all_sig : forall v, In (lit "oauth_signature", v) all <-> v = sig.
  Proof.
    intros v. unfold all, sent_params. rewrite !in_app_iff. split.
    - intros [[H|H]|H].
      + rewrite <- raw_all in H. apply raw_in in H as [q [_ [E H]]]. cbn [fst snd] in *.
        exfalso. now apply (sig_not_proto q).
      + destruct H as [H|[]]. now inversion H.
      + exfalso. unfold no_oauth_keys in HO. rewrite Forall_forall in HO. apply (HO _ H). now left.
    - intros ->. left. right. now left.
  Qed.

  Lemma find_proto : forall p, find_value (proto_key p) (sort_pairs all) = sent cf 0 0 p.
  Proof.
    intros p. assert (HI : forall v, In (proto_key p, v) (sort_pairs all) <-> sent cf 0 0 p = Some v).
    { intros v. rewrite <- in_all_proto. split; apply Permutation_in; [symmetry|]; apply sort_perm. }
    destruct (sent cf 0 0 p) as [v|] eqn:E.
    - apply find_value_some; [now apply HI|]. intros v' Hv'. apply HI in Hv'. congruence.
    - apply find_value_none. intros H. apply in_map_iff in H as [[k v] [E' H]]. cbn [fst] in E'. subst.
      apply HI in H. discriminate.
  Qed.
  Lemma find_sig : find_value (lit "oauth_signature") (sort_pairs all) = Some sig.
  Proof.
    assert (HI : forall v, In (lit "oauth_signature", v) (sort_pairs all) <-> v = sig).
    { intros v. rewrite <- in_all_sig. split; apply Permutation_in; [symmetry|]; apply sort_perm. }
    apply find_value_some; [now apply HI|]. intros v' Hv'. now apply HI.
  Qed.
  Lemma callback_unique : unique_keys [lit "oauth_callback"] (sort_pairs all).
  Proof.
    intros k v v' [<-|[]] H H'. change (lit "oauth_callback") with (proto_key PCallback) in *.
    assert (HI : forall v, In (proto_key PCallback, v) (sort_pairs all) -> sent cf 0 0 PCallback = Some v).
    { intros w Hw. apply in_all_proto. eapply Permutation_in; [|exact Hw]. symmetry. apply sort_perm. }
    apply HI in H. apply HI in H'. congruence.
  Qed.
End Values.

(** ** The server accepts *)

Lemma wrong_signature_free : forall cf sig l, no_oauth_keys l ->
  without_signature (sent_params cf sig ++ l) = protocol_pairs cf ++ l.
Proof.
  intros cf sig l HO. unfold without_signature, sent_params. rewrite !filter_app.
  rewrite (no_oauth_sig l HO), filter_all.
  - change (filter (fun p => negb (has_key (lit "oauth_signature") p)) [(lit "oauth_signature", sig)]) with (@nil pair).
    now rewrite app_nil_r.
  - intros f Hf. rewrite <- raw_all in Hf. apply raw_in in Hf as [p [_ [E _]]]. unfold has_key.
    destruct (bseqb (fst f) (lit "oauth_signature")) eqn:EB; auto. apply bseqb_eq in EB.
    exfalso. apply (sig_not_proto p). congruence.
Qed.

Lemma create_base_string_perm : forall req params params', Permutation params params' ->
  create_base_string req (sort_pairs params) = create_base_string req (sort_pairs params').
Proof. intros req params params' H. now rewrite (sort_unique _ _ H). Qed.

Section Accept.
  Variables (c : cfg) (e : env) (b : Builder) (wd : world).
  Hypothesis HC : understandable c e b wd.
  Variables (r : Request) (l : list pair) (method path : bytes).
  Hypothesis HR : raw_honest r l.
  Hypothesis HM : normal_method method.
  Hypothesis HU : Forall utf8_pair l.
  Let cf := conf_of (lit "HMAC-SHA1") e b.

  Definition raw_sig (uri : bytes) : bytes :=
    hmac_signature (client_secret b) (token_secret b) (raw_base_string method uri (protocol_pairs cf ++ l)).

  Lemma raw_header : forall d, dok d -> (cf_debug c = true -> ~ has_question (dtext d)) ->
    Builder_authorize c e b method d r
    = Ok (header_text (wire_fields cf all_protos) (pct_encode (raw_sig (dtext d)))).
  Proof.
    intros d HD HQ. destruct HR as [cs [M [P [A [D [CA [S [O R]]]]]]]].
    assert (HP : Permutation (call_protos cs) all_protos) by now rewrite P.
    assert (HB : builtin (bd_signature_method b) (lit "HMAC-SHA1") true
      (fun cs ts text => Some (pct_encode (hmac_signature cs ts text)))) by (rewrite (un_method _ _ _ _ HC); constructor).
    apply (authorize_exact c e b _ _ _ HB r cs M HP). split; [apply (un_clock _ _ _ _ HC)|]. split.
    - constructor; auto. intros _ _. now apply signed_keys_ascending.
    - eexists. split; [reflexivity|]. unfold raw_sig. cbv beta. rewrite P.
      rewrite <- (hashed_is_raw cf cs l method (dtext d) HM HP A CA S O R). reflexivity.
  Qed.

  Lemma sig_nonempty : forall uri, raw_sig uri <> [].
  Proof.
    intros uri E. pose proof (base64_20 _ (hmac_length (signing_key (client_secret b) (token_secret b))
      (raw_base_string method uri (protocol_pairs cf ++ l)))) as H.
    change (length (raw_sig uri) = 28) in H. rewrite E in H. discriminate.
  Qed.

  Lemma raw_header_read : forall uri,
    collect_auth_params (wd_empty_ok wd) [header_text (wire_fields cf all_protos) (pct_encode (raw_sig uri))]
    = Some (sent_params cf (raw_sig uri)).
  Proof.
    intros uri. set (sig := raw_sig uri).
    assert (HN : uri_safe (cn_name cf)).
    { intros x Hx. cbn in Hx. repeat destruct Hx as [<-|Hx]; try reflexivity. destruct Hx. }
    assert (HW : Forall (wire_ok (wd_empty_ok wd)) (wire_fields cf all_protos)).
    { apply wire_fields_ok; auto. apply (un_nonempty _ _ _ _ HC). }
    assert (HS : wire_ok (wd_empty_ok wd) (lit "oauth_signature", pct_encode sig)).
    { split; [apply token_check; [discriminate|reflexivity]|]. split; [apply enc_qdtext|]. left.
      apply enc_nonempty, sig_nonempty. }
    destruct (header_grammar _ _ _ HW HS) as [HG HH]. apply (collect_oauth _ _ _ _ HH).
    eexists. split; [exact HG|]. rewrite map_app. unfold sent_params. f_equal.
    - rewrite (wire_decoded cf all_protos HN); [reflexivity|]. apply (un_text _ _ _ _ HC).
    - cbn [map]. unfold decode_pair. cbn [fst snd]. rewrite decode_encode.
      + rewrite decode_safe; [reflexivity|]. apply safe_name. reflexivity.
      + apply utf8_ascii. apply Forall_forall. intros x Hx. unfold sig, raw_sig, hmac_signature in Hx.
        apply base64_chars in Hx; [|reflexivity].
        assert (HB : forallb (fun x => (bn x <? 128)%N) (b64_std ++ lit "=") = true) by reflexivity.
        rewrite forallb_forall in HB. apply N.ltb_lt, HB. apply in_app_iff.
        destruct Hx as [Hx|[_ Hx]]; [now left|]. right. rewrite Hx. now left.
  Qed.

  (** With any secrets on the side of the server: it accepts exactly if the signature is the one it
      computes. *)
  Lemma verify_decides : forall client token req f body,
    cr_identifier client = cr_identifier (bd_client b) ->
    option_map cr_identifier token = option_map cr_identifier (bd_token b) ->
    rq_method req = method -> rq_authorization req
      = [header_text (wire_fields cf all_protos) (pct_encode (raw_sig (origin ++ rq_path req)))] ->
    rq_body req = Some body ->
    Permutation ((if match rq_content_type req with
                     | Some v => bseqb v APPLICATION_WWW_FORM_URLENCODED
                     | None => false end then form_parse body else [])
                 ++ form_parse (match rq_query req with Some q => q | None => [] end)) l ->
    let text := raw_base_string method (origin ++ rq_path req) (protocol_pairs cf ++ l) in
    verify_and_then wd req client token (op_verifier (bd_options b)) f
    = Done_ (if bseqb (hmac_sha1 (signing_key (client_secret b) (token_secret b)) text)
                  (hmac_sha1 (plain_key (cr_secret client) (secret_of token)) text)
             then f (sort_pairs (sent_params cf (raw_sig (origin ++ rq_path req)) ++ l))
                    (understood cf (raw_sig (origin ++ rq_path req)))
             else fail StUnauthorized).
  Proof.
    intros client token req f body EC ET EM EH EB EL text. set (sig := raw_sig (origin ++ rq_path req)) in *.
    assert (HO : no_oauth_keys l) by (destruct HR as [cs H]; tauto).
    unfold verify_and_then.
    assert (EP : forall form, Permutation (form_parse form ++ form_parse (match rq_query req with Some q => q | None => [] end)) l ->
      collect_params (wd_empty_ok wd) req form = Some (sort_pairs (sent_params cf sig ++ l))).
    { intros form HP. unfold collect_params. rewrite EH. unfold sig. rewrite raw_header_read, sort_params_eq.
      f_equal. apply sort_unique. now apply Permutation_app_head. }
    assert (EF : exists form, (if match rq_content_type req with
                     | Some v => bseqb v APPLICATION_WWW_FORM_URLENCODED
                     | None => false end then rq_body req else Some []) = Some form
      /\ Permutation (form_parse form ++ form_parse (match rq_query req with Some q => q | None => [] end)) l).
    { destruct (match rq_content_type req with Some _ => _ | None => _ end); [exists body|exists []]; split; auto. }
    destruct EF as [form [-> HF]]. rewrite (EP form HF). clear EP HF.
    destruct (un_libraries _ _ _ _ HC) as [HS HB].
    destruct (un_fresh _ _ _ _ HC) as [now [HNow [HN1 HN2]]].
    rewrite (collect_exact _ _ HS); [|apply sorted_ascending, sort_sorted|now apply callback_unique].
    change (lit "oauth_consumer_key") with (proto_key PConsumerKey).
    change (lit "oauth_signature_method") with (proto_key PSignatureMethod).
    change (lit "oauth_timestamp") with (proto_key PTimestamp).
    change (lit "oauth_token") with (proto_key PToken). change (lit "oauth_nonce") with (proto_key PNonce).
    change (lit "oauth_callback") with (proto_key PCallback). change (lit "oauth_verifier") with (proto_key PVerifier).
    rewrite !(find_proto cf sig l HO), (find_sig cf sig l HO).
    cbn [sent]. change (cn_use_timestamp cf) with true. change (cn_use_nonce cf) with true. cbv iota.
    fold cf in HN1, HN2. rewrite parse_u64_decimal by lia.
    fold (understood cf sig).
    assert (EI : inner wd req (sort_pairs (sent_params cf sig ++ l)) (understood cf sig) client token
      (op_verifier (bd_options b))
      = Done_ (if bseqb (hmac_sha1 (signing_key (client_secret b) (token_secret b)) text)
                    (hmac_sha1 (plain_key (cr_secret client) (secret_of token)) text) then None else Some StUnauthorized)).
    { unfold inner. unfold check_time. rewrite HNow. cbn [understood oa_timestamp].
      destruct (N.ltb_spec (timestamp_value cf 0 + 30) (2 ^ 64)); [|lia].
      destruct (N.ltb_spec (timestamp_value cf 0 + 30) now); [lia|]. cbn [andthen].
      assert (E1 : forall (o : option (Credentials bytes)), check_presence o (option_map cr_identifier o) = None) by (intros []; reflexivity).
      assert (E2 : forall o : option bytes, check_presence o o = None) by (intros []; reflexivity).
      assert (E3 : forall o : option bytes, check_equal o o = None).
      { intros [x|]; [|reflexivity]. cbn [check_equal]. now rewrite bseqb_refl. }
      cbn [understood oa_token oa_verifier oa_consumer_key].
      change (cn_token cf) with (option_map cr_identifier (bd_token b)).
      change (cn_options cf) with (bd_options b). change (cn_client cf) with (cr_identifier (bd_client b)).
      rewrite <- ET, <- EC, E1, E2, !E3, bseqb_refl. cbn [andthen].
      assert (ES : check_signature wd req (sort_pairs (sent_params cf sig ++ l)) (understood cf sig) client token
        = if bseqb (hmac_sha1 (signing_key (client_secret b) (token_secret b)) text)
               (hmac_sha1 (plain_key (cr_secret client) (secret_of token)) text) then None else Some StUnauthorized).
      { unfold check_signature. cbn [understood oa_signature_method]. change (cn_name cf) with (lit "HMAC-SHA1").
        rewrite bseqb_refl. unfold check_hmac. cbn [understood oa_timestamp oa_nonce oa_signature].
        assert (EG : sig = base64 b64_std true (hmac_sha1 (signing_key (client_secret b) (token_secret b)) text)) by reflexivity.
        assert (EL28 : length sig = 28) by (rewrite EG; apply base64_20, hmac_length).
        rewrite EL28. change (Nat.ltb 28 28) with false. cbv iota.
        rewrite EG at 1. rewrite HB, hmac_length. change (Nat.eqb 20 20) with true. cbv iota.
        rewrite create_base_string_spec, wrong_signature_free by auto. rewrite EM. reflexivity. }
      rewrite ES. destruct (bseqb _ _); reflexivity. }
    rewrite EI. destruct (bseqb _ _); reflexivity.
  Qed.
End Accept.
