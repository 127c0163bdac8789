(** Property C94: a server can verify a request by signing it again with the crate. *)
From Coq Require Import String.
From Coq Require Import Lia Arith Sorted Permutation.
From Verif Require Import Bytes Crypto Spec MFmt MPercent MSerializer MSign MRequest MCredentials MAuth MBuilder ModelTests
  SpecFmt SpecCalls SpecCalls2 SpecAuth SpecBuild SpecForm SpecServer SpecParams SpecSign SpecPanic SpecResign
  LBytes LFmt LPercent LTrace LAuth LSign LBuild LForm LBase LBase2 LReq LReq2 LPanic LTop LParams LServer LReveal
  PropsServer PropsForm PropsParams PropsExact PropsPanic.

(** ** What was received *)

Lemma setup_sent : forall h b e p, set_up_from h b -> lookup (proto_key p) h = listed (sent (hmac_conf e b) 0 0 p).
Proof.
  intros h b e p H. destruct p; cbn [proto_key sent hmac_conf conf_of conf_with cn_options cn_client cn_token cn_use_nonce cn_use_timestamp cn_name].
  - apply (su_callback _ _ H).
  - apply (su_client _ _ H).
  - destruct (su_nonce _ _ H) as [n [E1 E2]]. unfold nonce_value. cbn [cn_options hmac_conf conf_of conf_with]. now rewrite E1, E2.
  - apply (su_method _ _ H).
  - destruct (su_timestamp _ _ H) as [t [E1 [E2 _]]]. unfold timestamp_value. cbn [cn_options hmac_conf conf_of conf_with]. now rewrite E1, E2.
  - apply (su_token _ _ H).
  - apply (su_verifier _ _ H).
  - rewrite (su_version _ _ H). now destruct (op_version (bd_options b)).
Qed.

Lemma lookup_protocol : forall cf p, lookup (proto_key p) (protocol_pairs cf) = listed (sent cf 0 0 p).
Proof.
  intros cf p. rewrite <- raw_all, lookup_raw; [reflexivity|apply all_protos_nodup|destruct p; cbn; tauto].
Qed.

Lemma lookup_cons : forall k p l, lookup k (p :: l) = (if bseqb (fst p) k then [snd p] else []) ++ lookup k l.
Proof. intros k p l. unfold lookup. cbn [filter]. now destruct (bseqb (fst p) k). Qed.

Lemma lookup_in_iff : forall k v l, In v (lookup k l) <-> In (k, v) l.
Proof.
  intros k v l. unfold lookup. rewrite in_map_iff. split.
  - intros [[k' v'] [<- H]]. apply filter_In in H as [H E]. cbn [fst snd] in *. apply bseqb_eq in E. now subst.
  - intros H. exists (k, v). split; [reflexivity|]. apply filter_In. split; [exact H|]. cbn [fst]. now apply bseqb_eq.
Qed.

Lemma perm_by_lookup : forall l l', (forall k, Permutation (lookup k l) (lookup k l')) -> Permutation l l'.
Proof.
  induction l as [|p l IH]; intros l' H.
  - destruct l' as [|q l']; [constructor|]. specialize (H (fst q)).
    rewrite (lookup_cons _ q), (proj2 (bseqb_eq _ _) eq_refl) in H. now apply Permutation_nil in H.
  - assert (I : In p l').
    { pose proof (H (fst p)) as K. rewrite lookup_cons, (proj2 (bseqb_eq _ _) eq_refl) in K.
      assert (J : In (snd p) (lookup (fst p) l')) by (eapply Permutation_in; [exact K|now left]).
      apply lookup_in_iff in J. now destruct p. }
    apply in_split in I as [x [y ->]]. apply Permutation_cons_app, IH. intros k. specialize (H k).
    rewrite lookup_cons, lookup_app, lookup_cons in H. rewrite lookup_app. destruct (bseqb (fst p) k); [|exact H].
    eapply Permutation_cons_app_inv. exact H.
Qed.

Lemma lookup_filter_other : forall k j l, k <> j -> lookup k (filter (fun p => negb (has_key j p)) l) = lookup k l.
Proof.
  intros k j l N. induction l as [|p l IH]; [reflexivity|]. cbn [filter]. destruct (has_key j p) eqn:E; cbn [negb].
  - rewrite IH, lookup_cons. unfold has_key in E. apply bseqb_eq in E. destruct (bseqb (fst p) k) eqn:E'; [|reflexivity].
    apply bseqb_eq in E'. congruence.
  - now rewrite !lookup_cons, IH.
Qed.

Lemma lookup_signature : forall cf s, lookup (lit "oauth_signature") (protocol_pairs cf ++ [(lit "oauth_signature", s)]) = [s].
Proof.
  intros cf s. rewrite lookup_app, (lookup_none _ (protocol_pairs cf)); [reflexivity|].
  intros g Hg E. rewrite <- raw_all in Hg. apply raw_in in Hg as [x [_ [E' _]]]. apply (sig_not_proto x). congruence.
Qed.

Lemma realm_not_proto : forall p, proto_key p <> lit "realm".
Proof. intros []; discriminate. Qed.

Lemma received_perm : forall h b e, set_up_from h b ->
  Permutation (filter (fun p => negb (has_key (lit "oauth_signature") p)) (filter (fun p => negb (has_key (lit "realm") p)) h))
    (protocol_pairs (hmac_conf e b)).
Proof.
  intros h b e H. apply perm_by_lookup. intros k.
  destruct (in_dec (list_eq_dec byte_eq_dec) k (map proto_key all_protos)) as [I|N].
  - apply in_map_iff in I as [p [<- _]]. rewrite lookup_protocol, <- (setup_sent h b e p H), !lookup_filter_other; auto.
    + apply realm_not_proto.
    + intros E. exact (sig_not_proto p (eq_sym E)).
  - rewrite (lookup_none k (protocol_pairs _)).
    2:{ intros f Hf <-. apply N. rewrite <- raw_all in Hf. apply raw_in in Hf as [p [Hp [E _]]]. rewrite E. now apply in_map. }
    rewrite lookup_none; [constructor|]. intros f Hf <-. apply filter_In in Hf as [Hf S]. apply filter_In in Hf as [Hf R].
    unfold has_key in S, R. destruct (su_names _ _ H f Hf) as [E|[E|E]].
    + rewrite (proj2 (bseqb_eq _ _) E) in R. discriminate R.
    + rewrite (proj2 (bseqb_eq _ _) (eq_sym E)) in S. discriminate S.
    + now apply N.
Qed.

Lemma filter_no_sig : forall l, no_oauth_keys l -> filter (fun p => negb (has_key (lit "oauth_signature") p)) l = l.
Proof.
  intros l H. induction H as [|p l Hp _ IH]; [reflexivity|]. cbn [filter]. destruct (has_key _ p) eqn:E; cbn [negb].
  - exfalso. apply Hp. unfold has_key in E. apply bseqb_eq in E. rewrite E. now left.
  - now rewrite IH.
Qed.

Lemma signed_perm : forall h b e q f, set_up_from h b -> no_oauth_keys (q ++ f) ->
  Permutation (signed_params h f q) (protocol_pairs (hmac_conf e b) ++ q ++ f).
Proof.
  intros h b e q f H HO. unfold signed_params. rewrite !filter_app. apply Forall_app in HO as [Hq Hf].
  rewrite (filter_no_sig q Hq), (filter_no_sig f Hf). rewrite (received_perm h b e H). apply Permutation_app_swap_app.
Qed.

(** ** The URI *)

Lemma split_at_before : forall sep s a r, split_at sep s = (a, r) -> ~ In sep a.
Proof.
  induction s as [|b s IH]; intros a r H; cbn [split_at] in H; [injection H as <- <-; intros []|].
  destruct (beqb b sep) eqn:E; [injection H as <- <-; intros []|].
  destruct (split_at sep s) as [a' r'] eqn:ES. injection H as <- <-. intros [->|I]; [|exact (IH _ _ eq_refl I)].
  rewrite (proj2 (beqb_eq _ _) eq_refl) in E. discriminate E.
Qed.

Lemma strip_prefix_app : forall p s r, strip_prefix p s = Some r -> s = p ++ r.
Proof.
  induction p as [|a p IH]; intros s r H; cbn [strip_prefix] in H; [injection H as ->; reflexivity|].
  destruct s as [|b s]; [discriminate|]. destruct (beqb a b) eqn:E; [|discriminate]. apply beqb_eq in E as ->.
  cbn [app]. f_equal. auto.
Qed.

Lemma split_sub_app : forall pat s a r, split_sub pat s = Some (a, r) -> s = a ++ pat ++ r.
Proof.
  intros pat. induction s as [|b s IH]; intros a r H; cbn [split_sub] in H.
  - destruct (strip_prefix pat []) eqn:E; [|discriminate]. injection H as <- <-. cbn [app]. apply strip_prefix_app, E.
  - destruct (strip_prefix pat (b :: s)) eqn:E; [injection H as <- <-; cbn [app]; apply strip_prefix_app, E|].
    destruct (split_sub pat s) as [[a' r']|]; [|discriminate]. injection H as <- <-. cbn [app]. f_equal. now apply IH.
Qed.

Lemma span_until_app : forall stop s a r, span_until stop s = (a, r) -> s = a ++ r.
Proof.
  intros stop. induction s as [|b s IH]; intros a r H; cbn [span_until] in H; [injection H as <- <-; reflexivity|].
  destruct (existsb (beqb b) stop); [injection H as <- <-; reflexivity|].
  destruct (span_until stop s) as [a' r']. injection H as <- <-. cbn [app]. f_equal. now apply IH.
Qed.

Lemma lower_question : forall s, In "?"%byte (map to_lower s) -> In "?"%byte s.
Proof.
  intros s H. apply in_map_iff in H as [b [E H]]. destruct b; vm_compute in E; try discriminate E; exact H.
Qed.

Lemma base_uri_question : forall u, ~ In "?"%byte u -> ~ In "?"%byte (base_uri u).
Proof.
  intros u N. unfold base_uri. destruct (split_sub (lit "://") u) as [[scheme rest]|] eqn:E1; [|exact N].
  apply split_sub_app in E1. destruct (span_until (lit "/?#") rest) as [authority tail] eqn:E2. apply span_until_app in E2.
  destruct (span_until (lit "?#") tail) as [path x] eqn:E3. apply span_until_app in E3. cbv zeta.
  assert (P : forall s, incl s u -> ~ In "?"%byte s) by (intros s I J; apply N, I, J).
  intros H. subst u rest tail. rewrite !in_app_iff in H. destruct H as [H|[H|[H|H]]].
  - apply lower_question in H. apply N. rewrite !in_app_iff. tauto.
  - cbn in H. destruct H as [H|[H|[H|[]]]]; discriminate H.
  - assert (J : In "?"%byte (map to_lower authority)).
    { revert H. destruct (strip_suffix _ (map to_lower authority)) as [y|] eqn:ES; [|trivial]. unfold strip_suffix in ES.
      destruct (strip_prefix (rev _) (rev (map to_lower authority))) as [z|] eqn:EP; [|discriminate].
      apply strip_prefix_app in EP. cbn [option_map] in ES. injection ES as <-. intros H. apply in_rev in H. apply in_rev.
      rewrite EP. apply in_app_iff. now right. }
    apply lower_question in J. apply N. rewrite !in_app_iff. tauto.
  - destruct path as [|y path].
    + cbn in H. destruct H as [H|[]]; discriminate H.
    + apply N. rewrite !in_app_iff. tauto.
Qed.

Lemma parse_uri_base : forall u base q, parse_uri u = Some (base, q) -> ~ In "?"%byte base.
Proof.
  intros u base q H. unfold parse_uri in H. destruct (split_at "?" u) as [a r] eqn:E. apply split_at_before in E.
  destruct r as [r|]; [destruct (parse_form r); [|discriminate]|]; injection H as <- <-; exact E.
Qed.

(** ** The received parameters as a list of displayable pairs *)

Lemma texts_as_kv : forall l, texts (map as_kv l) = l.
Proof. intros l. unfold texts. rewrite map_map. rewrite <- (map_id l) at 2. apply map_ext. intros [k v]. unfold as_kv. cbn [fst snd]. now rewrite dtext_dstr. Qed.

Lemma as_kv_dok : forall l, Forall (fun p => dok (snd p)) (map as_kv l).
Proof. intros l. apply Forall_forall. intros p H. apply in_map_iff in H as [x [<- _]]. apply dok_dstr. Qed.

(** ** C94 *)

(** Signing again decides like the server of RFC 5849, and does not panic: whatever the method,
    URI, header and body received, if the builder is set up from the header and the parameters are
    such that the crate orders and names them as RFC 5849 does. *)
Theorem C94_resign : forall c e sort b method uri header body h base q f,
  conforming sort -> bd_signature_method b = HMAC_SHA1 -> normal_method method ->
  parse_header header = Some h -> parse_uri uri = Some (base, q) -> parse_form body = Some f ->
  set_up_from h b -> safe_keys (q ++ f) -> no_oauth_keys (q ++ f) ->
  (forall k v v', In (k, v) (q ++ f) -> In (k, v') (q ++ f) -> ~ disagree v v') ->
  signs_again c e sort b method uri header body
  = Ok (server_verify (client_secret b) (token_secret b) method uri header body).
Proof.
  intros c e sort b method uri header body h base q f HC HB HM EH EU EF HS HK HO HD.
  unfold signs_again, server_verify. rewrite EH, EU, EF. cbv zeta.
  set (p := pl_new sort (map as_kv (q ++ f))).
  assert (HH : history sort (map as_kv (q ++ f)) p) by constructor.
  destruct (history_sorted _ _ _ HC HH) as [_ HP].
  assert (HT : Permutation (texts p) (q ++ f)).
  { rewrite <- (texts_as_kv (q ++ f)). unfold texts. now apply Permutation_map. }
  assert (HR : rfc_sorted (texts p)).
  { apply (proj2 (C12_exact_partial sort _ p HC HH)). intros k v v' Hv Hv'.
    apply in_map_iff in Hv as [x [E Hx]]. apply in_map_iff in Hv' as [x' [E' Hx']]. injection E as E1 E2. injection E' as E3 E4. subst k v v'.
    rewrite !dtext_dstr. apply (HD (fst x)); [now destruct x|]. rewrite <- E3. now destruct x'. }
  assert (HN : honest (Request_pl (cf_debug c) p) (texts p)).
  { apply C18_crate_requests; auto.
    - apply cq_list.
    - rewrite HP. apply as_kv_dok.
    - unfold safe_keys. now rewrite HT.
    - unfold no_oauth_keys. now rewrite HT. }
  assert (X : exists again, Builder_authorize c e b method (dstr (base_uri base)) (Request_pl (cf_debug c) p) = Ok again).
  { apply (C35_parameter_list sort _ p (cf_debug c) c e b (KAuthorize (dstr (base_uri base))) method HC HH); auto.
    - exact infallible_string.
    - right. destruct (su_timestamp _ _ HS) as [t [_ [-> _]]]. discriminate.
    - apply dok_dstr.
    - cbn [kind_uri]. rewrite dtext_dstr. unfold has_question. eapply base_uri_question, parse_uri_base, EU.
    - apply as_kv_dok. }
  destruct X as [again X]. rewrite X. cbn [rbind].
  rewrite (C17_read_back c e b _ _ method _ again HB HN HM X). rewrite dtext_dstr.
  rewrite lookup_signature.
  rewrite (su_method _ _ HS), (proj2 (bseqb_eq _ _) eq_refl). cbn [andb].
  replace (rfc_signature e b method (base_uri base) (texts p))
    with (hmac_signature (client_secret b) (token_secret b) (base_string method (base_uri base) (signed_params h f q))).
  - change (map snd (filter (fun p0 : bytes * bytes => bseqb (fst p0) (lit "oauth_signature")) h)) with (lookup (lit "oauth_signature") h).
    destruct (lookup (lit "oauth_signature") h) as [|sg [|]]; reflexivity.
  - unfold rfc_signature. f_equal. apply base_string_perm. rewrite (signed_perm h b e q f HS HO). apply Permutation_app_head. now symmetry.
Qed.
Print Assumptions C94_resign.

(** ** What the crate has signed itself *)

(** The header that [authorize] makes with HMAC-SHA1, read back: no condition on method, URI or
    order of the parameters. *)
Lemma hmac_read_back : forall c e b r cs method uri out, bd_signature_method b = HMAC_SHA1 ->
  makes_calls r cs -> call_protos cs = all_protos -> Builder_authorize c e b method uri r = Ok out ->
  parse_header out = Some (protocol_pairs (hmac_conf e b)
    ++ [(lit "oauth_signature", hmac_signature (client_secret b) (token_secret b)
           (hashed_text method (dtext uri) (signed_fields (hmac_conf e b) cs)))]).
Proof.
  intros c e b r cs method uri out HB HM HP H.
  apply (authorize_exact c e b _ _ _ (hmac_builtin b HB) r cs HM (protos_perm cs HP)) in H as [_ [_ [sig [ES ->]]]].
  unfold sig_of in ES. injection ES as <-. rewrite HP, <- raw_all. apply parse_header_text.
  - apply wire_reads. now apply safe_name.
  - apply pct_decode_enc_quote.
  - apply pct_decode_encode.
Qed.

Lemma listed_inj : forall a b, listed a = listed b -> a = b.
Proof. intros [a|] [b|]; cbn; congruence. Qed.

Lemma lookup_header : forall cf s p, lookup (proto_key p) (protocol_pairs cf ++ [(lit "oauth_signature", s)]) = listed (sent cf 0 0 p).
Proof.
  intros cf s p. rewrite lookup_app, lookup_protocol, (lookup_none _ [_]), app_nil_r; [reflexivity|].
  intros f [<-|[]] E. exact (sig_not_proto p E).
Qed.

Lemma signed_fields_sent : forall cf cf' cs, (forall p, sent cf 0 0 p = sent cf' 0 0 p) -> signed_fields cf cs = signed_fields cf' cs.
Proof.
  intros cf cf' cs H. unfold signed_fields. induction cs as [|x cs IH]; [reflexivity|]. cbn [flat_map]. rewrite IH.
  destruct x; try reflexivity. now rewrite H.
Qed.

(** A builder can be set up from every header that the crate made with HMAC-SHA1 (with a timestamp
    that is positive, which it is except in the first second of 1970). *)
Theorem C94_set_up : forall c e b r l method uri header, bd_signature_method b = HMAC_SHA1 -> crate_request r l ->
  (0 < timestamp_value (hmac_conf e b) 0 < 2 ^ 64)%N ->
  Builder_authorize c e b method uri r = Ok header ->
  exists h b', parse_header header = Some h /\ set_up_from h b' /\ bd_signature_method b' = HMAC_SHA1
    /\ client_secret b' = client_secret b /\ token_secret b' = token_secret b.
Proof.
  intros c e b r l method uri header HB HR HT H.
  pose proof (hmac_read_back c e b r _ method uri header HB (crate_request_calls r l HR) (call_protos_calls_of l) H) as EH.
  exists (protocol_pairs (hmac_conf e b) ++ [(lit "oauth_signature", hmac_signature (client_secret b) (token_secret b)
           (hashed_text method (dtext uri) (signed_fields (hmac_conf e b) (calls_of l))))]).
  exists (Builder_nonce (Some (nonce_value (hmac_conf e b) 0)) (Builder_timestamp (Some (timestamp_value (hmac_conf e b) 0)) b)).
  split; [exact EH|]. split; [|auto].
  constructor.
  - intros p Hp. right. apply in_app_iff in Hp as [Hp|[<-|[]]]; [|now left]. rewrite <- raw_all in Hp.
    apply raw_in in Hp as [x [_ [-> _]]]. right. apply in_map. destruct x; cbn; tauto.
  - exact (lookup_header _ _ PConsumerKey).
  - exact (lookup_header _ _ PToken).
  - eexists. split; [exact (lookup_header _ _ PNonce)|reflexivity].
  - eexists. split; [exact (lookup_header _ _ PTimestamp)|]. now split.
  - exact (lookup_header _ _ PCallback).
  - exact (lookup_header _ _ PVerifier).
  - etransitivity; [exact (lookup_header _ _ PVersion)|]. cbn. now destruct (op_version (bd_options b)).
  - exact (lookup_header _ _ PSignatureMethod).
Qed.
Print Assumptions C94_set_up.

(** What the crate has signed is accepted when it is signed again, in whatever way the parameters
    were sent and in whatever order they arrive.  Here the parameters may be named like protocol
    parameters, repeated keys may have any values, and the method may be anything. *)
Theorem C94_own : forall c e b sort l p method uri d header c' e' b' sort' uri' body h q f,
  conforming sort -> conforming sort' -> history sort l p -> normal_uri uri -> dtext d = uri ->
  bd_signature_method b = HMAC_SHA1 -> Builder_authorize c e b method d (Request_pl (cf_debug c) p) = Ok header ->
  parse_header header = Some h -> parse_uri uri' = Some (uri, q) -> parse_form body = Some f -> Permutation (q ++ f) (texts l) ->
  set_up_from h b' -> bd_signature_method b' = HMAC_SHA1 -> client_secret b' = client_secret b -> token_secret b' = token_secret b ->
  signs_again c' e' sort' b' method uri' header body = Ok (Some (h, q ++ f)).
Proof.
  intros c e b sort l p method uri d header c' e' b' sort' uri' body h q f HC HC' HH HU ED HB H EH EU EF HQ HS HB' EC ET.
  assert (D : shown_ok p).
  { pose proof (proj1 (authorize_exact c e b _ _ _ (hmac_builtin b HB) (Request_pl (cf_debug c) p) _ (AssertSorted_calls _ p)
      (protos_perm _ (call_protos_calls_of p)) method d header) H) as [_ [V _]].
    apply displays_calls_of. apply (vf_values _ _ _ _ _ V). reflexivity. }
  pose proof (hmac_read_back c e b _ _ method d header HB (AssertSorted_calls _ p) (call_protos_calls_of p) H) as EH'.
  rewrite EH in EH'. injection EH' as EH'.
  unfold signs_again. rewrite EH, EU, EF. cbv zeta. set (p' := pl_new sort' (map as_kv (q ++ f))).
  assert (HH' : history sort' (map as_kv (q ++ f)) p') by constructor.
  destruct (history_sorted _ _ _ HC HH) as [S P]. destruct (history_sorted _ _ _ HC' HH') as [S' P'].
  assert (HT : texts p = texts p').
  { apply sorted_unique; auto using sorted_texts. transitivity (texts l); [unfold texts; now apply Permutation_map|].
    rewrite <- HQ, <- (texts_as_kv (q ++ f)). unfold texts. apply Permutation_map. now symmetry. }
  assert (D' : shown_ok p') by (unfold shown_ok; rewrite P'; apply as_kv_dok).
  assert (HCS : same_calls (calls_of p) (calls_of p')) by (apply calls_of_same, texts_same; auto).
  assert (X : exists again, Builder_authorize c' e' b' method (dstr (base_uri uri)) (Request_pl (cf_debug c') p') = Ok again).
  { apply (C35_parameter_list sort' _ p' (cf_debug c') c' e' b' (KAuthorize (dstr (base_uri uri))) method HC' HH'); auto.
    - exact infallible_string.
    - right. destruct (su_timestamp _ _ HS) as [t [_ [-> _]]]. discriminate.
    - apply dok_dstr.
    - cbn [kind_uri]. rewrite dtext_dstr. destruct HU as [-> HU]. exact HU.
    - apply as_kv_dok. }
  destruct X as [again X]. rewrite X. cbn [rbind].
  rewrite (hmac_read_back c' e' b' _ _ method _ again HB' (AssertSorted_calls _ p') (call_protos_calls_of p') X), dtext_dstr.
  rewrite EH' at 1. rewrite !lookup_signature. destruct HU as [-> _]. rewrite EC, ET.
  destruct (same_calls_fields _ _ HCS) as [_ [E2 _]].
  rewrite (signed_fields_sent (hmac_conf e' b') (hmac_conf e b) (calls_of p')), <- E2, ED.
  - now rewrite (proj2 (bseqb_eq _ _) eq_refl).
  - intros x. apply listed_inj. rewrite <- (setup_sent h b' e' x HS), EH'. apply lookup_header.
Qed.
Print Assumptions C94_own.

(** ** Examples *)

(** The request for a photo of RFC 5849 section 1.2: the theorem applies to it, and it is accepted
    with the right secrets only. *)
Definition photo_uri : bytes := lit "http://photos.example.net/photos?file=vacation.jpg&size=original".
Definition photo_header : bytes := lit "OAuth realm=""Photos"", oauth_consumer_key=""dpf43f3p2l4k3l03"", oauth_token=""nnch734d00sl2jdk"", oauth_signature_method=""HMAC-SHA1"", oauth_timestamp=""137131202"", oauth_nonce=""chapoH"", oauth_signature=""MdpQcU8iPSUjWoN%2FUDMsK2sui9I%3D""".
Definition photo_builder (secret : string) : Builder :=
  Builder_timestamp (Some 137131202%N) (Builder_nonce (Some (lit "chapoH")) (Builder_with_token
    (Token_from_parts (lit "dpf43f3p2l4k3l03") (lit secret) (lit "nnch734d00sl2jdk") (lit "pfkkdhi9sl3r4s00")) HMAC_SHA1)).
Definition photo_params : list pair := [(lit "file", lit "vacation.jpg"); (lit "size", lit "original")].

Lemma photo_set_up : forall secret, exists h, parse_header photo_header = Some h /\ set_up_from h (photo_builder secret).
Proof.
  intros secret. eexists. split; [vm_compute; reflexivity|]. constructor; try reflexivity.
  - intros p H. repeat (destruct H as [<-|H]; [vm_compute; tauto|]). destruct H.
  - eexists. split; reflexivity.
  - exists 137131202%N. split; [vm_compute; reflexivity|]. split; [reflexivity|]. split; vm_compute; reflexivity.
Qed.

Example C94_example_hypotheses : normal_method (lit "GET")
  /\ parse_uri photo_uri = Some (lit "http://photos.example.net/photos", photo_params) /\ parse_form [] = Some []
  /\ safe_keys (photo_params ++ []) /\ no_oauth_keys (photo_params ++ [])
  /\ (forall k v v', In (k, v) (photo_params ++ []) -> In (k, v') (photo_params ++ []) -> ~ disagree v v').
Proof.
  split; [vm_compute; reflexivity|]. split; [vm_compute; reflexivity|]. split; [reflexivity|]. split; [|split].
  - repeat constructor; apply safe_name; reflexivity.
  - repeat constructor; intros H; repeat (destruct H as [H|H]; [discriminate H|]); destruct H.
  - assert (N : forall v, ~ disagree v v).
    { intros v [p [x [y [u' [w' [E1 [E2 [L _]]]]]]]]. rewrite E1 in E2. apply app_inv_head in E2. injection E2 as -> _. lia. }
    intros k v v' [H|[H|[]]] [H'|[H'|[]]]; injection H as <- <-; try (injection H' as <-; apply N); discriminate H'.
Qed.

Example C94_example :
  option_map snd (server_verify (lit "kd94hf93k423kf44") (Some (lit "pfkkdhi9sl3r4s00")) (lit "GET") photo_uri photo_header [])
  = Some photo_params
  /\ signs_again dbg_std env0 insertion_sort (photo_builder "kd94hf93k423kf44") (lit "GET") photo_uri photo_header []
     = Ok (server_verify (lit "kd94hf93k423kf44") (Some (lit "pfkkdhi9sl3r4s00")) (lit "GET") photo_uri photo_header [])
  /\ signs_again dbg_std env0 insertion_sort (photo_builder "KD94HF93K423KF44") (lit "GET") photo_uri photo_header [] = Ok None.
Proof. vm_compute. repeat split. Qed.

(** The request of C12 that the server of RFC 5849 rejects. *)
Example C94_example_own : exists header body h q,
  Builder_post dbg_std env0 doc_builder (dstr c12_uri) (Request_pl true (pl_new insertion_sort c12_pairs)) = Ok header
  /\ to_form (Request_pl true (pl_new insertion_sort c12_pairs)) = Ok body
  /\ server_verify (client_secret doc_builder) (token_secret doc_builder) (lit "POST") c12_uri header body = None
  /\ signs_again dbg_std env0 insertion_sort doc_builder (lit "POST") c12_uri header body = Ok (Some (h, q)).
Proof.
  do 4 eexists. split; [vm_compute; reflexivity|]. split; [vm_compute; reflexivity|]. split; vm_compute; reflexivity.
Qed.
