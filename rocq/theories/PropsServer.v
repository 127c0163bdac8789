(** Properties C17-C20 and C46: the signature as RFC 5849 defines it, and a server that checks it. *)
From Coq Require Import String.
From Coq Require Import Lia Arith Sorted Permutation.
From Verif Require Import Bytes Crypto Spec MFmt MPercent MSerializer MSign MRequest MCredentials MAuth MBuilder ModelTests
  SpecFmt SpecCalls SpecCalls2 SpecAuth SpecBuild SpecForm SpecServer SpecParams SpecSign
  LBytes LFmt LPercent LTrace LAuth LSign LBuild LForm LBase LBase2 LReq LReq2 LPanic LTop LParams LServer LReveal.

(** The configuration of a builder that uses HMAC-SHA1, and the signature RFC 5849 prescribes for a
    request with parameters [l]. *)
Definition hmac_conf (e : env) (b : Builder) : conf := conf_of (lit "HMAC-SHA1") e b.
Definition rfc_signature (e : env) (b : Builder) (method uri : bytes) (l : list pair) : bytes :=
  hmac_signature (client_secret b) (token_secret b)
    (base_string method uri (protocol_pairs (hmac_conf e b) ++ l)).

Lemma hmac_builtin : forall b, bd_signature_method b = HMAC_SHA1 ->
  builtin (bd_signature_method b) (lit "HMAC-SHA1") true
    (fun cs ts text => Some (pct_encode (hmac_signature cs ts text))).
Proof. intros b ->. constructor. Qed.

(** ** C17 *)

Theorem C17_header : forall c e b r l method uri out,
  bd_signature_method b = HMAC_SHA1 -> honest r l -> normal_method method ->
  Builder_authorize c e b method uri r = Ok out ->
  out = header_text (wire_fields (hmac_conf e b) all_protos)
          (pct_encode (rfc_signature e b method (dtext uri) l)).
Proof.
  intros c e b r l method uri out HB HR HM H. destruct HR as [cs [M [P [A [D [C [S [O R]]]]]]]].
  assert (HP : Permutation (call_protos cs) all_protos) by now rewrite P.
  apply (authorize_exact c e b _ _ _ (hmac_builtin b HB) r cs M HP) in H as [HT [HV [sig [ES EO]]]].
  unfold sig_of in ES. rewrite (hashed_is_base _ cs l method _ HM HP A C S O R) in ES.
  inversion ES; subst. now rewrite P.
Qed.
Print Assumptions C17_header.

Theorem C17_read_back : forall c e b r l method uri out,
  bd_signature_method b = HMAC_SHA1 -> honest r l -> normal_method method ->
  Builder_authorize c e b method uri r = Ok out ->
  parse_header out
  = Some (protocol_pairs (hmac_conf e b) ++ [(lit "oauth_signature", rfc_signature e b method (dtext uri) l)]).
Proof.
  intros c e b r l method uri out HB HR HM H. rewrite (C17_header c e b r l method uri out HB HR HM H).
  rewrite <- raw_all. apply parse_header_text.
  - apply wire_reads. now apply safe_name.
  - apply pct_decode_enc_quote.
  - apply pct_decode_encode.
Qed.
Print Assumptions C17_read_back.

Theorem C17_form : forall c e b r l method uri out,
  bd_signature_method b = HMAC_SHA1 -> honest r l -> normal_method method ->
  Builder_to_form c e b method uri r = Ok out ->
  out = form_text (wire_fields (hmac_conf e b) all_protos
          ++ [(lit "oauth_signature", pct_encode (rfc_signature e b method (dtext uri) l))]).
Proof.
  intros c e b r l method uri out HB HR HM H. destruct HR as [cs [M [P [A [D [C [S [O R]]]]]]]].
  assert (HP : Permutation (call_protos cs) all_protos) by now rewrite P.
  apply (to_form_with_buf_exact c e b _ _ _ (hmac_builtin b HB) r cs M HP []) in H as [HT [HV [sig [ES EO]]]].
  unfold sig_of in ES. rewrite (hashed_is_base _ cs l method _ HM HP A C S O R) in ES.
  inversion ES; subst. now rewrite P.
Qed.
Print Assumptions C17_form.

Theorem C17_query : forall c e b r l method uri out,
  bd_signature_method b = HMAC_SHA1 -> honest r l -> normal_method method ->
  Builder_to_query c e (w := StringW) dstr b method uri r = Ok out ->
  out = query_text uri (wire_fields (hmac_conf e b) all_protos
          ++ [(lit "oauth_signature", pct_encode (rfc_signature e b method uri l))]).
Proof.
  intros c e b r l method uri out HB HR HM H. destruct HR as [cs [M [P [A [D [C [S [O R]]]]]]]].
  assert (HP : Permutation (call_protos cs) all_protos) by now rewrite P.
  apply (to_query_exact' c e b _ _ _ (hmac_builtin b HB) r cs M HP uri) in H as [HT [HV [sig [ES EO]]]].
  unfold sig_of in ES. rewrite (hashed_is_base _ cs l method _ HM HP A C S O R) in ES.
  inversion ES; subst. now rewrite P.
Qed.
Print Assumptions C17_query.

(** It does return, in every build configuration with a clock or a fixed timestamp. *)
Theorem C17_returns : forall c e b r l method uri,
  bd_signature_method b = HMAC_SHA1 -> honest r l -> timestamp_available c (hmac_conf e b) ->
  dok uri -> (cf_debug c = true -> ~ has_question (dtext uri)) ->
  exists out, Builder_authorize c e b method uri r = Ok out.
Proof.
  intros c e b r l method uri HB HR HT HD HQ. destruct HR as [cs [M [P [A [D [C [S [O R]]]]]]]].
  assert (HP : Permutation (call_protos cs) all_protos) by now rewrite P.
  eexists. apply (authorize_exact c e b _ _ _ (hmac_builtin b HB) r cs M HP).
  split; [exact HT|]. split; [|eexists; split; reflexivity].
  constructor; auto. intros _ _. now apply signed_keys_ascending.
Qed.
Print Assumptions C17_returns.

(** The order condition is needed: the text handed to the signature method is the RFC base string
    exactly when repeated keys come in the order of their encoded values. *)
Theorem C17_order_exact : forall c e b name r cs l method uri out,
  bd_signature_method b = Reveal name -> uri_safe name -> normal_method method ->
  makes_calls r cs -> Permutation (call_protos cs) all_protos -> ascending (map call_key cs) ->
  carries cs l -> safe_keys l -> no_oauth_keys l ->
  Builder_authorize c e b method uri r = Ok out ->
  (out = header_text (wire_fields (conf_of name e b) (call_protos cs))
           (pct_encode (base_string method (dtext uri) (protocol_pairs (conf_of name e b) ++ l)))
   <-> rfc_sorted l).
Proof.
  intros c e b name r cs l method uri out HB HN HM M P A C S O H.
  apply (reveal_authorize c e b name r cs method uri out HB HN M P) in H as [_ [_ ->]].
  rewrite <- (hashed_is_base_rfc (conf_of name e b) cs l method (dtext uri) HM P A C S O). split.
  - intros E. unfold header_text in E. apply app_inv_head, app_inv_head, app_inv_head, app_inv_tail in E.
    now apply pct_encode_inj.
  - now intros ->.
Qed.
Print Assumptions C17_order_exact.

(** ** C18 *)

Theorem C18_form : forall c e b r l method uri d,
  bd_signature_method b = HMAC_SHA1 -> timestamp_available c (hmac_conf e b) ->
  honest r l -> normal_method method -> normal_uri uri -> dtext d = uri -> dok d ->
  exists header body,
    Builder_authorize c e b method d r = Ok header /\ to_form r = Ok body
    /\ server_verify (client_secret b) (token_secret b) method uri header body
       = Some (protocol_pairs (hmac_conf e b) ++ [(lit "oauth_signature", rfc_signature e b method uri l)], l).
Proof. intros. now apply honest_accepted_form. Qed.
Print Assumptions C18_form.

Theorem C18_query : forall c e b r l method uri d,
  bd_signature_method b = HMAC_SHA1 -> timestamp_available c (hmac_conf e b) ->
  honest r l -> normal_method method -> normal_uri uri -> dtext d = uri -> dok d ->
  exists header uri',
    Builder_authorize c e b method d r = Ok header /\ to_query uri r = Ok uri'
    /\ server_verify (client_secret b) (token_secret b) method uri' header []
       = Some (protocol_pairs (hmac_conf e b) ++ [(lit "oauth_signature", rfc_signature e b method uri l)], l).
Proof. intros. now apply honest_accepted_query. Qed.
Print Assumptions C18_query.

(** The requests of the crate that are honest: any of its own requests, with keys in RFC order that
    need no encoding and are not those of protocol parameters. *)
Theorem C18_crate_requests : forall r l, crate_request r l ->
  Forall (fun p => dok (snd p)) l -> safe_keys (texts l) -> no_oauth_keys (texts l) -> rfc_sorted (texts l) ->
  honest r (texts l).
Proof. intros r l H HD HS HO HR. apply crate_honest; auto. now apply rfc_sorted_keys. Qed.
Print Assumptions C18_crate_requests.

(** In particular every [ParameterList] with distinct keys, whatever order its pairs were given in. *)
Theorem C18_parameter_list : forall sort l p dbg, conforming sort -> history sort l p ->
  NoDup (map fst l) -> Forall (fun q => dok (snd q)) l -> safe_keys (texts l) -> no_oauth_keys (texts l) ->
  honest (Request_pl dbg p) (texts p) /\ Permutation (texts p) (texts l).
Proof.
  intros sort l p dbg HC HH HN HD HS HO. destruct (history_sorted sort l p HC HH) as [HK HP].
  assert (HT : Permutation (texts p) (texts l)) by (unfold texts; now apply Permutation_map).
  split; auto. apply C18_crate_requests.
  - apply cq_list.
  - now rewrite HP.
  - unfold safe_keys in *. now rewrite HT.
  - unfold no_oauth_keys in *. now rewrite HT.
  - assert (HN' : NoDup (map fst p)).
    { eapply Permutation_NoDup; [apply Permutation_map, Permutation_sym, HP|exact HN]. }
    clear - HK HN'. unfold rfc_sorted, texts. rewrite map_map. induction p as [|a p IH]; [constructor|].
    inversion HK as [|? ? K1 K2]; subst. cbn [map] in HN'. inversion HN' as [|? ? N1 N2]; subst.
    constructor; [exact (IH K1 N2)|]. apply Forall_map, Forall_forall. intros q Hq.
    rewrite Forall_forall in K2. specialize (K2 q Hq). apply pair_le_spec in K2. apply pair_le_spec. left.
    destruct K2 as [K2|[K2 _]]; [exact K2|]. exfalso. apply N1. cbn [kv_text fst] in K2. rewrite K2.
    now apply in_map.
Qed.
Print Assumptions C18_parameter_list.

(** A concrete honest request, and the server's answer computed. *)
Example C18_example_honest :
  honest (AssertSorted true [kvs "a" "1 2"; kvs "c" "&="; kvs "c" "z"; kvs "p" "q"])
    [(lit "a", lit "1 2"); (lit "c", lit "&="); (lit "c", lit "z"); (lit "p", lit "q")].
Proof.
  apply (C18_crate_requests _ [kvs "a" "1 2"; kvs "c" "&="; kvs "c" "z"; kvs "p" "q"]).
  - apply cq_sorted.
  - repeat constructor.
  - repeat (constructor; [apply safe_name; reflexivity|]). constructor.
  - repeat (constructor; [intros H; vm_compute in H; intuition discriminate|]). constructor.
  - repeat (constructor; [|repeat constructor]). constructor.
Qed.

Example C18_example :
  match Builder_authorize dbg_std env0 doc_builder (lit "POST") (s2d "http://example.com/x")
          (AssertSorted true [kvs "a" "1 2"; kvs "c" "&="; kvs "c" "z"; kvs "p" "q"]),
        to_form (AssertSorted true [kvs "a" "1 2"; kvs "c" "&="; kvs "c" "z"; kvs "p" "q"]) with
  | Ok header, Ok body =>
      match server_verify (lit "consumer_secret") (Some (lit "token_secret")) (lit "POST")
              (lit "http://example.com/x") header body,
            server_verify (lit "consumer_secret") (Some (lit "other")) (lit "POST")
              (lit "http://example.com/x") header body with
      | Some (_, l), None => bseqb (concat (map snd l)) (lit "1 2&=zq")
      | _, _ => false
      end
  | _, _ => false
  end = true.
Proof. vm_compute. reflexivity. Qed.

Example C18_example_normal : normal_method (lit "POST") /\ normal_uri (lit "http://example.com/x")
  /\ timestamp_available dbg_std (hmac_conf env0 doc_builder) /\ bd_signature_method doc_builder = HMAC_SHA1.
Proof.
  repeat split; try reflexivity.
  - intros H. vm_compute in H. intuition discriminate.
  - left. reflexivity.
Qed.

(** C17: with two values of one key, the order counts. *)
Example C17_example : rfc_sorted [(lit "c", lit "&="); (lit "c", lit "z")] /\ ~ rfc_sorted [(lit "c", lit "z"); (lit "c", lit "&=")].
Proof.
  split; [repeat (constructor; [|repeat constructor]); constructor|].
  intros H. inversion H as [|x y _ HF]. inversion HF as [|z w HB]. vm_compute in HB. discriminate HB.
Qed.

(** ** C19 *)

(** The signed text of two runs (with possibly different builders, environments, methods, URIs and
    requests) agrees only if method, URI, the value of every protocol parameter and the list of
    request parameters agree. *)
Theorem C19_signed_text : forall cf cs l method uri cf' cs' l' method' uri',
  call_protos cs = all_protos -> carries cs l -> safe_keys l -> no_oauth_keys l -> ~ In "&"%byte method ->
  call_protos cs' = all_protos -> carries cs' l' -> safe_keys l' -> no_oauth_keys l' -> ~ In "&"%byte method' ->
  hashed_text method uri (signed_fields cf cs) = hashed_text method' uri' (signed_fields cf' cs') ->
  method = method' /\ uri = uri' /\ l = l' /\ (forall p, sent cf 0 0 p = sent cf' 0 0 p).
Proof.
  intros cf cs l method uri cf' cs' l' method' uri' P C S O M P' C' S' O' M' E.
  assert (HA : forall cf cs l, call_protos cs = all_protos -> carries cs l -> safe_keys l ->
    Forall (fun f => ~ In "&"%byte (snd f)) (signed_fields cf cs)).
  { intros cf0 cs0 l0 P0 C0 S0. pose proof (signed_perm cf0 cs0 l0) as Q. rewrite P0 in Q.
    rewrite <- (Q (Permutation_refl _) C0 S0). apply Forall_map, Forall_forall. intros f _.
    apply enc_no; [reflexivity|discriminate]. }
  apply hashed_text_inj in E as [EM [EU EF]]; auto.
  2: now apply signed_safe, (carries_safe cs l). 2: now apply signed_safe, (carries_safe cs' l').
  2: now apply (HA cf cs l). 2: now apply (HA cf' cs' l').
  split; auto. split; auto.
  pose proof (carries_no_oauth cs l C O) as N. pose proof (carries_no_oauth cs' l' C' O') as N'.
  split.
  - pose proof (f_equal (filter (fun f => negb (oauth_key f))) EF) as EL.
    rewrite !signed_request_part in EL by auto. rewrite C, C' in EL. clear - EL.
    revert l' EL. induction l as [|[k v] l IH]; intros [|[k' v'] l'] EL; try discriminate; auto.
    inversion EL as [[EK EV ER]]. apply pct_encode_inj in EV. subst. f_equal. auto.
  - pose proof (f_equal (filter oauth_key) EF) as EP. rewrite !signed_protocol_part in EP by auto.
    rewrite P, P' in EP. now apply enc_protos_inj.
Qed.
Print Assumptions C19_signed_text.

(** C03 where it matters: the whole text that a signature method is given, made visible. Every parameter of the request
    is there in its place: key, "%3D" and the value, encoded twice (encoded once more, if it is sent encoded). *)
Theorem C03_signed : forall c e b name r cs method uri out,
  bd_signature_method b = Reveal name -> uri_safe name -> makes_calls r cs -> call_protos cs = all_protos ->
  Builder_authorize c e b method uri r = Ok out ->
  let text x := match x with
                | CParam k v => [k ++ lit "%3D" ++ pct_encode (pct_encode (dtext v))]
                | CParamEnc k v => [k ++ lit "%3D" ++ pct_encode (dtext v)]
                | CProto p => match sent (conf_of name e b) 0 0 p with
                              | Some v => [proto_key p ++ lit "%3D" ++ pct_encode (pct_encode v)]
                              | None => []
                              end
                end in
  option_map (lookup (lit "oauth_signature")) (parse_header out)
  = Some [method ++ lit "&" ++ pct_encode (dtext uri) ++ lit "&" ++ join (lit "%26") (flat_map text cs)].
Proof.
  intros c e b name r cs method uri out HB HN HM P H text.
  assert (Q : Permutation (call_protos cs) all_protos) by now rewrite P.
  apply (reveal_authorize c e b name r cs method uri out HB HN HM Q) in H as [_ [_ ->]].
  rewrite (parse_header_text _ (raw_fields (conf_of name e b) (call_protos cs)) _
             (hashed_text method (dtext uri) (signed_fields (conf_of name e b) cs))).
  - cbn [option_map]. f_equal. rewrite lookup_app.
    rewrite (lookup_none _ (raw_fields _ _)).
    2:{ intros f Hf EF. apply raw_in in Hf as [p [_ [E _]]]. apply (sig_not_proto p). congruence. }
    change (lookup (lit "oauth_signature") [(lit "oauth_signature", ?x)]) with [x]. cbn [app]. f_equal.
    assert (ET : map (fun p : pair => fst p ++ lit "%3D" ++ pct_encode (snd p)) (signed_fields (conf_of name e b) cs) = flat_map text cs).
    { unfold signed_fields. rewrite !flat_map_concat_map, concat_map, map_map. f_equal. apply map_ext.
      intros [k v|k v|p]; [reflexivity..|]. unfold text. now destruct (sent _ 0 0 p). }
    rewrite <- ET. reflexivity.
  - now apply wire_reads.
  - apply pct_decode_enc_quote.
  - apply pct_decode_encode.
Qed.
Print Assumptions C03_signed.

(** The same for what the crate really hands to a signature method, made visible. *)
Theorem C19_observable : forall c e b r cs l method uri out c' e' b' r' cs' l' method' uri' out' name sig,
  bd_signature_method b = Reveal name -> bd_signature_method b' = Reveal name -> uri_safe name ->
  makes_calls r cs -> makes_calls r' cs' ->
  call_protos cs = all_protos -> carries cs l -> safe_keys l -> no_oauth_keys l -> ~ In "&"%byte method ->
  call_protos cs' = all_protos -> carries cs' l' -> safe_keys l' -> no_oauth_keys l' -> ~ In "&"%byte method' ->
  Builder_authorize c e b method uri r = Ok out -> Builder_authorize c' e' b' method' uri' r' = Ok out' ->
  option_map (lookup (lit "oauth_signature")) (parse_header out) = Some [sig] ->
  option_map (lookup (lit "oauth_signature")) (parse_header out') = Some [sig] ->
  method = method' /\ dtext uri = dtext uri' /\ l = l' /\ out = out'.
Proof.
  intros c e b r cs l method uri out c' e' b' r' cs' l' method' uri' out' name sig HB HB' HN HM HM'
    P C S O M P' C' S' O' M' H H' L L'.
  assert (Q : Permutation (call_protos cs) all_protos) by now rewrite P.
  assert (Q' : Permutation (call_protos cs') all_protos) by now rewrite P'.
  apply (reveal_authorize c e b name r cs method uri out HB HN HM Q) in H as [_ [_ EO]].
  apply (reveal_authorize c' e' b' name r' cs' method' uri' out' HB' HN HM' Q') in H' as [_ [_ EO']].
  assert (HS : forall e b cs text, call_protos cs = all_protos ->
    option_map (lookup (lit "oauth_signature"))
      (parse_header (header_text (wire_fields (conf_of name e b) (call_protos cs)) (pct_encode text))) = Some [text]).
  { intros e0 b0 cs0 text P0. rewrite (parse_header_text _ (raw_fields (conf_of name e0 b0) (call_protos cs0)) _ text).
    - cbn [option_map]. f_equal. rewrite lookup_app.
      rewrite (lookup_none _ (raw_fields _ _)); [reflexivity|]. intros f Hf EF.
      apply raw_in in Hf as [p [_ [E _]]]. apply (sig_not_proto p). congruence.
    - now apply wire_reads.
    - apply pct_decode_enc_quote.
    - apply pct_decode_encode. }
  subst out out'. rewrite HS in L by auto. rewrite HS in L' by auto.
  inversion L as [EL]. inversion L' as [EL']. rewrite EL.
  assert (ET : hashed_text method (dtext uri) (signed_fields (conf_of name e b) cs)
    = hashed_text method' (dtext uri') (signed_fields (conf_of name e' b') cs')) by congruence.
  rewrite EL'.
  apply (C19_signed_text _ _ l _ _ _ _ l' _ _ P C S O M P' C' S' O' M') in ET as [EM [EU [ELL EP]]].
  split; auto. split; auto. split; auto. rewrite P, P'. f_equal.
  unfold wire_fields. apply flat_map_ext. intros p. now rewrite EP.
Qed.
Print Assumptions C19_observable.

(** The RFC base string itself determines method (up to case), URI and the parameters as a multiset. *)
Theorem C19_base_string : forall m u l m' u' l', base_string m u l = base_string m' u' l' ->
  map to_upper m = map to_upper m' /\ u = u' /\ Permutation l l'.
Proof. exact base_string_inj. Qed.
Print Assumptions C19_base_string.

(** Moving delimiters into a value or a key changes the text. *)
Example C19_example :
  match Builder_authorize dbg_std env0 (Builder_new (Cred (lit "id") (lit "s")) (Reveal (lit "R"))) (lit "GET") (s2d "http://h/")
          (AssertSorted true [kvs "a" "1"; kvs "b" "2"]),
        Builder_authorize dbg_std env0 (Builder_new (Cred (lit "id") (lit "s")) (Reveal (lit "R"))) (lit "GET") (s2d "http://h/")
          (AssertSorted true [kvs "a" "1&b=2"]) with
  | Ok x, Ok y => negb (bseqb x y)
  | _, _ => false
  end = true.
Proof. vm_compute. reflexivity. Qed.

(** ** C20 *)

Theorem C20_signing_key : forall cs ts cs' ts',
  signing_key cs ts = signing_key cs' ts' <->
  cs = cs' /\ match ts with Some t => t | None => [] end = match ts' with Some t => t | None => [] end.
Proof. exact signing_key_inj. Qed.
Print Assumptions C20_signing_key.

(** The key that [HMAC_SHA1] and [PLAINTEXT] really use. *)
Theorem C20_hmac_key : forall cs ts, exists st,
  sm_sign_with HMAC_SHA1 cs ts = Ok st
  /\ forall m, hmac_sha1 (hm_key st) m = hmac_sha1 (signing_key cs ts) m.
Proof. intros cs ts. destruct (HMAC_sign_with cs ts) as [st [H1 [_ H2]]]. now exists st. Qed.
Print Assumptions C20_hmac_key.

Theorem C20_plaintext_key : forall cs ts cs' ts',
  sm_sign_with PLAINTEXT cs ts = Ok (signing_key cs ts : sm_sign PLAINTEXT)
  /\ (sm_sign_with PLAINTEXT cs ts = sm_sign_with PLAINTEXT cs' ts' <->
      cs = cs' /\ match ts with Some t => t | None => [] end = match ts' with Some t => t | None => [] end).
Proof.
  assert (H : forall cs ts, sm_sign_with PLAINTEXT cs ts = Ok (signing_key cs ts : sm_sign PLAINTEXT)).
  { intros cs ts. cbn [PLAINTEXT Plaintext sm_sign_with StringB bf_w bf_default].
    rewrite (write_unwrap_string _ ([] : StringW) (dok_signing_key cs ts)), dtext_signing_key. reflexivity. }
  intros cs ts cs' ts'. split; [apply H|]. rewrite !H, <- signing_key_inj. split; [|now intros ->].
  intros E. injection E. auto.
Qed.
Print Assumptions C20_plaintext_key.

Example C20_example :
  bseqb (signing_key (lit "a&b") (Some (lit "c"))) (signing_key (lit "a") (Some (lit "b&c"))) = false
  /\ signing_key (lit "a") None = signing_key (lit "a") (Some []).
Proof. split; reflexivity. Qed.

(** ** C46 *)

(** RFC 5849 wants the base string to start with this. *)
Definition rfc_prefix (method uri : bytes) : bytes :=
  pct_encode (map to_upper method) ++ lit "&" ++ pct_encode (base_uri uri) ++ lit "&".
Definition starts_with (p s : bytes) : Prop := exists t, s = p ++ t.

(** False: three inputs with which the crate authorizes a request that a server rejects, because
    the crate signs the method and the URI as they were passed.  First, a method in lower case.
    Second, an upper-case host and an explicit default port.  Third, a fragment. *)
Definition c46_case (method uri : bytes) : bool :=
  match Builder_authorize dbg_std env0 doc_builder method (dstr uri) (AssertSorted true [kvs "a" "1"]),
        to_form (AssertSorted true [kvs "a" "1"]) with
  | Ok header, Ok body =>
      match server_verify (lit "consumer_secret") (Some (lit "token_secret")) method uri header body with
      | None => true
      | Some _ => false
      end
  | _, _ => false
  end.

Theorem C46_refuted : exists method uri header body,
  Builder_authorize dbg_std env0 doc_builder method (dstr uri) (AssertSorted true [kvs "a" "1"]) = Ok header
  /\ to_form (AssertSorted true [kvs "a" "1"]) = Ok body
  /\ server_verify (lit "consumer_secret") (Some (lit "token_secret")) method uri header body = None.
Proof.
  assert (H : c46_case (lit "get") (lit "http://example.com/x") = true) by (vm_compute; reflexivity).
  exists (lit "get"), (lit "http://example.com/x"). unfold c46_case in H.
  destruct (Builder_authorize _ _ _ _ _ _) as [h|]; [|discriminate].
  destruct (to_form _) as [f|]; [|discriminate]. exists h, f.
  destruct (server_verify _ _ _ _ _ _); [discriminate|]. auto.
Qed.
Print Assumptions C46_refuted.

Theorem C46_more_refuted :
  c46_case (lit "get") (lit "http://example.com/x") = true
  /\ c46_case (lit "GET") (lit "HTTP://EXAMPLE.COM/x") = true
  /\ c46_case (lit "GET") (lit "http://example.com:80/x") = true
  /\ c46_case (lit "GET") (lit "http://example.com/x#y") = true
  /\ c46_case (lit "GET") (lit "http://example.com") = true.
Proof. repeat apply conj; vm_compute; reflexivity. Qed.
Print Assumptions C46_more_refuted.

(** Exactly when it holds, for methods without "&": the method must be in upper case and need no
    encoding, the URI must be its own base string URI. *)
Theorem C46_exact_partial : forall c e b name r cs method uri out,
  bd_signature_method b = Reveal name -> uri_safe name -> ~ In "&"%byte method ->
  makes_calls r cs -> Permutation (call_protos cs) all_protos ->
  Builder_authorize c e b method uri r = Ok out ->
  exists text, out = header_text (wire_fields (conf_of name e b) (call_protos cs)) (pct_encode text)
    /\ (starts_with (rfc_prefix method (dtext uri)) text
        <-> normal_method method /\ base_uri (dtext uri) = dtext uri).
Proof.
  intros c e b name r cs method uri out HB HN HM M P H.
  apply (reveal_authorize c e b name r cs method uri out HB HN M P) in H as [_ [_ ->]].
  eexists. split; [reflexivity|]. unfold starts_with, rfc_prefix, hashed_text, normal_method.
  change (lit "&") with ["&"%byte]. cbn [app]. split.
  - intros [t E]. rewrite <- !app_assoc in E. cbn [app] in E.
    pose proof (f_equal (split_at "&") E) as E1. rewrite !split_at_app in E1; auto.
    2: apply enc_no; [reflexivity|discriminate]. injection E1 as EM ER.
    rewrite <- ?app_assoc in ER. cbn [app] in ER.
    pose proof (f_equal (split_at "&") ER) as E2.
    rewrite !split_at_app in E2 by (apply enc_no; [reflexivity|discriminate]).
    injection E2 as EU _. apply pct_encode_inj in EU. split; congruence.
  - intros [EM EU]. rewrite EM, EU. eexists. rewrite <- !app_assoc. cbn [app].
    rewrite <- !app_assoc. cbn [app]. reflexivity.
Qed.
Print Assumptions C46_exact_partial.

Example C46_example : normal_method (lit "PATCH") /\ normal_uri (lit "https://example.com:8443/a/b%20c")
  /\ base_uri (lit "HTTPS://Example.COM:443?x=1") = lit "https://example.com/".
Proof.
  repeat split; try reflexivity. intros H. vm_compute in H. intuition discriminate.
Qed.
