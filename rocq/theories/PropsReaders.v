(** Property C91: what the crate writes is read alike by every standard reader.  The forms and queries are read here as
    the WHATWG's form parser reads them ("+" is a space, broken escapes stay, broken UTF-8 becomes U+FFFD, empty fields
    are dropped), the header by the grammar of RFC 7235, instead of the readers of RFC 5849. *)
From Coq Require Import String.
From Coq Require Import Lia Arith Sorted Permutation.
From Verif Require Import Bytes Crypto Spec MFmt MPercent MSerializer MSign MRequest MCredentials MAuth MBuilder ModelTests
  MHttp MServer SpecFmt SpecCalls SpecCalls2 SpecAuth SpecBuild SpecForm SpecServer SpecParams SpecSign SpecHttp
  LBytes LFmt LPercent LCrypto LTrace LAuth LSign LBuild LForm LBase LBase2 LReq LReq2 LPanic LTop LParams LServer
  LReveal LAny LBuf LHttp LText LGrammar LExample PropsHeader PropsForm.

(** ** The two readers of forms *)

Lemma decode_lossy : forall s t, pct_decode s = Some t -> utf8 t -> decode_utf8_lossy s = t.
Proof.
  intros s t H U. unfold decode_utf8_lossy. rewrite (percent_decode_pct (length s) s t (le_n _) H). now apply lossy_utf8.
Qed.

Lemma field_agree : forall f p, form_field f = Some p -> utf8_pair p -> field_of f = p.
Proof.
  intros f [k v] H [U1 U2]. cbn [fst snd] in *. unfold form_field in H. unfold field_of.
  assert (HS : split_at "=" f = (fst (splitn2 "=" f), snd (split_at "=" f))
    /\ match snd (split_at "=" f) with Some v => v | None => [] end = snd (splitn2 "=" f)).
  { clear. induction f as [|x f [IH1 IH2]]; [split; reflexivity|]. cbn [split_at splitn2].
    destruct (beqb x "="); [split; reflexivity|]. destruct (split_at "=" f) as [a o], (splitn2 "=" f) as [a' b].
    cbn [fst snd] in *. inversion IH1; subst. split; auto. }
  destruct HS as [H1 H2]. destruct (split_at "=" f) as [a o], (splitn2 "=" f) as [a' b]. cbn [fst snd] in *.
  inversion H1; subst a'. rewrite H2 in H.
  destruct (pct_decode (plus_to_space a)) as [k'|] eqn:E1; [|discriminate].
  destruct (pct_decode (plus_to_space b)) as [v'|] eqn:E2; [|discriminate]. inversion H; subst.
  rewrite !form_decode_eq. f_equal; now apply decode_lossy.
Qed.

Lemma fields_agree : forall fs l, all_some (map form_field fs) = Some l -> Forall utf8_pair l -> ~ In ([], []) l ->
  map field_of (filter nonempty fs) = l.
Proof.
  induction fs as [|f fs IH]; intros l H U N; cbn [map all_some] in H; [now inversion H|].
  destruct (form_field f) as [p|] eqn:E; [|discriminate]. destruct (all_some (map form_field fs)) as [l'|]; [|discriminate].
  cbn [option_map] in H. inversion H; subst. inversion U as [|? ? U1 U2]; subst.
  assert (HF : nonempty f = true).
  { destruct f; [|reflexivity]. exfalso. apply N. left. now inversion E. }
  cbn [filter]. rewrite HF. cbn [map]. rewrite (field_agree f p E U1). f_equal. apply IH; auto.
  intros HI. apply N. now right.
Qed.

(** A form that the reader of RFC 5849 understands, with text in it and no pair of empty texts, is read alike by both. *)
Theorem C91_readers_agree : forall form l, parse_form form = Some l -> Forall utf8_pair l -> ~ In ([], []) l ->
  forall l', form_reads_as form l' <-> l' = l.
Proof.
  intros form l H U N l'. rewrite form_reads_iff. unfold form_parse. rewrite form_loop_split by lia.
  assert (E : map field_of (filter nonempty (split_all "&" form)) = l).
  { destruct form as [|b form]; [inversion H; reflexivity|]. now apply fields_agree. }
  rewrite E. split; intros; congruence.
Qed.
Print Assumptions C91_readers_agree.

(** ** Forms and queries of requests *)

Lemma reads_text : forall l l', safe_keys l -> Forall utf8_pair l ->
  (form_reads_as (form_text (map enc_value l)) l' <-> l' = l).
Proof. intros l l' HS HU. rewrite form_reads_iff, form_parse_text by auto. split; intros; congruence. Qed.

Theorem C91_form : forall r cs l out, makes_calls r cs -> carries cs l -> safe_keys l -> Forall utf8_pair l ->
  to_form r = Ok out -> forall l', form_reads_as out l' <-> l' = l.
Proof.
  intros r cs l out HM HC HS HU H l'. apply (to_form_exact r cs out HM) in H as [_ ->]. rewrite HC.
  now apply reads_text.
Qed.
Print Assumptions C91_form.

Theorem C91_query : forall r cs l uri out, makes_calls r cs -> carries cs l -> safe_keys l -> Forall utf8_pair l ->
  l <> [] -> to_query uri r = Ok out ->
  exists query, out = uri ++ lit "?" ++ query /\ forall l', form_reads_as query l' <-> l' = l.
Proof.
  intros r cs l uri out HM HC HS HU HN H. apply (C14_every_request r cs uri out HM) in H as [_ ->]. rewrite HC.
  exists (form_text (map enc_value l)). split; [now destruct l|]. intros l'. now apply reads_text.
Qed.
Print Assumptions C91_query.

(** ** Signed requests *)

(** The strings of the builder are text, as strings are in Rust. *)
Definition optional_text (o : option bytes) : Prop := match o with Some s => utf8 s | None => True end.
Record text_builder (b : Builder) : Prop := {
  tb_client : utf8 (cr_identifier (bd_client b)) /\ utf8 (cr_secret (bd_client b));
  tb_token : match bd_token b with Some t => utf8 (cr_identifier t) /\ utf8 (cr_secret t) | None => True end;
  tb_callback : optional_text (op_callback (bd_options b));
  tb_nonce : optional_text (op_nonce (bd_options b));
  tb_verifier : optional_text (op_verifier (bd_options b));
}.

Lemma text_pairs : forall name e b, text_builder b -> uri_safe name ->
  Forall utf8_pair (protocol_pairs (conf_of name e b)).
Proof.
  intros name e b [H1 H2 H3 H4 H5] HN. apply Forall_forall. intros f Hf.
  apply in_flat_map in Hf as [p [_ Hf]]. destruct (sent (conf_of name e b) 0 0 p) as [v|] eqn:E; [|destruct Hf].
  destruct Hf as [<-|[]]. split; [apply safe_utf8, proto_key_safe|]. cbn [snd].
  destruct p; cbn in E.
  - now rewrite E in H3.
  - inversion E; subst. tauto.
  - inversion E; subst. destruct (op_nonce (bd_options b)) eqn:EN; unfold nonce_value; cbn [conf_of conf_with cn_options];
      rewrite EN; [exact H4|]. rewrite nonce_of_bytes_text. apply safe_utf8, nonce_text_safe.
  - inversion E; subst. now apply safe_utf8.
  - inversion E; subst. apply safe_utf8, decimal_safe.
  - destruct (bd_token b) as [t|]; [|discriminate]. inversion E; subst. tauto.
  - now rewrite E in H5.
  - destruct (op_version (bd_options b)); [|discriminate]. inversion E; subst. now apply utf8_text.
Qed.

Lemma base64_text : forall x, utf8 (base64 b64_std true x).
Proof.
  intros x. apply utf8_ascii, Forall_forall. intros y Hy. apply base64_chars in Hy; [|reflexivity].
  assert (HB : forallb (fun x => (bn x <? 128)%N) (b64_std ++ lit "=") = true) by reflexivity.
  rewrite forallb_forall in HB. apply N.ltb_lt, HB. apply in_app_iff. destruct Hy as [Hy|[_ Hy]]; [now left|].
  right. rewrite Hy. now left.
Qed.

Lemma builtin_text : forall sm name strict f b text sig, builtin sm name strict f -> text_builder b ->
  f (client_secret b) (token_secret b) text = Some sig ->
  ~ In """"%byte sig /\ Forall qdtext sig /\ exists raw, pct_decode sig = Some raw /\ utf8 raw
    /\ (strict = true -> sig = pct_encode raw).
Proof.
  intros sm name strict f b text sig HB HT H. split; [now apply (builtin_decodes _ _ _ _ _ _ _ _ HB H)|].
  destruct HB; cbn beta in H.
  - inversion H. split; [apply enc_qdtext|]. eexists. split; [apply pct_decode_encode|]. split; [apply base64_text|auto].
  - inversion H. unfold signing_key. split.
    + apply Forall_app. split; [apply enc_qdtext|]. apply Forall_app. split; [|apply enc_qdtext].
      constructor; [|constructor]. now apply qdtext_iff.
    + eexists. split; [rewrite pct_decode_encode_app; change (lit "&" ++ ?x) with ("&"%byte :: x); cbn [pct_decode beqb];
        rewrite pct_decode_encode; reflexivity|]. split; [|discriminate].
      apply utf8_app; [apply HT|]. change (?x :: ?y) with ([x] ++ y). apply utf8_app; [now apply utf8_text|].
      unfold token_secret. pose proof (tb_token b HT). destruct (bd_token b); cbn; [tauto|apply utf8_nil].
  - destruct (key (sha1 text)) as [s|]; [|discriminate]. inversion H. split; [apply enc_qdtext|]. eexists.
    split; [apply pct_decode_encode|]. split; [apply base64_text|auto].
  - destruct (key (sha1 text)) as [s|]; [|discriminate]. inversion H. split; [apply enc_qdtext|]. eexists.
    split; [apply pct_decode_encode|]. split; [apply base64_text|auto].
Qed.

Lemma signed_reads : forall name e b raw, text_builder b -> uri_safe name -> utf8 raw ->
  let l := protocol_pairs (conf_of name e b) ++ [(lit "oauth_signature", raw)] in
  form_parse (form_text (wire_fields (conf_of name e b) all_protos ++ [(lit "oauth_signature", pct_encode raw)])) = l.
Proof.
  intros name e b raw HT HN HU l.
  assert (HE : wire_fields (conf_of name e b) all_protos ++ [(lit "oauth_signature", pct_encode raw)] = map enc_value l).
  { unfold l. rewrite map_app. f_equal. rewrite <- raw_all. now apply wire_enc. }
  rewrite HE. apply form_parse_text.
  - apply Forall_app. split.
    + apply Forall_forall. intros f Hf. apply in_flat_map in Hf as [p [_ Hf]].
      destruct (sent (conf_of name e b) 0 0 p); [|destruct Hf]. destruct Hf as [<-|[]]. apply proto_key_safe.
    + constructor; [|constructor]. apply safe_name. reflexivity.
  - apply Forall_app. split; [now apply text_pairs|]. constructor; [|constructor]. split; [now apply utf8_text|exact HU].
Qed.

(** The signed form, also behind a body that is already there: both are read, one after the other. *)
Lemma split_all_sep : forall sep a b, split_all sep (a ++ sep :: b) = split_all sep a ++ split_all sep b.
Proof.
  intros sep a b. induction a as [|x a IH]; cbn [app split_all].
  - now rewrite (proj2 (beqb_eq sep sep) eq_refl).
  - rewrite IH. destruct (beqb x sep); [reflexivity|]. pose proof (split_all_nonempty sep a) as HN.
    destruct (split_all sep a); [congruence|reflexivity].
Qed.

Theorem C91_signed_form : forall c e b name f r cs method uri out body,
  builtin (bd_signature_method b) name true f -> text_builder b ->
  makes_calls r cs -> call_protos cs = all_protos ->
  Builder_to_form_with_buf c e b (w := StringW) body method uri r = Ok out ->
  exists sig,
    let signed := protocol_pairs (conf_of name e b) ++ [(lit "oauth_signature", sig)] in
    (body = [] -> forall l', form_reads_as out l' <-> l' = signed)
    /\ (forall start l, body = start ++ lit "&" -> form_reads_as start l ->
          forall l', form_reads_as out l' <-> l' = l ++ signed).
Proof.
  intros c e b name f r cs method uri out body HB HT HM HP H.
  apply (to_form_with_buf_exact c e b _ _ _ HB r cs HM (protos_perm cs HP) body) in H as [_ [_ [sig [ES ->]]]].
  unfold sig_of in ES. destruct (builtin_text _ _ _ _ b _ _ HB HT ES) as [_ [_ [raw [_ [HU HR]]]]].
  rewrite (HR eq_refl). exists raw. cbv zeta. rewrite HP.
  pose proof (sa_safe _ _ _ _ (builtin_signs_as _ _ _ _ HB)) as HN.
  pose proof (signed_reads name e b raw HT HN HU) as HF. cbv zeta in HF. split.
  - intros -> l'. cbn [app]. rewrite form_reads_iff, HF. split; intros; congruence.
  - intros start l -> HS l'. apply form_reads_iff in HS. rewrite form_reads_iff. rewrite <- HF, <- HS.
    unfold form_parse. rewrite !form_loop_split by lia. rewrite <- app_assoc.
    change (lit "&" ++ ?x) with ("&"%byte :: x). rewrite split_all_sep, filter_app, map_app. split; intros; congruence.
Qed.
Print Assumptions C91_signed_form.

Theorem C91_signed_query : forall c e b name f r cs method uri out,
  builtin (bd_signature_method b) name true f -> text_builder b ->
  makes_calls r cs -> call_protos cs = all_protos ->
  Builder_to_query c e (w := StringW) dstr b method uri r = Ok out ->
  exists sig query, out = uri ++ lit "?" ++ query
    /\ forall l', form_reads_as query l' <-> l' = protocol_pairs (conf_of name e b) ++ [(lit "oauth_signature", sig)].
Proof.
  intros c e b name f r cs method uri out HB HT HM HP H.
  apply (to_query_exact' c e b _ _ _ HB r cs HM (protos_perm cs HP) uri) in H as [_ [_ [sig [ES ->]]]].
  unfold sig_of in ES. destruct (builtin_text _ _ _ _ b _ _ HB HT ES) as [_ [_ [raw [_ [HU HR]]]]].
  rewrite (HR eq_refl). rewrite HP. exists raw. eexists. split.
  - instantiate (1 := form_text (wire_fields (conf_of name e b) all_protos ++ [(lit "oauth_signature", pct_encode raw)])).
    generalize (wire_fields (conf_of name e b) all_protos). intros fs. now destruct fs.
  - intros l'. rewrite form_reads_iff.
    pose proof (sa_safe _ _ _ _ (builtin_signs_as _ _ _ _ HB)) as HN.
    pose proof (signed_reads name e b raw HT HN HU) as HF. cbv zeta in HF. rewrite HF. split; intros; congruence.
Qed.
Print Assumptions C91_signed_query.

Lemma params_stop : forall eo s l, params_list_text eo s l -> l <> [] -> stops nom_is_space s.
Proof.
  intros eo s l H HN. destruct H as [|a p s l HA HM]; [congruence|].
  apply auth_param_text_nonempty in HA as [K1 K2]. destruct a; [cbn in K2; lia|exact K1].
Qed.

(** The header: it has the scheme OAuth; under the grammar of RFC 7235, whatever number of spaces is allowed after the
    scheme, there is just one list of parameters to read, and percent-decoded it is the protocol parameters and the
    signature, which the reader of RFC 5849 finds as well.  This holds for every built-in method. *)
Theorem C91_header : forall c e b name strict f r cs method uri out,
  builtin (bd_signature_method b) name strict f -> text_builder b ->
  makes_calls r cs -> call_protos cs = all_protos ->
  Builder_authorize c e b method uri r = Ok out ->
  exists sig,
    let params := protocol_pairs (conf_of name e b) ++ [(lit "oauth_signature", sig)] in
    has_scheme (lit "OAuth") out /\ parse_header out = Some params
    /\ forall n, 1 <= n -> exists wire, (forall l, authorization_text true (lit "OAuth") n out l <-> l = wire)
         /\ forall decoded, Forall2 pair_decodes_to wire decoded <-> decoded = params.
Proof.
  intros c e b name strict f r cs method uri out HB HT HM HP H.
  apply (authorize_exact c e b _ _ _ HB r cs HM (protos_perm cs HP)) in H as [_ [_ [sig [ES ->]]]].
  unfold sig_of in ES. destruct (builtin_text _ _ _ _ b _ _ HB HT ES) as [HQ [HD [raw [HR [HU _]]]]].
  pose proof (sa_safe _ _ _ _ (builtin_signs_as _ _ _ _ HB)) as HN. rewrite HP. exists raw. cbv zeta.
  set (fs := wire_fields (conf_of name e b) all_protos).
  assert (HW : Forall (wire_ok true) fs) by (apply wire_fields_ok; auto).
  assert (HS : wire_ok true (lit "oauth_signature", sig)).
  { split; [apply token_check; [discriminate|reflexivity]|]. split; [exact HD|now right]. }
  destruct (header_grammar true fs sig HW HS) as [HG HH]. split; [exact HH|]. split.
  { rewrite <- raw_all. apply parse_header_text; auto. now apply wire_reads. }
  intros n Hn. exists (fs ++ [(lit "oauth_signature", sig)]). split.
  - pose proof (header_params true fs _ HW HS) as HL.
    set (t := concat (map header_field fs) ++ ptext (lit "oauth_signature", sig)) in *.
    assert (E : header_text fs sig = lit "OAuth" ++ repeat " "%byte 1 ++ t).
    { unfold header_text, t, ptext. cbn [fst snd repeat]. change (lit "OAuth ") with (lit "OAuth" ++ [" "%byte]).
      rewrite <- !app_assoc. reflexivity. }
    intros l. rewrite E. split; [|intros ->; now apply (at_params true (lit "OAuth") n 1 t _ (conj (le_n 1) Hn))].
    remember (lit "OAuth" ++ repeat " "%byte 1 ++ t) as h eqn:Eh. intros HA. destruct HA as [|m s l Hm HA].
    + rewrite <- (app_nil_r (lit "OAuth")) in Eh at 1. apply app_inv_head in Eh. discriminate.
    + apply app_inv_head in Eh. destruct m as [|m]; [lia|]. cbn [repeat app] in Eh. inversion Eh as [E2]. clear Eh.
      assert (m = 0) as ->.
      { pose proof (params_stop true t _ HL) as K. destruct m as [|m]; auto. exfalso. rewrite <- E2 in K.
        cbn [repeat app] in K. assert (K2 : stops nom_is_space (" "%byte :: repeat " "%byte m ++ s))
          by (apply K; destruct fs; discriminate). discriminate K2. }
      cbn [repeat app] in E2. subst s. apply hash_iff in HA. apply hash_iff in HL. rewrite HL in HA. now inversion HA.
  - intros decoded. rewrite pairs_read_iff.
    assert (E1 : map decode_pair (fs ++ [(lit "oauth_signature", sig)])
      = protocol_pairs (conf_of name e b) ++ [(lit "oauth_signature", raw)]).
    { etransitivity; [apply map_app|]. f_equal.
      - rewrite <- raw_all. apply (wire_decoded (conf_of name e b) all_protos HN). rewrite raw_all. now apply text_pairs.
      - cbn [map]. unfold decode_pair. cbn [fst snd].
        rewrite (decode_lossy sig raw HR HU), decode_safe by (apply safe_name; reflexivity). reflexivity. }
    split; [intros <-; exact E1|intros ->; exact E1].
Qed.
Print Assumptions C91_header.

(** ** Examples *)

Example C91_example_form : exists l, parse_form (lit "a=1%20%26&b=&c=x+y") = Some l /\ Forall utf8_pair l /\ ~ In ([], []) l
  /\ length l = 3.
Proof.
  eexists. split; [reflexivity|]. split; [|split; [|reflexivity]].
  - repeat (constructor; [now apply utf8_pair_ascii|]). constructor.
  - cbn. intuition discriminate.
Qed.

(** The two readers differ outside that: on an empty field, and on a broken escape. *)
Example C91_example_empty_field : parse_form (lit "&a=1") = Some [([], []); (lit "a", lit "1")]
  /\ form_reads_as (lit "&a=1") [(lit "a", lit "1")].
Proof. split; [reflexivity|]. now apply form_reads_iff. Qed.
Example C91_example_escape : parse_form (lit "a=1%2") = None /\ form_reads_as (lit "a=1%2") [(lit "a", lit "1%2")].
Proof. split; [reflexivity|]. now apply form_reads_iff. Qed.

(** The client of the documentation, with text that is not ASCII: "\u{e9}", in UTF-8. *)
Definition reader_builder : Builder :=
  Builder_callback (Some (lit "http://h/?a=b+c""" ++ [xc3; xa9])) (Builder_nonce (Some (lit "n")) doc_builder).
Example C91_example_builder : text_builder reader_builder
  /\ exists f, builtin (bd_signature_method reader_builder) (lit "HMAC-SHA1") true f.
Proof.
  split; [|eexists; constructor]. split; cbn; try (split; now apply utf8_text); try (now apply utf8_text); try exact I.
  change (utf8 (lit "http://h/?a=b+c""" ++ [xc3; xa9])). apply utf8_app; [now apply utf8_text|].
  apply utf8_one. apply u2; split; discriminate.
Qed.
Example C91_example_signed :
  match Builder_to_form_with_buf dbg_std env0 reader_builder (w := StringW) (lit "&a=1+2&&b&") (lit "POST") (s2d "http://h/") Request_unit,
        Builder_authorize dbg_std env0 reader_builder (lit "POST") (s2d "http://h/") Request_unit with
  | Ok form, Ok header =>
      match form_parse form, parse_header header with
      | (k1, v1) :: (k2, v2) :: l, Some l' =>
          bseqb k1 (lit "a") && bseqb v1 (lit "1 2") && bseqb k2 (lit "b") && bseqb v2 []
          && bseqb (concat (lookup (lit "oauth_callback") l)) (lit "http://h/?a=b+c""" ++ [xc3; xa9])
          && bseqb (concat (map snd l)) (concat (map snd l'))
      | _, _ => false
      end
  | _, _ => false
  end = true.
Proof. vm_compute. reflexivity. Qed.

Definition reader_pairs : list kv := [kvs "a" "1+2 &="; (lit "b", dstr [xc3; xa9]); kvs "b" ""].
Example C91_example_request : makes_calls (AssertSorted true reader_pairs) (calls_of reader_pairs)
  /\ carries (calls_of reader_pairs) (texts reader_pairs) /\ safe_keys (texts reader_pairs)
  /\ Forall utf8_pair (texts reader_pairs)
  /\ to_form (AssertSorted true reader_pairs) = Ok (lit "a=1%2B2%20%26%3D&b=%C3%A9&b=").
Proof.
  split; [apply crate_request_calls, cq_sorted|]. split; [reflexivity|]. split; [|split; [|reflexivity]].
  - repeat constructor; intros x Hx; cbn in Hx; intuition; subst; reflexivity.
  - constructor; [now apply utf8_pair_ascii|]. constructor; [|constructor; [now apply utf8_pair_ascii|constructor]].
    split; [now apply utf8_text|]. apply utf8_one. apply u2; split; discriminate.
Qed.
