(** C95: where the parameters are sent and how they are written does not matter. *)
From Coq Require Import String.
From Coq Require Import Lia Arith Sorted Permutation.
From Verif Require Import Bytes Crypto Spec MFmt MPercent MSerializer MSign MRequest MCredentials MAuth MBuilder ModelTests
  SpecFmt SpecCalls SpecCalls2 SpecAuth SpecBuild SpecForm SpecServer SpecServer2 SpecParams SpecSign SpecReplay
  LBytes LFmt LPercent LTrace LAuth LSign LBuild LForm LBase LReq LReq2 LPanic LTop LParams LServer
  Rsa LRsa PropsServer PropsHeader PropsSign PropsServer2 PropsRsa PropsForge.
From Verif Require PropsExample.
Local Open Scope nat_scope.

(** The parameters in what the builder makes of the request, in one of its three forms. *)
Inductive client_params (c : cfg) (e : env) (b : Builder) (method uri : bytes) (r : Request) (h : list pair) : Prop :=
  | cp_header : forall d header, dtext d = uri -> Builder_authorize c e b method d r = Ok header ->
      parse_header header = Some h -> client_params c e b method uri r h
  | cp_form : forall d body, dtext d = uri -> Builder_to_form c e b method d r = Ok body ->
      parse_form body = Some h -> client_params c e b method uri r h
  | cp_query : forall query base, ~ has_question uri -> Builder_to_query c e (w := StringW) dstr b method uri r = Ok query ->
      parse_uri query = Some (base, h) -> client_params c e b method uri r h.

(** The request that reaches the server is the signed one: the method up to letter case, the URI up to what RFC 5849 section
    3.4.1.2 evens out, and the parameters up to their order, wherever they are and however they are written. *)
Definition same_message (method uri : bytes) (params : list pair) (m : message) : Prop :=
  map to_upper (ms_method m) = map to_upper method
  /\ (exists base q, parse_uri (ms_uri m) = Some (base, q) /\ base_uri base = uri)
  /\ exists params', params_in m = Some params' /\ Permutation params' params.

(** The server's decision about a message. *)
Definition decides (check : bytes -> bytes -> bytes -> bool) (m : message) : option (list pair) :=
  server_check check (ms_method m) (ms_uri m) (ms_header m) (ms_body m).

Lemma params_hmac : forall c e b method uri r h l, bd_signature_method b = HMAC_SHA1 -> honest r l -> normal_method method ->
  client_params c e b method uri r h -> h = protocol_pairs (hmac_conf e b) ++ [(lit "oauth_signature", rfc_signature e b method uri l)].
Proof.
  intros c e b method uri r h l HB HR HM H. destruct H as [d header <- H HP|d body <- H HP|query base HQ H HP].
  - rewrite (C17_read_back c e b r l method d header HB HR HM H) in HP. now inversion HP.
  - rewrite (C17_form c e b r l method d body HB HR HM H) in HP.
    rewrite (proj1 (fields_parse (hmac_conf e b) (rfc_signature e b method (dtext d) l) (or_introl eq_refl))) in HP. now inversion HP.
  - rewrite (C17_query c e b r l method uri query HB HR HM H) in HP.
    rewrite (proj2 (fields_parse (hmac_conf e b) (rfc_signature e b method uri l) (or_introl eq_refl)) uri HQ) in HP. now inversion HP.
Qed.

Lemma params_rsa : forall c e b private method uri r h l, signs_with b private -> honest r l -> normal_method method ->
  client_params c e b method uri r h ->
  exists x, pkcs1_sign private (sha1 (base_string method uri (protocol_pairs (rsa_conf e b) ++ l))) = Some x
    /\ h = protocol_pairs (rsa_conf e b) ++ [(lit "oauth_signature", base64 b64_std true x)].
Proof.
  intros c e b private method uri r h l HB HR HM H.
  assert (HBI : builtin (bd_signature_method b) (lit "RSA-SHA1") true
    (fun _ _ text => option_map (fun s => pct_encode (base64 b64_std true s)) (pkcs1_sign private (sha1 text)))).
  { destruct HB as [->| ->]; constructor. }
  destruct H as [d header <- H HP|d body <- H HP|query base HQ H HP].
  - destruct (rsa_header c e b private r l method d header HB HR HM H) as [x [ES [_ HH]]]. exists x. split; [exact ES|].
    rewrite HH in HP. now inversion HP.
  - destruct HR as [cs [M [P [A [D [C [S [O R]]]]]]]].
    assert (HPm : Permutation (call_protos cs) all_protos) by now rewrite P.
    apply (to_form_with_buf_exact c e b _ _ _ HBI r cs M HPm []) in H as [_ [_ [sig [ES EO]]]].
    unfold sig_of in ES. rewrite (hashed_is_base _ cs l method _ HM HPm A C S O R) in ES. unfold rsa_conf.
    destruct (pkcs1_sign private _) as [x|]; [|discriminate]. exists x. split; [reflexivity|].
    cbn [option_map] in ES. injection ES as <-. rewrite P in EO. subst body. cbn [app] in HP.
    rewrite (proj1 (fields_parse (conf_of (lit "RSA-SHA1") e b) (base64 b64_std true x) (or_intror eq_refl))) in HP. now inversion HP.
  - destruct HR as [cs [M [P [A [D [C [S [O R]]]]]]]].
    assert (HPm : Permutation (call_protos cs) all_protos) by now rewrite P.
    apply (to_query_exact' c e b _ _ _ HBI r cs M HPm uri) in H as [_ [_ [sig [ES EO]]]].
    unfold sig_of in ES. rewrite (hashed_is_base _ cs l method _ HM HPm A C S O R) in ES. unfold rsa_conf.
    destruct (pkcs1_sign private _) as [x|]; [|discriminate]. exists x. split; [reflexivity|].
    cbn [option_map] in ES. injection ES as <-. rewrite P in EO. subst query.
    rewrite (proj2 (fields_parse (conf_of (lit "RSA-SHA1") e b) (base64 b64_std true x) (or_intror eq_refl)) uri HQ) in HP.
    now inversion HP.
Qed.

Lemma shown_app : forall cf sig l, (protocol_pairs cf ++ [(lit "oauth_signature", sig)]) ++ l = shown cf sig l.
Proof. intros. unfold shown. now rewrite <- app_assoc. Qed.

(** A message with the parameters of the client, in any order, is accepted by a server that agrees with the signature. *)
Lemma message_accepted : forall check cf sig l method uri m params base q,
  no_oauth_keys l -> check (cn_name cf) sig (base_string method uri (protocol_pairs cf ++ l)) = true ->
  map to_upper (ms_method m) = map to_upper method -> parse_uri (ms_uri m) = Some (base, q) -> base_uri base = uri ->
  params_in m = Some params -> Permutation params (shown cf sig l) ->
  decides check m = Some params.
Proof.
  intros check cf sig l method uri m params base q HO HC EM EU EB EP HP. unfold params_in in EP.
  destruct (match ms_header m with Some h => parse_header h | None => Some [] end) as [h|] eqn:EH; [|discriminate].
  rewrite EU in EP. destruct (parse_form (ms_body m)) as [bd|] eqn:EF; [|discriminate]. injection EP as <-.
  unfold decides. eapply (check_accepts check cf sig l (ms_method m) (ms_uri m) base); eauto.
  intros text ->. rewrite EB. assert (X : base_string (ms_method m) uri (protocol_pairs cf ++ l) = base_string method uri (protocol_pairs cf ++ l)).
  { unfold base_string. now rewrite EM. }
  now rewrite X.
Qed.

(** What a server says to a message that can be read and has one signature and one signature method. *)
Lemma message_decided : forall check m params base q s name, params_in m = Some params -> parse_uri (ms_uri m) = Some (base, q) ->
  lookup (lit "oauth_signature") params = [s] -> lookup (lit "oauth_signature_method") params = [name] ->
  decides check m = if check name s (base_string (ms_method m) (base_uri base) (unsigned params)) then Some params else None.
Proof.
  intros check m params base q s name EP EU L1 L2. unfold params_in in EP.
  destruct (match ms_header m with Some h => parse_header h | None => Some [] end) as [h|] eqn:EH; [|discriminate].
  rewrite EU in EP. destruct (parse_form (ms_body m)) as [bd|] eqn:EF; [|discriminate]. injection EP as <-.
  unfold decides, server_check. rewrite EH, EU, EF. cbv zeta. rewrite L1, L2. reflexivity.
Qed.

(** One signature: with the signature taken out of a permutation of the whole, the rest is the rest. *)
Lemma perm_unsigned : forall cf sig l params, no_oauth_keys l ->
  lookup (lit "oauth_signature") params = [sig] ->
  (Permutation params (shown cf sig l) <-> Permutation (unsigned params) (protocol_pairs cf ++ l)).
Proof.
  intros cf sig l params HO HL. split; intros P.
  - rewrite <- (shown_signed cf sig l HO). now apply filter_perm.
  - assert (X : Permutation params ((lit "oauth_signature", sig) :: unsigned params)).
    { clear P. revert HL. induction params as [|[k v] ps IH]; intros HL; [discriminate|]. unfold lookup in HL. cbn [filter fst] in HL.
      unfold unsigned. cbn [filter]. unfold has_key at 1. cbn [fst]. destruct (bseqb k (lit "oauth_signature")) eqn:E.
      - cbn [map snd] in HL. injection HL as HV HN. apply bseqb_eq in E. subst k v. cbn [negb]. constructor.
        assert (Y : filter (fun p => negb (has_key (lit "oauth_signature") p)) ps = ps).
        { apply filter_all. intros p Hp. unfold has_key. destruct (bseqb (fst p) (lit "oauth_signature")) eqn:E; [|reflexivity]. exfalso.
          assert (I : In p (filter (fun p => bseqb (fst p) (lit "oauth_signature")) ps)) by (apply filter_In; auto).
          apply (in_map snd) in I. rewrite HN in I. destruct I. }
        now rewrite Y.
      - cbn [negb]. rewrite perm_swap. constructor. apply IH. exact HL. }
    rewrite X. unfold shown. rewrite <- Permutation_middle. now constructor.
Qed.

(** ** C95 *)

(** HMAC-SHA1: the builder signs once, as a header, a form or a query.  Send these parameters and those of the request in
    whatever parts of a message, in whatever order, written by whatever encoder: the server accepts it and sees them. *)
Theorem C95_hmac : forall c e b method uri r l h m,
  bd_signature_method b = HMAC_SHA1 -> honest r l -> normal_method method ->
  client_params c e b method uri r h -> same_message method uri (h ++ l) m ->
  decides (hmac_check (client_secret b) (token_secret b)) m = params_in m /\ params_in m <> None.
Proof.
  intros c e b method uri r l h m HB HR HM HC [EM [[base [q [EU EB]]] [params [EP HP]]]].
  rewrite EP. split; [|discriminate]. rewrite (params_hmac c e b method uri r h l HB HR HM HC), shown_app in HP.
  eapply message_accepted; eauto.
  - apply (tr_oauth r l HR).
  - unfold hmac_check, rfc_signature. change (cn_name (hmac_conf e b)) with (lit "HMAC-SHA1"). now rewrite !bseqb_refl.
Qed.
Print Assumptions C95_hmac.

(** And no other message with this signature, unless two different texts have the same HMAC. *)
Theorem C95_hmac_only : forall c e b method uri r l h s m params base q,
  bd_signature_method b = HMAC_SHA1 -> honest r l -> normal_method method ->
  client_params c e b method uri r h -> In (lit "oauth_signature", s) h ->
  params_in m = Some params -> parse_uri (ms_uri m) = Some (base, q) ->
  lookup (lit "oauth_signature") params = [s] -> lookup (lit "oauth_signature_method") params = [lit "HMAC-SHA1"] ->
  (decides (hmac_check (client_secret b) (token_secret b)) m <> None <->
   same_message method uri (h ++ l) m
   \/ let text := base_string method uri (protocol_pairs (hmac_conf e b) ++ l) in
      let text' := base_string (ms_method m) (base_uri base) (unsigned params) in
      let key := signing_key (client_secret b) (token_secret b) in
      text <> text' /\ hmac_sha1 key text = hmac_sha1 key text').
Proof.
  intros c e b method uri r l h s m params base q HB HR HM HC HS EP EU L1 L2. cbv zeta.
  pose proof (params_hmac c e b method uri r h l HB HR HM HC) as EH. rewrite EH in HS. apply in_app_iff in HS as [HS|[HS|[]]].
  { exfalso. rewrite <- raw_all in HS. apply raw_in in HS as [p [_ [E _]]]. cbn [fst] in E. now apply (sig_not_proto p). }
  assert (ES : s = rfc_signature e b method uri l) by congruence. clear HS.
  split.
  - intros HD. rewrite (message_decided _ m params base q _ _ EP EU L1 L2) in HD.
    destruct (hmac_check _ _ _ _ _) eqn:E; [clear HD|congruence]. unfold hmac_check in E. apply andb_prop in E as [_ E]. apply bseqb_eq in E.
    rewrite ES in E. unfold rfc_signature, hmac_signature in E. apply (f_equal PropsExample.unbase64) in E.
    rewrite !PropsExample.unbase64_base64 in E.
    destruct (list_eq_dec Byte.byte_eq_dec (base_string method uri (protocol_pairs (hmac_conf e b) ++ l))
      (base_string (ms_method m) (base_uri base) (unsigned params))) as [ET|NT]; [left|now right].
    apply C19_base_string in ET as [T1 [T2 T3]]. split; [congruence|]. split; [exists base, q; split; [exact EU|congruence]|].
    exists params. split; [exact EP|]. rewrite EH, shown_app. apply perm_unsigned; [apply (tr_oauth r l HR)|congruence|now apply Permutation_sym].
  - intros [H|[_ E]].
    + destruct (C95_hmac c e b method uri r l h m HB HR HM HC H) as [E N]. now rewrite E.
    + rewrite (message_decided _ m params base q _ _ EP EU L1 L2). unfold hmac_check. rewrite bseqb_refl, ES. unfold rfc_signature, hmac_signature.
      rewrite E, bseqb_refl. discriminate.
Qed.
Print Assumptions C95_hmac_only.

(** In particular the header goes with every body and query that has the parameters of the request, by any encoder. *)
Theorem C95_any_encoder : forall c e b method d r l header method' uri' body' base q body,
  bd_signature_method b = HMAC_SHA1 -> honest r l -> normal_method method ->
  Builder_authorize c e b method d r = Ok header ->
  map to_upper method' = map to_upper method -> parse_uri uri' = Some (base, q) -> base_uri base = dtext d ->
  parse_form body' = Some body -> Permutation (q ++ body) l ->
  exists h, parse_header header = Some h
    /\ server_check (hmac_check (client_secret b) (token_secret b)) method' uri' (Some header) body' = Some (h ++ q ++ body).
Proof.
  intros c e b method d r l header method' uri' body' base q body HB HR HM H EM EU EB EF HP.
  pose proof (C17_read_back c e b r l method d header HB HR HM H) as HH. eexists. split; [exact HH|].
  assert (EP : params_in (Message method' uri' (Some header) body')
    = Some ((protocol_pairs (hmac_conf e b) ++ [(lit "oauth_signature", rfc_signature e b method (dtext d) l)]) ++ q ++ body)).
  { unfold params_in. cbn [ms_header ms_uri ms_body]. rewrite HH, EU, EF. unfold all_params. now rewrite no_realm. }
  rewrite <- EP. apply (C95_hmac c e b method (dtext d) r l _ (Message method' uri' (Some header) body') HB HR HM (cp_header _ _ _ _ _ _ _ d header eq_refl H HH)).
  split; [exact EM|]. split; [exists base, q; auto|]. eexists. split; [exact EP|]. now apply Permutation_app_head.
Qed.
Print Assumptions C95_any_encoder.

(** RSA-SHA1, at a server with the public key: the same, unless two different texts have the same SHA-1 digest. *)
Theorem C95_rsa : forall c e b public private decode method uri r l h m,
  key_pair public private -> signs_with b private -> (forall x, decode (base64 b64_std true x) = Some x) ->
  honest r l -> normal_method method ->
  client_params c e b method uri r h -> same_message method uri (h ++ l) m ->
  decides (rsa_check decode (pkcs1_verify public)) m = params_in m /\ params_in m <> None.
Proof.
  intros c e b public private decode method uri r l h m HK HB HD HR HM HC [EM [[base [q [EU EB]]] [params [EP HP]]]].
  rewrite EP. split; [|discriminate]. destruct (params_rsa c e b private method uri r h l HB HR HM HC) as [x [EX ->]]. rewrite shown_app in HP.
  eapply message_accepted; eauto.
  - apply (tr_oauth r l HR).
  - unfold rsa_check. change (cn_name (rsa_conf e b)) with (lit "RSA-SHA1"). rewrite bseqb_refl, HD. cbn [andb].
    exact (proj2 (sign_verify public private _ _ HK) EX).
Qed.
Print Assumptions C95_rsa.

Theorem C95_rsa_only : forall c e b public private decode method uri r l h s m params base q,
  key_pair public private -> signs_with b private -> (forall x, decode (base64 b64_std true x) = Some x) ->
  honest r l -> normal_method method ->
  client_params c e b method uri r h -> In (lit "oauth_signature", s) h ->
  params_in m = Some params -> parse_uri (ms_uri m) = Some (base, q) ->
  lookup (lit "oauth_signature") params = [s] -> lookup (lit "oauth_signature_method") params = [lit "RSA-SHA1"] ->
  (decides (rsa_check decode (pkcs1_verify public)) m <> None <->
   same_message method uri (h ++ l) m
   \/ let text := base_string method uri (protocol_pairs (rsa_conf e b) ++ l) in
      let text' := base_string (ms_method m) (base_uri base) (unsigned params) in
      text <> text' /\ sha1 text = sha1 text').
Proof.
  intros c e b public private decode method uri r l h s m params base q HK HB HD HR HM HC HS EP EU L1 L2. cbv zeta.
  destruct (params_rsa c e b private method uri r h l HB HR HM HC) as [x [EX EH]]. rewrite EH in HS. apply in_app_iff in HS as [HS|[HS|[]]].
  { exfalso. rewrite <- raw_all in HS. apply raw_in in HS as [p [_ [E _]]]. cbn [fst] in E. now apply (sig_not_proto p). }
  assert (ES : s = base64 b64_std true x) by congruence. clear HS. pose proof (proj2 (sign_verify public private _ _ HK) EX) as EV.
  split.
  - intros HN. rewrite (message_decided _ m params base q _ _ EP EU L1 L2) in HN.
    destruct (rsa_check _ _ _ _ _) eqn:E; [clear HN|congruence]. unfold rsa_check in E. apply andb_prop in E as [_ E].
    rewrite ES, HD in E. pose proof (verify_inj _ _ _ _ EV E) as E'.
    destruct (list_eq_dec Byte.byte_eq_dec (base_string method uri (protocol_pairs (rsa_conf e b) ++ l))
      (base_string (ms_method m) (base_uri base) (unsigned params))) as [ET|NT]; [left|now right].
    apply C19_base_string in ET as [T1 [T2 T3]]. split; [congruence|]. split; [exists base, q; split; [exact EU|congruence]|].
    exists params. split; [exact EP|]. rewrite EH, shown_app. apply perm_unsigned; [apply (tr_oauth r l HR)|congruence|now apply Permutation_sym].
  - intros [H|[_ E]].
    + destruct (C95_rsa c e b public private decode method uri r l h m HK HB HD HR HM HC H) as [E N]. now rewrite E.
    + rewrite (message_decided _ m params base q _ _ EP EU L1 L2). unfold rsa_check. rewrite bseqb_refl, ES, HD. cbn [andb]. rewrite <- E, EV. discriminate.
Qed.
Print Assumptions C95_rsa_only.

(** ** Examples *)

(** The request of C18 (a=1 2, c=&=, c=z, p=q).  The header as it is; the parameters by other encoders: a "+" for the space,
    hexadecimal digits in lower case, letters escaped for no reason, another order, some in the query.  The host and the
    method are written differently, too. *)
Definition move_body : bytes := lit "p=%71&c=z".
Definition move_uri : bytes := lit "HTTP://Example.COM:80/x?c=%26%3d&a=1+2".
Definition move_checks (header : option bytes) (method uri body : bytes) : bool :=
  match decides ex_check (Message method uri header body) with Some _ => true | None => false end.

Example C95_example :
  parse_uri move_uri = Some (lit "HTTP://Example.COM:80/x", [(lit "c", lit "&="); (lit "a", lit "1 2")])
  /\ base_uri (lit "HTTP://Example.COM:80/x") = lit "http://example.com/x"
  /\ parse_form move_body = Some [(lit "p", lit "q"); (lit "c", lit "z")]
  /\ match Builder_authorize dbg_std env0 doc_builder (lit "POST") (s2d "http://example.com/x") ex_request with
     | Ok header =>
         move_checks (Some header) (lit "Post") move_uri move_body
         && negb (move_checks (Some header) (lit "Post") move_uri (lit "p=q"))
         && negb (move_checks (Some header) (lit "Post") (lit "http://example.com/X?c=%26%3d&a=1+2") move_body)
     | Panic _ => false
     end = true.
Proof. repeat apply conj; vm_compute; reflexivity. Qed.

Example C95_example_params :
  Permutation ([(lit "c", lit "&="); (lit "a", lit "1 2")] ++ [(lit "p", lit "q"); (lit "c", lit "z")])
    [(lit "a", lit "1 2"); (lit "c", lit "&="); (lit "c", lit "z"); (lit "p", lit "q")].
Proof.
  eapply perm_trans; [apply perm_swap|]. constructor. constructor. apply perm_swap.
Qed.

(** RSA-SHA1: the header rewritten, with a realm, spaces and another order; or all parameters in the query. *)
Example C95_rsa_example :
  let ok uri header body := match decides ex_server (Message (lit "POST") (lit uri) header (lit body)) with Some _ => true | None => false end in
  let header := lit "OAuth realm=""Photos"",  oauth_signature=""Behm%2bJud2ekDiXQtyIERTPHvz%2bIsTJDLc6Lostn4tWwBn9C%2fZWDp8tRub9H2gg%3d%3d"" , oauth_timestamp=""%31"",oauth_consumer_key=""id"", oauth_nonce=""AQEBAQEBAQEB"",oauth_signature_method=""RSA-SHA1""" in
  client_params dbg_std env0 ex_builder (lit "POST") (lit "http://example.com/x") ex_request
    [(lit "oauth_consumer_key", lit "id"); (lit "oauth_nonce", lit "AQEBAQEBAQEB"); (lit "oauth_signature_method", lit "RSA-SHA1");
     (lit "oauth_timestamp", lit "1"); (lit "oauth_signature", lit "Behm+Jud2ekDiXQtyIERTPHvz+IsTJDLc6Lostn4tWwBn9C/ZWDp8tRub9H2gg==")]
  /\ ok "http://example.com/x"%string (Some header) "p=q&c=z&c=%26%3d&a=1+2"%string
     && ok "http://example.com/x?p=q&oauth_timestamp=1&oauth_signature=Behm%2bJud2ekDiXQtyIERTPHvz%2bIsTJDLc6Lostn4tWwBn9C%2fZWDp8tRub9H2gg%3d%3d&c=z&oauth_consumer_key=id&a=1+2&oauth_nonce=AQEBAQEBAQEB&oauth_signature_method=RSA-SHA1&c=%26%3D"%string None ""%string
     && negb (ok "http://example.com/x"%string (Some header) "p=q&c=z&c=%26%3d&a=1%2b2"%string) = true.
Proof.
  split; [|vm_compute; reflexivity].
  apply (cp_form _ _ _ _ _ _ _ (s2d "http://example.com/x") ex_form); [reflexivity|exact (proj1 C73_rsa_example)|vm_compute; reflexivity].
Qed.
