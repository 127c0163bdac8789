(** C70 for every transport, C73: signatures are of no use for other requests or with other secrets; C74: timestamps. *)
From Coq Require Import String.
From Coq Require Import Lia Arith Sorted Permutation.
From Verif Require Import Bytes Crypto Spec MFmt MPercent MSerializer MSign MRequest MCredentials MAuth MBuilder ModelTests
  SpecFmt SpecCalls SpecCalls2 SpecAuth SpecBuild SpecForm SpecServer SpecServer2 SpecParams SpecSign
  LBytes LFmt LPercent LTrace LAuth LSign LBuild LForm LBase LReq LReq2 LPanic LTop LParams LServer
  Rsa LRsa PropsServer PropsHeader PropsSign PropsServer2 PropsRsa.
From Verif Require PropsExample.
Local Open Scope nat_scope.

(** ** Signatures in the hands of others *)

(** [s] is the signature in what the builder makes of the request, in one of its three forms. *)
Inductive client_signature (c : cfg) (e : env) (b : Builder) (method uri : bytes) (r : Request) (s : bytes) : Prop :=
  | cs_header : forall d header params, dtext d = uri -> Builder_authorize c e b method d r = Ok header ->
      parse_header header = Some params -> lookup (lit "oauth_signature") params = [s] -> client_signature c e b method uri r s
  | cs_form : forall d body params, dtext d = uri -> Builder_to_form c e b method d r = Ok body ->
      parse_form body = Some params -> lookup (lit "oauth_signature") params = [s] -> client_signature c e b method uri r s
  | cs_query : forall q base params, ~ has_question uri -> Builder_to_query c e (w := StringW) dstr b method uri r = Ok q ->
      parse_uri q = Some (base, params) -> lookup (lit "oauth_signature") params = [s] -> client_signature c e b method uri r s.

Lemma fields_parse : forall cf s, cn_name cf = lit "HMAC-SHA1" \/ cn_name cf = lit "RSA-SHA1" ->
  parse_form (form_text (wire_fields cf all_protos ++ [(lit "oauth_signature", pct_encode s)]))
  = Some (protocol_pairs cf ++ [(lit "oauth_signature", s)])
  /\ forall uri, ~ has_question uri ->
     parse_uri (query_text uri (wire_fields cf all_protos ++ [(lit "oauth_signature", pct_encode s)]))
     = Some (uri, protocol_pairs cf ++ [(lit "oauth_signature", s)]).
Proof.
  intros cf s HN. assert (HU : uri_safe (cn_name cf)) by (destruct HN as [-> | ->]; now apply safe_name).
  assert (E : wire_fields cf all_protos ++ [(lit "oauth_signature", pct_encode s)] = map enc_value (protocol_pairs cf ++ [(lit "oauth_signature", s)])).
  { rewrite map_app. f_equal. rewrite (wire_enc cf); [reflexivity|exact HU]. }
  assert (S : safe_keys (protocol_pairs cf ++ [(lit "oauth_signature", s)])).
  { apply Forall_app. split; [rewrite <- raw_all; apply raw_safe|]. constructor; [now apply safe_name|constructor]. }
  rewrite E. split; [now apply parse_form_text|]. intros uri HQ. now apply parse_query_text.
Qed.

Lemma lookup_sig : forall cf s, lookup (lit "oauth_signature") (protocol_pairs cf ++ [(lit "oauth_signature", s)]) = [s].
Proof.
  intros cf s. rewrite lookup_app, (lookup_none (lit "oauth_signature") (protocol_pairs cf)); [reflexivity|].
  intros p I E. apply protocol_key_in in I as [x E']. apply (sig_not_proto x). congruence.
Qed.

Lemma client_signature_hmac : forall c e b method uri r s l, bd_signature_method b = HMAC_SHA1 -> honest r l -> normal_method method ->
  client_signature c e b method uri r s -> s = rfc_signature e b method uri l.
Proof.
  intros c e b method uri r s l HB HR HM H. destruct H as [d header params <- H HP HL|d body params <- H HP HL|q base params HQ H HP HL].
  - rewrite (C17_read_back c e b r l method d header HB HR HM H) in HP. inversion HP; subst params. rewrite lookup_sig in HL. now inversion HL.
  - rewrite (C17_form c e b r l method d body HB HR HM H) in HP.
    rewrite (proj1 (fields_parse (hmac_conf e b) (rfc_signature e b method (dtext d) l) (or_introl eq_refl))) in HP.
    inversion HP; subst params. rewrite lookup_sig in HL. now inversion HL.
  - rewrite (C17_query c e b r l method uri q HB HR HM H) in HP.
    rewrite (proj2 (fields_parse (hmac_conf e b) (rfc_signature e b method uri l) (or_introl eq_refl)) uri HQ) in HP.
    inversion HP; subst params. rewrite lookup_sig in HL. now inversion HL.
Qed.

(** What the server takes the request to be: the parameters other than the signature. *)
Definition unsigned (params : list pair) : list pair := filter (fun p => negb (has_key (lit "oauth_signature") p)) params.

Lemma server_text : forall check method uri header body out, server_check check method uri header body = Some out ->
  exists base q s m, parse_uri uri = Some (base, q) /\ lookup (lit "oauth_signature") out = [s]
    /\ lookup (lit "oauth_signature_method") out = [m]
    /\ check m s (base_string method (base_uri base) (unsigned out)) = true.
Proof.
  intros check method uri header body out H. unfold server_check in H.
  destruct (match header with Some h => parse_header h | None => Some [] end) as [h|]; [|discriminate].
  destruct (parse_uri uri) as [[base q]|]; [|discriminate]. destruct (parse_form body) as [bd|]; [|discriminate].
  cbv zeta in H.
  destruct (lookup (lit "oauth_signature") (all_params h q bd)) as [|s [|]] eqn:E1; try discriminate.
  destruct (lookup (lit "oauth_signature_method") (all_params h q bd)) as [|m [|]] eqn:E2; try discriminate.
  fold (unsigned (all_params h q bd)) in H.
  destruct (check m s (base_string method (base_uri base) (unsigned (all_params h q bd)))) eqn:E3; [|discriminate].
  inversion H; subst out. exists base, q, s, m. auto.
Qed.

(** The two requests and the secrets are the same, as far as RFC 5849 tells them apart. *)
Definition same_secrets (cs : bytes) (ts : option bytes) (cs' : bytes) (ts' : option bytes) : Prop :=
  cs = cs' /\ match ts with Some t => t | None => [] end = match ts' with Some t => t | None => [] end.

(** ** C70, C73 *)

(** Whoever has a signature made by the builder, in whatever form, and gets any request with it past a server that
    knows any secrets, has sent the signed request (the same method, base URI and parameters, wherever they are)
    to a server with the same secrets; or there is a collision of HMAC: two different pairs of key and text. *)
Theorem C73_hmac : forall c e b method uri r l s client token method' uri' header' body' out,
  bd_signature_method b = HMAC_SHA1 -> honest r l -> normal_method method ->
  client_signature c e b method uri r s ->
  server_check (hmac_check client token) method' uri' header' body' = Some out ->
  lookup (lit "oauth_signature") out = [s] ->
  exists base q, parse_uri uri' = Some (base, q)
    /\ (map to_upper method' = map to_upper method /\ base_uri base = uri
        /\ Permutation (unsigned out) (protocol_pairs (hmac_conf e b) ++ l)
        /\ same_secrets (client_secret b) (token_secret b) client token
        \/ let text := base_string method uri (protocol_pairs (hmac_conf e b) ++ l) in
           let text' := base_string method' (base_uri base) (unsigned out) in
           let key := signing_key (client_secret b) (token_secret b) in
           let key' := signing_key client token in
           (key, text) <> (key', text') /\ hmac_sha1 key text = hmac_sha1 key' text').
Proof.
  intros c e b method uri r l s client token method' uri' header' body' out HB HR HM HC H HL.
  apply (client_signature_hmac c e b method uri r s l HB HR HM) in HC.
  destruct (server_text _ _ _ _ _ _ H) as [base [q [s' [m [E1 [E2 [_ E3]]]]]]]. exists base, q. split; [exact E1|].
  rewrite HL in E2. inversion E2; subst s'. unfold hmac_check in E3. apply andb_prop in E3 as [_ E3]. apply bseqb_eq in E3.
  rewrite HC in E3. unfold rfc_signature, hmac_signature in E3.
  apply (f_equal PropsExample.unbase64) in E3. rewrite !PropsExample.unbase64_base64 in E3.
  set (text := base_string method uri (protocol_pairs (hmac_conf e b) ++ l)) in *.
  set (text' := base_string method' (base_uri base) (unsigned out)) in *.
  destruct (list_eq_dec Byte.byte_eq_dec text text') as [ET|NT].
  - destruct (list_eq_dec Byte.byte_eq_dec (signing_key (client_secret b) (token_secret b)) (signing_key client token)) as [EK|NK].
    + left. apply C19_base_string in ET as [T1 [T2 T3]]. split; [congruence|]. split; [congruence|]. split; [now apply Permutation_sym|].
      now apply C20_signing_key.
    + right. cbv zeta. split; [congruence|exact E3].
  - right. cbv zeta. split; [congruence|exact E3].
Qed.
Print Assumptions C73_hmac.

(** In particular a server with other secrets does not accept what the builder sends, unless the HMACs of this very
    text under two different keys agree. *)
Theorem C73_other_secrets : forall c e b r l method uri d client token,
  bd_signature_method b = HMAC_SHA1 -> timestamp_available c (hmac_conf e b) ->
  honest r l -> normal_method method -> normal_uri uri -> dtext d = uri -> dok d ->
  ~ same_secrets (client_secret b) (token_secret b) client token ->
  exists header body,
    Builder_authorize c e b method d r = Ok header /\ to_form r = Ok body
    /\ (server_check (hmac_check client token) method uri (Some header) body <> None <->
        let text := base_string method uri (protocol_pairs (hmac_conf e b) ++ l) in
        hmac_sha1 (signing_key (client_secret b) (token_secret b)) text = hmac_sha1 (signing_key client token) text).
Proof.
  intros c e b r l method uri d client token HB HT HR HM HU ED DD HN.
  pose (text := base_string method uri (protocol_pairs (hmac_conf e b) ++ l)).
  destruct (C65_hmac b text HB) as [f [HF HA]].
  destruct (C65_header c e b _ f r l method uri d _ _ HF HT HR HM HU ED DD HA) as [header [body [_ [H1 [H2 [_ [H3 _]]]]]]].
  exists header, body. split; [exact H1|]. split; [exact H2|]. cbv zeta. fold text.
  set (out := shown (conf_of (lit "HMAC-SHA1") e b) (hmac_signature (client_secret b) (token_secret b) text) l) in *.
  assert (EQ : server_check (hmac_check client token) method uri (Some header) body
    = if bseqb (hmac_signature (client_secret b) (token_secret b) text) (hmac_signature client token text) then Some out else None).
  { assert (L := H3). unfold server_check in *.
    destruct (parse_header header) as [h|]; [|discriminate]. destruct (parse_uri uri) as [[base q]|] eqn:EU; [|discriminate].
    destruct (parse_form body) as [bd|]; [|discriminate]. cbv zeta in *.
    destruct (lookup (lit "oauth_signature") (all_params h q bd)) as [|sg [|]] eqn:E1; try discriminate.
    destruct (lookup (lit "oauth_signature_method") (all_params h q bd)) as [|m [|]] eqn:E2; try discriminate.
    destruct (hmac_check (client_secret b) (token_secret b) m sg _) eqn:E3 in L; [|discriminate].
    injection L as EO. rewrite EO in *.
    destruct (shown_lookups (conf_of (lit "HMAC-SHA1") e b) (hmac_signature (client_secret b) (token_secret b) text) l (tr_oauth r l HR)) as [L1 L2].
    fold out in L1, L2. rewrite L1 in E1. injection E1 as <-. rewrite L2 in E2. injection E2 as <-.
    assert (EB : base_uri base = uri).
    { assert (X : parse_uri uri = Some (uri, [])) by (unfold parse_uri; rewrite split_at_none; [reflexivity|apply HU]).
      rewrite X in EU. injection EU as <- _. apply HU. }
    rewrite EB. unfold out at 1 2. rewrite (shown_signed _ _ l (tr_oauth r l HR)). fold out. unfold hmac_check.
    change (cn_name (conf_of (lit "HMAC-SHA1") e b)) with (lit "HMAC-SHA1"). rewrite bseqb_refl. cbn [andb]. reflexivity. }
  rewrite EQ. destruct (bseqb (hmac_signature (client_secret b) (token_secret b) text) (hmac_signature client token text)) eqn:EB.
  - split; [intros _|discriminate]. apply bseqb_eq in EB. unfold hmac_signature in EB.
    apply (f_equal PropsExample.unbase64) in EB. now rewrite !PropsExample.unbase64_base64 in EB.
  - split; [congruence|]. intros E. exfalso. unfold hmac_signature in EB. rewrite E, bseqb_refl in EB. discriminate.
Qed.
Print Assumptions C73_other_secrets.

(** The same with an RSA key: the signature says nothing of the secrets, and the server that has the public key
    accepts it for the signed request only, or for a text with the same SHA-1 digest. *)
Lemma client_signature_rsa : forall c e b private method uri r s l, signs_with b private -> honest r l -> normal_method method ->
  client_signature c e b method uri r s ->
  exists x, pkcs1_sign private (sha1 (base_string method uri (protocol_pairs (rsa_conf e b) ++ l))) = Some x
    /\ s = base64 b64_std true x.
Proof.
  intros c e b private method uri r s l HB HR HM H.
  assert (HBI : builtin (bd_signature_method b) (lit "RSA-SHA1") true
    (fun _ _ text => option_map (fun s => pct_encode (base64 b64_std true s)) (pkcs1_sign private (sha1 text)))).
  { destruct HB as [->| ->]; constructor. }
  destruct H as [d header params <- H HP HL|d body params <- H HP HL|q base params HQ H HP HL].
  - destruct (rsa_header c e b private r l method d header HB HR HM H) as [x [ES [_ HH]]]. exists x. split; [exact ES|].
    rewrite HH in HP. inversion HP; subst params. rewrite lookup_sig in HL. now inversion HL.
  - destruct HR as [cs [M [P [A [D [C [S [O R]]]]]]]].
    assert (HPm : Permutation (call_protos cs) all_protos) by now rewrite P.
    apply (to_form_with_buf_exact c e b _ _ _ HBI r cs M HPm []) in H as [_ [_ [sig [ES EO]]]].
    unfold sig_of in ES. rewrite (hashed_is_base _ cs l method _ HM HPm A C S O R) in ES. unfold rsa_conf.
    destruct (pkcs1_sign private _) as [x|]; [|discriminate]. exists x. split; [reflexivity|].
    cbn [option_map] in ES. injection ES as <-. rewrite P in EO. subst body. cbn [app] in HP.
    rewrite (proj1 (fields_parse (conf_of (lit "RSA-SHA1") e b) (base64 b64_std true x) (or_intror eq_refl))) in HP.
    inversion HP; subst params. rewrite lookup_sig in HL. now inversion HL.
  - destruct HR as [cs [M [P [A [D [C [S [O R]]]]]]]].
    assert (HPm : Permutation (call_protos cs) all_protos) by now rewrite P.
    apply (to_query_exact' c e b _ _ _ HBI r cs M HPm uri) in H as [_ [_ [sig [ES EO]]]].
    unfold sig_of in ES. rewrite (hashed_is_base _ cs l method _ HM HPm A C S O R) in ES. unfold rsa_conf.
    destruct (pkcs1_sign private _) as [x|]; [|discriminate]. exists x. split; [reflexivity|].
    cbn [option_map] in ES. injection ES as <-. rewrite P in EO. subst q.
    rewrite (proj2 (fields_parse (conf_of (lit "RSA-SHA1") e b) (base64 b64_std true x) (or_intror eq_refl)) uri HQ) in HP.
    inversion HP; subst params. rewrite lookup_sig in HL. now inversion HL.
Qed.

Theorem C73_rsa : forall c e b public private decode method uri r l s method' uri' header' body' out,
  key_pair public private -> signs_with b private -> (forall x, decode (base64 b64_std true x) = Some x) ->
  honest r l -> normal_method method ->
  client_signature c e b method uri r s ->
  server_check (rsa_check decode (pkcs1_verify public)) method' uri' header' body' = Some out ->
  lookup (lit "oauth_signature") out = [s] ->
  exists base q, parse_uri uri' = Some (base, q)
    /\ (map to_upper method' = map to_upper method /\ base_uri base = uri
        /\ Permutation (unsigned out) (protocol_pairs (rsa_conf e b) ++ l)
        \/ let text := base_string method uri (protocol_pairs (rsa_conf e b) ++ l) in
           let text' := base_string method' (base_uri base) (unsigned out) in
           text <> text' /\ sha1 text = sha1 text').
Proof.
  intros c e b public private decode method uri r l s method' uri' header' body' out HK HB HD HR HM HC H HL.
  apply (client_signature_rsa c e b private method uri r s l HB HR HM) in HC as [x [EX ->]].
  destruct (server_text _ _ _ _ _ _ H) as [base [q [s' [m [E1 [E2 [_ E3]]]]]]]. exists base, q. split; [exact E1|].
  rewrite HL in E2. inversion E2; subst s'. unfold rsa_check in E3. apply andb_prop in E3 as [_ E3]. rewrite HD in E3.
  apply (sign_verify public private _ _ HK) in EX. pose proof (verify_inj _ _ _ _ EX E3) as E.
  set (text := base_string method uri (protocol_pairs (rsa_conf e b) ++ l)) in *.
  set (text' := base_string method' (base_uri base) (unsigned out)) in *.
  destruct (list_eq_dec Byte.byte_eq_dec text text') as [ET|NT].
  - left. apply C19_base_string in ET as [T1 [T2 T3]]. split; [congruence|]. split; [congruence|]. now apply Permutation_sym.
  - right. cbv zeta. split; [exact NT|exact E].
Qed.
Print Assumptions C73_rsa.

(** The hypotheses can be met, and the server with other secrets indeed says no. *)
Example C73_example :
  let r := AssertSorted true [kvs "a" "1 2"; kvs "c" "&="; kvs "c" "z"; kvs "p" "q"] in
  match Builder_authorize dbg_std env0 doc_builder (lit "POST") (s2d "http://example.com/x") r,
        Builder_to_form dbg_std env0 doc_builder (lit "POST") (s2d "http://example.com/x") r, to_form r with
  | Ok header, Ok form, Ok body =>
      match server_check (hmac_check (lit "consumer_secret") (Some (lit "token_secret"))) (lit "POST") (lit "http://example.com/x") (Some header) body,
            server_check (hmac_check (lit "consumer_secret") (Some (lit "token_secret"))) (lit "post") (lit "http://EXAMPLE.com:80/x") None (form_join form body),
            server_check (hmac_check (lit "consumer_secret") None) (lit "POST") (lit "http://example.com/x") (Some header) body,
            server_check (hmac_check (lit "consumer_secret") (Some (lit "token_secret"))) (lit "PUT") (lit "http://example.com/x") (Some header) body with
      | Some out, Some out', None, None =>
          match lookup (lit "oauth_signature") out, lookup (lit "oauth_signature") out' with
          | [s], [s'] => bseqb s s'
          | _, _ => false
          end
      | _, _, _, _ => false
      end
  | _, _, _ => false
  end = true.
Proof. vm_compute. reflexivity. Qed.

Example C73_example_secrets : ~ same_secrets (client_secret doc_builder) (token_secret doc_builder) (lit "consumer_secret") None.
Proof. intros [_ H]. vm_compute in H. discriminate H. Qed.

Definition ex_form : bytes := lit "oauth_consumer_key=id&oauth_nonce=AQEBAQEBAQEB&oauth_signature_method=RSA-SHA1&oauth_timestamp=1&oauth_signature=Behm%2BJud2ekDiXQtyIERTPHvz%2BIsTJDLc6Lostn4tWwBn9C%2FZWDp8tRub9H2gg%3D%3D".
Example C73_rsa_example :
  Builder_to_form dbg_std env0 ex_builder (lit "POST") (s2d "http://example.com/x") ex_request = Ok ex_form
  /\ match to_form ex_request with
     | Ok body =>
         let ok method uri b := match server_check ex_server (lit method) (lit uri) None b with Some _ => true | None => false end in
         ok "post"%string "http://EXAMPLE.com:80/x"%string (form_join ex_form body)
         && negb (ok "PUT"%string "http://example.com/x"%string (form_join ex_form body))
         && negb (ok "POST"%string "http://example.com/x"%string (form_join ex_form (body ++ lit "&z=1")))
     | _ => false
     end = true.
Proof. split; vm_compute; reflexivity. Qed.

(** ** C74 Timestamps are positive (RFC 5849 section 3.3) *)

(** A configured timestamp is a [NonZeroU64]. *)
Definition nonzero_timestamp (b : Builder) : Prop := op_timestamp (bd_options b) <> Some 0%N.

(** False during the first second of 1970. *)
Theorem C74_refuted :
  ~ (forall c e b name strict f r cs method uri out,
     builtin (bd_signature_method b) name strict f -> nonzero_timestamp b ->
     makes_calls r cs -> call_protos cs = all_protos ->
     Builder_authorize c e b method uri r = Ok out ->
     exists params digits n, parse_header out = Some params /\ lookup (lit "oauth_timestamp") params = [digits]
       /\ read_decimal digits = Some n /\ (0 < n)%N).
Proof.
  intros H. pose (e := {| env_clock := fun _ => Some 0%N; env_rng := fun _ _ => x00 |}).
  pose (b := Builder_new (Cred (lit "id") (lit "secret")) HMAC_SHA1).
  destruct (Builder_authorize dbg_std e b (lit "GET") (s2d "http://h/") Request_unit) as [out|] eqn:E; [|vm_compute in E; discriminate E].
  assert (T : match parse_header out with Some ps => match lookup (lit "oauth_timestamp") ps with [d] => bseqb d (lit "0") | _ => false end | None => false end = true).
  { vm_compute in E. injection E as <-. vm_compute. reflexivity. }
  destruct (H dbg_std e b _ _ _ Request_unit (map CProto all_protos) (lit "GET") (s2d "http://h/") out (hmac_builtin b eq_refl))
    as [ps [d [n [H1 [H2 [H3 H4]]]]]].
  - discriminate.
  - exact (crate_request_calls _ _ cq_unit).
  - reflexivity.
  - exact E.
  - rewrite H1, H2 in T. apply bseqb_eq in T. subst d. vm_compute in H3. injection H3 as <-. inversion H4.
Qed.
Print Assumptions C74_refuted.

(** Exactly then: a configured timestamp is positive, a clock before 1970 gives 1. *)
Theorem C74_partial : forall c e b name strict f r cs method uri out,
  builtin (bd_signature_method b) name strict f -> nonzero_timestamp b ->
  makes_calls r cs -> call_protos cs = all_protos ->
  Builder_authorize c e b method uri r = Ok out ->
  exists params digits n, parse_header out = Some params /\ lookup (lit "oauth_timestamp") params = [digits]
    /\ read_decimal digits = Some n
    /\ ((0 < n)%N <-> op_timestamp (bd_options b) <> None \/ env_clock e 0 <> Some 0%N).
Proof.
  intros c e b name strict f r cs method uri out HB HZ HM HP H.
  destruct (C48_timestamp c e b name strict f r cs method uri out HB HM HP H) as [ps [d [H1 [H2 [H3 _]]]]].
  exists ps, d, (time_sent e b). split; [exact H1|]. split; [exact H2|]. split; [exact H3|].
  unfold time_sent. unfold nonzero_timestamp in HZ. destruct (op_timestamp (bd_options b)) as [t|].
  - split; [intros _; left; discriminate|]. intros _. destruct (N.eq_dec t 0) as [->|N0]; [congruence|]. now apply N.neq_0_lt_0.
  - destruct (env_clock e 0) as [s|].
    + split.
      * intros L. right. intros E. injection E as ->. now apply N.lt_irrefl in L.
      * intros [X|X]; [congruence|]. apply N.neq_0_lt_0. congruence.
    + split; [intros _; right; discriminate|]. intros _. reflexivity.
Qed.
Print Assumptions C74_partial.

(** With a clock at 5 seconds, and one before 1970. *)
Definition c74_sent (clock : option N) : option (list bytes) :=
  match Builder_authorize dbg_std {| env_clock := fun _ => clock; env_rng := fun _ _ => x00 |}
          (Builder_new (Cred (lit "id") (lit "secret")) HMAC_SHA1) (lit "GET") (s2d "http://h/") Request_unit with
  | Ok out => option_map (lookup (lit "oauth_timestamp")) (parse_header out)
  | Panic _ => None
  end.
Example C74_example : nonzero_timestamp (Builder_new (Cred (lit "id") (lit "secret")) HMAC_SHA1)
  /\ c74_sent (Some 5%N) = Some [lit "5"] /\ c74_sent None = Some [lit "1"] /\ c74_sent (Some 0%N) = Some [lit "0"].
Proof. split; [discriminate|]. repeat apply conj; vm_compute; reflexivity. Qed.
