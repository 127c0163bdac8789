(** The example client and server together. *)
From Coq Require Import String.
From Coq Require Import Lia Arith Sorted Permutation NArith.
From Verif Require Import Bytes Crypto Spec MFmt MPercent MSerializer MSign MRequest MCredentials MAuth MBuilder MSerde
  SpecFmt SpecCalls SpecCalls2 SpecAuth SpecBuild SpecForm SpecServer SpecParams SpecHttp
  LBytes LFmt LPercent LTrace LCrypto LAuth LSign LBuild LForm LBase LBase2 LReq LReq2 LPanic LTop LParams LServer
  MHttp LHttp MServer LGrammar SpecExample LExample LExample2 MClient.

(** ** URIs *)

Definition delim (b : byte) : bool := negb (beqb b "?" || beqb b "#").

Lemma forall_delim : forall s, ~ In "?"%byte s -> ~ In "#"%byte s -> Forall (fun b => delim b = true) s.
Proof.
  intros s H1 H2. apply Forall_forall. intros b Hb. unfold delim.
  destruct (beqb b "?") eqn:E1; [apply beqb_eq in E1; subst; contradiction|].
  destruct (beqb b "#") eqn:E2; [apply beqb_eq in E2; subst; contradiction|]. reflexivity.
Qed.

Lemma origin_rest : forall s, after_scheme (origin ++ s) = lit "127.0.0.1:8080" ++ s.
Proof. intros s. reflexivity. Qed.

Lemma uri_path_spec : forall path rest, plain_path path -> stops delim rest -> uri_path (origin ++ path ++ rest) = path.
Proof.
  intros path rest [[p ->] [H1 H2]] HS. unfold uri_path. rewrite origin_rest.
  rewrite (take_while_app _ (lit "127.0.0.1:8080") (("/"%byte :: p) ++ rest)).
  2: { apply Forall_forall. intros b Hb.
       assert (HF : forallb (fun b => negb (beqb b "/" || beqb b "?" || beqb b "#")) (lit "127.0.0.1:8080") = true) by reflexivity.
       rewrite forallb_forall in HF. now apply HF. }
  2: reflexivity.
  cbn [fst]. change (fun b => negb (beqb b "?" || beqb b "#")) with delim.
  rewrite take_while_app; auto. now apply forall_delim.
Qed.

Lemma uri_query_none : forall path, plain_path path -> uri_query (origin ++ path) = None.
Proof.
  intros path [_ [H1 H2]]. unfold uri_query. change (fun b => negb (beqb b "?" || beqb b "#")) with delim.
  rewrite <- (app_nil_r (origin ++ path)). rewrite take_while_app; [reflexivity| |exact I].
  apply Forall_app. split; [|now apply forall_delim]. apply Forall_forall. intros b Hb.
  assert (HF : forallb delim origin = true) by reflexivity. rewrite forallb_forall in HF. now apply HF.
Qed.
Lemma uri_query_some : forall path q, plain_path path -> ~ In "#"%byte q ->
  uri_query (origin ++ path ++ lit "?" ++ q) = Some q.
Proof.
  intros path q [_ [H1 H2]] HQ. unfold uri_query. change (fun b => negb (beqb b "?" || beqb b "#")) with delim.
  rewrite app_assoc, take_while_app; [| |reflexivity].
  - cbn [fst]. change (lit "?" ++ q) with ("?"%byte :: q). change (beqb "?" "?") with true. cbv iota.
    pose proof (take_while_app (fun b => negb (beqb b "#")) q []) as X. rewrite app_nil_r in X.
    rewrite X; [reflexivity| |exact I].
    apply Forall_forall. intros b Hb. destruct (beqb b "#") eqn:E; [|reflexivity]. apply beqb_eq in E. now subst.
  - apply Forall_app. split; [|now apply forall_delim]. apply Forall_forall. intros b Hb.
    assert (HF : forallb delim origin = true) by reflexivity. rewrite forallb_forall in HF. now apply HF.
Qed.

Lemma form_text_no_hash : forall l, safe_keys l -> ~ In "#"%byte (form_text (map enc_value l)).
Proof.
  intros l HS. unfold form_text. induction HS as [|p l H HS IH]; [auto|]. cbn [map].
  assert (HP : ~ In "#"%byte (form_pair (enc_value p))).
  { unfold form_pair. rewrite !in_app_iff. intros [X|[X|X]].
    - revert X. apply safe_no; [reflexivity|exact H].
    - destruct X as [X|[]]. discriminate X.
    - revert X. apply enc_no; [reflexivity|discriminate]. }
  destruct l as [|q l]; [exact HP|]. cbn [map] in *. rewrite join_cons by discriminate. rewrite !in_app_iff.
  intros [X|[X|X]]; auto. destruct X as [X|[]]. discriminate X.
Qed.

(** ** Requests of a builder are accepted or not *)

Section Sent.
  Variables (c : cfg) (e : env) (b : Builder) (wd : world).
  Hypothesis HC : understandable c e b wd.
  Variables (r : Request) (l : list pair) (method path : bytes) (d : disp).
  Hypothesis HR : raw_honest r l.
  Hypothesis HM : normal_method method.
  Hypothesis HU : Forall utf8_pair l.
  Hypothesis HP : plain_path path.
  Hypothesis HD : dok d.
  Hypothesis ED : dtext d = origin ++ path.
  Let cf := conf_of (lit "HMAC-SHA1") e b.
  Let sig := raw_sig e b l method (origin ++ path).
  Let text := raw_base_string method (origin ++ path) (protocol_pairs cf ++ l).

  (** The server with these secrets computes the signature sent. *)
  Definition agrees (client : Credentials bytes) (token : option (Credentials bytes)) : bool :=
    bseqb (hmac_sha1 (signing_key (client_secret b) (token_secret b)) text)
      (hmac_sha1 (plain_key (cr_secret client) (secret_of token)) text).

  Lemma no_question : cf_debug c = true -> ~ has_question (dtext d).
  Proof.
    intros _ H. rewrite ED in H. unfold has_question in H. apply in_app_iff in H as [H|H].
    - assert (HF : forallb delim origin = true) by reflexivity. rewrite forallb_forall in HF.
      apply HF in H. discriminate.
    - destruct HP as [_ [H' _]]. contradiction.
  Qed.

  Lemma sent_header : Builder_authorize c e b method d r
    = Ok (header_text (wire_fields cf all_protos) (pct_encode sig)).
  Proof.
    unfold cf, sig. rewrite <- ED.
    eapply (raw_header c e b wd HC r l method HR HM d HD no_question).
  Qed.

  Lemma decided_form : exists header body, Builder_authorize c e b method d r = Ok header /\ to_form r = Ok body
    /\ forall client token f, cr_identifier client = cr_identifier (bd_client b) ->
       option_map cr_identifier token = option_map cr_identifier (bd_token b) ->
       verify_and_then wd (form_request method path header body) client token (op_verifier (bd_options b)) f
       = Done_ (if agrees client token then f (sort_pairs (sent_params cf sig ++ l)) (understood cf sig)
                else fail StUnauthorized).
  Proof.
    pose proof HR as [cs [M [P [A [D [CA [S [O R]]]]]]]].
    eexists. exists (form_text (form_fields cs)). split; [apply sent_header|].
    split; [now apply (to_form_exact r cs _ M)|]. intros client token f EC ET.
    apply (verify_decides c e b wd HC r l method HR client token (form_request method path _ _) f (form_text (form_fields cs)) EC ET eq_refl eq_refl eq_refl).
    cbn [rq_content_type form_request rq_query]. change (bseqb _ _) with true. cbv iota.
    rewrite CA, form_parse_text by auto. cbn [form_parse form_parse_loop length]. now rewrite app_nil_r.
  Qed.

  Lemma decided_query : exists header uri, Builder_authorize c e b method d r = Ok header
    /\ to_query (origin ++ path) r = Ok uri /\ uri_path uri = path
    /\ forall client token f, cr_identifier client = cr_identifier (bd_client b) ->
       option_map cr_identifier token = option_map cr_identifier (bd_token b) ->
       verify_and_then wd (query_request method path header (uri_query uri)) client token (op_verifier (bd_options b)) f
       = Done_ (if agrees client token then f (sort_pairs (sent_params cf sig ++ l)) (understood cf sig)
                else fail StUnauthorized).
  Proof.
    pose proof HR as [cs [M [P [A [D [CA [S [O R]]]]]]]].
    eexists. exists (query_text (origin ++ path) (form_fields cs)). split; [apply sent_header|].
    split; [now apply (to_query_exact r cs _ _ M)|].
    assert (EQ : uri_path (query_text (origin ++ path) (form_fields cs)) = path
      /\ form_parse (match uri_query (query_text (origin ++ path) (form_fields cs)) with Some q => q | None => [] end) = l).
    { rewrite CA. destruct l as [|p l'].
      - cbn [map query_text]. split.
        + pose proof (uri_path_spec path [] HP I) as X. now rewrite app_nil_r in X.
        + now rewrite uri_query_none.
      - change (query_text (origin ++ path) (map enc_value (p :: l')))
          with ((origin ++ path) ++ lit "?" ++ form_text (map enc_value (p :: l'))).
        rewrite <- app_assoc. split.
        + apply uri_path_spec; auto. reflexivity.
        + rewrite uri_query_some by (auto; now apply form_text_no_hash). now apply form_parse_text. }
    destruct EQ as [E1 E2]. split; [exact E1|]. intros client token f EC ET.
    apply (verify_decides c e b wd HC r l method HR client token (query_request method path _ _) f [] EC ET eq_refl eq_refl eq_refl).
    cbn [rq_content_type query_request rq_query]. cbn [app]. now rewrite E2.
  Qed.
End Sent.

Section Compatible.
  Variables (c : cfg) (e : env) (b : Builder) (wd : world).
  Hypothesis HC : compatible c e b wd.
  Variables (r : Request) (l : list pair) (method path : bytes) (d : disp).
  Hypothesis HR : raw_honest r l.
  Hypothesis HM : normal_method method.
  Hypothesis HU : Forall utf8_pair l.
  Hypothesis HP : plain_path path.
  Hypothesis HD : dok d.
  Hypothesis ED : dtext d = origin ++ path.
  Let cf := conf_of (lit "HMAC-SHA1") e b.
  Let sig := raw_sig e b l method (origin ++ path).

  Lemma agrees_own : agrees e b l method path (bd_client b) (bd_token b) = true.
  Proof.
    destruct HC as [_ HS1 HS2].
    assert (EK : signing_key (client_secret b) (token_secret b) = plain_key (cr_secret (bd_client b)) (secret_of (bd_token b))).
    { unfold client_secret, token_secret, secret_of in *.
      destruct (bd_token b) as [t|]; cbn [option_map]; now apply key_plain. }
    unfold agrees. now rewrite EK, bseqb_refl.
  Qed.

  Lemma sent_form : exists header body, Builder_authorize c e b method d r = Ok header /\ to_form r = Ok body
    /\ forall f, verify_and_then wd (form_request method path header body) (bd_client b) (bd_token b)
                   (op_verifier (bd_options b)) f
                 = Done_ (f (sort_pairs (sent_params cf sig ++ l)) (understood cf sig)).
  Proof.
    destruct (decided_form c e b wd (cp_understandable _ _ _ _ HC) r l method path d HR HM HU HP HD ED) as [h [u [E1 [E2 E3]]]].
    exists h, u. split; [exact E1|]. split; [exact E2|].
    intros f. now rewrite (E3 _ _ f eq_refl eq_refl), agrees_own.
  Qed.

  Lemma sent_query : exists header uri, Builder_authorize c e b method d r = Ok header
    /\ to_query (origin ++ path) r = Ok uri /\ uri_path uri = path
    /\ forall f, verify_and_then wd (query_request method path header (uri_query uri)) (bd_client b) (bd_token b)
                   (op_verifier (bd_options b)) f
                 = Done_ (f (sort_pairs (sent_params cf sig ++ l)) (understood cf sig)).
  Proof.
    destruct (decided_query c e b wd (cp_understandable _ _ _ _ HC) r l method path d HR HM HU HP HD ED) as [h [u [E1 [E2 [E0 E3]]]]].
    exists h, u. split; [exact E1|]. split; [exact E2|]. split; [exact E0|].
    intros f. now rewrite (E3 _ _ f eq_refl eq_refl), agrees_own.
  Qed.
End Compatible.

(** ** Builders whose values need no encoding *)

Definition plain_text (s : bytes) : Prop := uri_safe s /\ s <> [].
Definition plain_option (o : option bytes) : Prop := match o with Some s => plain_text s | None => True end.
Definition plain_credentials (x : Credentials bytes) : Prop := plain_text (cr_identifier x) /\ uri_safe (cr_secret x).

Lemma plain_check : forall s, s <> [] -> forallb unreserved s = true -> plain_text s.
Proof. intros s HN H. split; auto. intros b Hb. rewrite forallb_forall in H. auto. Qed.
Lemma safe_check : forall s, forallb unreserved s = true -> uri_safe s.
Proof. intros s H b Hb. rewrite forallb_forall in H. auto. Qed.

Lemma decimal_safe : forall n, uri_safe (decimal n).
Proof.
  intros n b Hb. destruct (decimal_spec n) as [_ [H _]]. rewrite forallb_forall in H. specialize (H b Hb).
  unfold is_digit, digit_val in H. unfold unreserved, is_alphanumeric.
  destruct ((48 <=? bn b) && (bn b <=? 57))%N eqn:E; [|discriminate]. destruct b; try discriminate E; reflexivity.
Qed.

Lemma in_step_compatible : forall c e wd b, in_step c e wd ->
  bd_signature_method b = HMAC_SHA1 -> op_nonce (bd_options b) = None -> op_timestamp (bd_options b) = None ->
  plain_credentials (bd_client b) ->
  match bd_token b with Some t => plain_credentials t | None => True end ->
  plain_option (op_callback (bd_options b)) -> plain_option (op_verifier (bd_options b)) ->
  compatible c e b wd.
Proof.
  intros c e wd b [S1 S2 S3 S4] HS HN HT [HC1 HC2] HK HCB HV.
  assert (HP : forall p v, sent (conf_of (lit "HMAC-SHA1") e b) 0 0 p = Some v ->
    uri_safe v /\ (wd_empty_ok wd = true \/ v <> [])).
  { intros p v E. destruct p; cbn in E.
    - unfold plain_option in HCB. rewrite E in HCB. destruct HCB. auto.
    - inversion E; subst. destruct HC1. auto.
    - unfold nonce_value in E. cbn in E. rewrite HN in E. inversion E; subst. split; [|exact S2].
      intros x Hx. apply base64_chars_nopad in Hx; [|reflexivity]. now apply b64_url_safe.
    - inversion E; subst. split; [now apply safe_check|right; discriminate].
    - inversion E; subst. split; [apply decimal_safe|right]. now destruct (decimal_spec (timestamp_value (conf_of (lit "HMAC-SHA1") e b) 0)) as [_ [_ [H _]]].
    - destruct (bd_token b) as [t|]; [|discriminate]. inversion E; subst. destruct HK as [[K1 K2] _]. auto.
    - unfold plain_option in HV. rewrite E in HV. destruct HV. auto.
    - destruct (op_version (bd_options b)); inversion E; subst. split; [now apply safe_check|right; discriminate]. }
  assert (HI : forall f, In f (protocol_pairs (conf_of (lit "HMAC-SHA1") e b)) ->
    exists p, fst f = proto_key p /\ sent (conf_of (lit "HMAC-SHA1") e b) 0 0 p = Some (snd f)).
  { intros f Hf. apply in_flat_map in Hf as [p [_ Hf]]. exists p.
    destruct (sent _ 0 0 p) as [v|]; [|destruct Hf]. destruct Hf as [<-|[]]. auto. }
  constructor; [|auto|unfold secret_of; destruct (bd_token b) as [t|]; [now destruct HK|intros x []]].
  constructor; auto.
  - now left.
  - apply Forall_forall. intros f Hf. destruct (HI f Hf) as [p [E1 E2]]. split.
    + rewrite E1. apply safe_utf8, proto_key_safe.
    + apply safe_utf8. now apply (HP p).
  - destruct S2 as [S2|S2]; [now left|]. destruct (wd_empty_ok wd) eqn:EW; [now left|right].
    apply Forall_forall. intros f Hf. destruct (HI f Hf) as [p [E1 E2]]. destruct (HP p _ E2) as [_ [H|H]]; [discriminate|exact H].
  - unfold timestamp_value. cbn. rewrite HT. exact S3.
Qed.

(** ** The steps of the example *)

Lemma unit_honest : raw_honest Request_unit [].
Proof.
  exists (calls_of []). split; [apply (crate_request_calls _ _ cq_unit)|]. split; [apply call_protos_calls_of|].
  split; [apply calls_of_ascending; constructor|]. split; [apply displays_calls_of; constructor|].
  repeat split; constructor.
Qed.

Lemma response_credentials : forall x rest, plain_credentials x -> Forall utf8_pair rest ->
  ~ In (lit "oauth_token") (map fst rest) -> ~ In (lit "oauth_token_secret") (map fst rest) ->
  credentials_from_bytes (urlencoded_to_string (credential_fields x ++ rest)) = inl x.
Proof.
  intros x rest [[H1 _] H2] HR N1 N2. unfold credentials_from_bytes. rewrite form_parse_urlencoded.
  - unfold credential_fields. cbn [app map fst snd Credentials_deserialize ma_end ma_entries visit_loop en_key Field_deserialize].
    change (field_of (lit "oauth_token")) with FIdentifier. change (field_of (lit "oauth_token_secret")) with FSecret.
    cbn [en_value lift].
    assert (HL : forall i s, visit_loop (E := Empty_set) None
      (map (fun p => {| en_key := VisitStr (fst p); en_value := inl (snd p); en_ignored := inl tt |}) rest) (Some i) (Some s)
      = inl {| cr_identifier := i; cr_secret := s |}).
    { intros i s. clear - N1 N2. induction rest as [|[k v] rest IH]; [reflexivity|].
      cbn [map fst snd visit_loop en_key Field_deserialize en_ignored lift] in *. unfold field_of.
      destruct (bseqb k (lit "oauth_token")) eqn:E1; [apply bseqb_eq in E1; exfalso; apply N1; now left|].
      destruct (bseqb k (lit "oauth_token_secret")) eqn:E2; [apply bseqb_eq in E2; exfalso; apply N2; now left|].
      apply IH; intros X; [apply N1|apply N2]; now right. }
    rewrite HL. now destruct x.
  - apply Forall_app. split; [|exact HR]. unfold credential_fields.
    constructor; [split; [apply utf8_text; reflexivity|now apply safe_utf8]|].
    constructor; [split; [apply utf8_text; reflexivity|now apply safe_utf8]|constructor].
Qed.

Lemma CLIENT_plain : plain_credentials MServer.CLIENT.
Proof. split; [apply plain_check; [discriminate|reflexivity]|now apply safe_check]. Qed.
Lemma REQUEST_plain : plain_credentials REQUEST.
Proof. split; [apply plain_check; [discriminate|reflexivity]|now apply safe_check]. Qed.
Lemma TOKEN_plain : plain_credentials TOKEN.
Proof. split; [apply plain_check; [discriminate|reflexivity]|now apply safe_check]. Qed.

Lemma normal_post : normal_method (lit "POST").
Proof. reflexivity. Qed.
Lemma normal_get : normal_method (lit "GET").
Proof. reflexivity. Qed.

Lemma plain_path_check : forall p, match p with b :: _ => beqb b "/" | [] => false end = true ->
  forallb delim p = true -> plain_path p.
Proof.
  intros p H1 H2. rewrite forallb_forall in H2. split.
  - destruct p as [|b p]; [discriminate|]. apply beqb_eq in H1. subst. now exists p.
  - split; intros H; apply H2 in H; discriminate.
Qed.

Lemma step_temporary : forall c envs http n wd, in_step c (envs n) wd -> http n = service wd ->
  temporary_credentials c envs http n as_ref_id MServer.CLIENT (lit "oob") = inl REQUEST.
Proof.
  intros c envs http n wd HI HH. unfold temporary_credentials.
  set (b := Builder_callback (Some (lit "oob")) (Builder_new (Credentials_as_ref as_ref_id MServer.CLIENT) HMAC_SHA1)).
  assert (HC : compatible c (envs n) b wd).
  { apply in_step_compatible; auto; try reflexivity; try exact I.
    - exact CLIENT_plain.
    - apply plain_check; [discriminate|reflexivity]. }
  assert (HPP : plain_path (lit "/request_temp_credentials")) by (apply plain_path_check; reflexivity).
  destruct (sent_query c (envs n) b wd HC Request_unit [] (lit "POST") (lit "/request_temp_credentials") temp_uri_display
    unit_honest normal_post (Forall_nil _) HPP) as [h [u [E1 [E2 [E3 E4]]]]]; [reflexivity|reflexivity|].
  unfold Builder_post. unfold b in E1 |- *. rewrite E1. cbn [of_res cbind]. unfold send_request, call_server. rewrite HH.
  assert (EU : u = temp_uri).
  { apply (to_query_exact Request_unit (calls_of []) _ _ (crate_request_calls _ _ cq_unit)) in E2 as [_ ->]. reflexivity. }
  rewrite EU in E3, E4. change (uri_path temp_uri) with (lit "/request_temp_credentials").
  change (service wd ?q) with (post_request_temp_credentials wd (query_request (lit "POST") (lit "/request_temp_credentials") h (uri_query temp_uri))).
  unfold post_request_temp_credentials.
  change (bd_client b) with MServer.CLIENT in E4. change (bd_token b) with (@None (Credentials bytes)) in E4.
  change (op_verifier (bd_options b)) with (@None bytes) in E4. rewrite E4.
  cbn [understood oa_callback]. change (op_callback (cn_options (conf_of (lit "HMAC-SHA1") (envs n) b))) with (Some (lit "oob")).
  cbv iota. rewrite bseqb_refl. cbn [urlencoded_response rs_body cbind].
  apply response_credentials.
  - exact REQUEST_plain.
  - constructor; [|constructor]. split; apply utf8_text; reflexivity.
  - intros [X|[]]. discriminate X.
  - intros [X|[]]. discriminate X.
Qed.

Lemma step_token : forall c envs http n wd, in_step c (envs n) wd -> http n = service wd ->
  token_credentials c envs http n as_ref_id as_ref_id MServer.CLIENT REQUEST (lit "verifier") = inl TOKEN.
Proof.
  intros c envs http n wd HI HH. unfold token_credentials.
  set (b := Builder_verifier (Some (lit "verifier")) (Builder_token (Some (Credentials_as_ref as_ref_id REQUEST))
         (Builder_new (Credentials_as_ref as_ref_id MServer.CLIENT) HMAC_SHA1))).
  assert (HC : compatible c (envs n) b wd).
  { apply in_step_compatible; auto; try reflexivity; try exact I.
    - exact CLIENT_plain.
    - exact REQUEST_plain.
    - apply plain_check; [discriminate|reflexivity]. }
  assert (HPP : plain_path (lit "/request_token")) by (apply plain_path_check; reflexivity).
  destruct (sent_query c (envs n) b wd HC Request_unit [] (lit "POST") (lit "/request_token") token_uri_display
    unit_honest normal_post (Forall_nil _) HPP) as [h [u [E1 [E2 [E3 E4]]]]]; [reflexivity|reflexivity|].
  unfold Builder_post. unfold b in E1 |- *. rewrite E1. cbn [of_res cbind]. unfold send_request, call_server. rewrite HH.
  assert (EU : u = token_uri).
  { apply (to_query_exact Request_unit (calls_of []) _ _ (crate_request_calls _ _ cq_unit)) in E2 as [_ ->]. reflexivity. }
  rewrite EU in E3, E4. change (uri_path token_uri) with (lit "/request_token").
  change (service wd ?q) with (post_request_token wd (query_request (lit "POST") (lit "/request_token") h (uri_query token_uri))).
  unfold post_request_token.
  change (bd_client b) with MServer.CLIENT in E4. change (bd_token b) with (Some REQUEST) in E4.
  change (op_verifier (bd_options b)) with (Some VERIFIER) in E4. rewrite E4.
  cbn [urlencoded_response rs_body cbind]. rewrite <- (app_nil_r (credential_fields TOKEN)).
  apply response_credentials; [exact TOKEN_plain|constructor|intros []|intros []].
Qed.

(** The builder of the two last requests. *)
Definition echo_builder : Builder :=
  Builder_token (Some TOKEN) (Builder_new MServer.CLIENT HMAC_SHA1).

(** What the echo contains. *)
Definition echoed (e : env) (method : bytes) (l : list pair) : list pair :=
  sort_pairs (sent_params (conf_of (lit "HMAC-SHA1") e echo_builder)
    (raw_sig e echo_builder l method echo_uri) ++ l).

Lemma echo_compatible : forall c e wd, in_step c e wd -> compatible c e echo_builder wd.
Proof.
  intros c e wd HI. apply in_step_compatible; auto; try reflexivity; try exact I.
  - exact CLIENT_plain.
  - exact TOKEN_plain.
Qed.

(** The URI of a request with a query is accepted, up to the maximal length. *)
Lemma query_chars : forall l, safe_keys l ->
  exists rest, query_text echo_uri (map enc_value l) = echo_uri ++ rest /\ forallb query_char rest = true.
Proof.
  assert (HU : forall s, uri_safe s -> forallb query_char s = true).
  { intros s H. apply forallb_forall. intros b Hb. 
    unfold query_char. now rewrite (H b Hb). }
  assert (HE : forall s, forallb query_char (pct_encode s) = true).
  { intros s. apply forallb_forall. intros b Hb. unfold query_char.
    destruct (unreserved b) eqn:E; [reflexivity|]. destruct (beqb b "%") eqn:E2; [now rewrite !orb_true_r|].
    exfalso. revert Hb. apply enc_no; [exact E|]. intros ->. discriminate E2. }
  assert (HF : forall l, safe_keys l -> forallb query_char (form_text (map enc_value l)) = true).
  { intros l HS. unfold form_text. induction HS as [|p l H HS IH]; [auto|]. cbn [map].
    assert (HP : forallb query_char (form_pair (enc_value p)) = true).
    { unfold form_pair. rewrite !forallb_app. cbn [enc_value fst snd]. rewrite (HU _ H), HE. reflexivity. }
    destruct l as [|q l]; [exact HP|]. cbn [map] in *. rewrite join_cons by discriminate. rewrite !forallb_app, HP, IH. reflexivity. }
  intros l HS. destruct l as [|p l].
  - exists []. split; [|reflexivity]. cbn [map query_text]. now rewrite app_nil_r.
  - exists (lit "?" ++ form_text (map enc_value (p :: l))). split; [reflexivity|]. rewrite forallb_app, HF by exact HS. reflexivity.
Qed.

Lemma valid_fits : forall vu l, uri_library vu -> safe_keys l ->
  vu (query_text echo_uri (map enc_value l)) = (N.of_nat (length (query_text echo_uri (map enc_value l))) <=? max_uri)%N.
Proof. intros vu l HV HS. destruct (query_chars l HS) as [rest [E H]]. rewrite E. now apply HV. Qed.

Lemma step_get : forall c envs http vu n wd r l, in_step c (envs n) wd -> http n = service wd ->
  raw_honest r l -> Forall utf8_pair l ->
  SendRequest_send c envs http vu n (lit "GET") echo_uri r as_ref_id as_ref_id (Token_new MServer.CLIENT TOKEN)
  = if vu (query_text echo_uri (map enc_value l)) then inl (urlencoded_to_string (echoed (envs n) (lit "GET") l)) else inr BadUri.
Proof.
  intros c envs http vu n wd r l HI HH HR HU. pose proof (echo_compatible c (envs n) wd HI) as HC.
  assert (HPP : plain_path (lit "/echo")) by (apply plain_path_check; reflexivity).
  destruct (sent_query c (envs n) echo_builder wd HC r l (lit "GET") (lit "/echo") (dstr echo_uri)
    HR normal_get HU HPP) as [h [u [E1 [E2 [E3 E4]]]]]; [apply dok_dstr|apply dtext_dstr|].
  unfold SendRequest_send, send.
  change (Builder_token _ _) with echo_builder. rewrite E1. cbn [of_res cbind].
  change (bseqb (lit "GET") (lit "POST")) with false. cbv iota.
  change (to_query echo_uri r) with (to_query (origin ++ lit "/echo") r). rewrite E2. cbn [of_res cbind].
  assert (EU : u = query_text echo_uri (map enc_value l)).
  { destruct HR as [cs [M [_ [_ [_ [CA _]]]]]]. apply (to_query_exact r cs _ _ M) in E2 as [_ ->]. now rewrite CA. }
  rewrite <- EU. destruct (vu u); [|reflexivity]. cbn [negb].
  unfold call_server. rewrite HH, E3.
  change (service wd ?q) with (echo wd (query_request (lit "GET") (lit "/echo") h (uri_query u))).
  unfold echo. change (bd_client echo_builder) with MServer.CLIENT in E4. change (bd_token echo_builder) with (Some TOKEN) in E4.
  change (op_verifier (bd_options echo_builder)) with (@None bytes) in E4. rewrite E4. reflexivity.
Qed.

Lemma step_post : forall c envs http vu n wd r l, in_step c (envs n) wd -> http n = service wd ->
  raw_honest r l -> Forall utf8_pair l ->
  SendRequest_send c envs http vu n (lit "POST") echo_uri r as_ref_id as_ref_id (Token_new MServer.CLIENT TOKEN)
  = inl (urlencoded_to_string (echoed (envs n) (lit "POST") l)).
Proof.
  intros c envs http vu n wd r l HI HH HR HU. pose proof (echo_compatible c (envs n) wd HI) as HC.
  assert (HPP : plain_path (lit "/echo")) by (apply plain_path_check; reflexivity).
  destruct (sent_form c (envs n) echo_builder wd HC r l (lit "POST") (lit "/echo") (dstr echo_uri)
    HR normal_post HU HPP) as [h [u [E1 [E2 E4]]]]; [apply dok_dstr|apply dtext_dstr|].
  unfold SendRequest_send, send.
  change (Builder_token _ _) with echo_builder. rewrite E1. cbn [of_res cbind].
  change (bseqb (lit "POST") (lit "POST")) with true. cbv iota.
  rewrite E2. cbn [of_res cbind].
  unfold call_server. rewrite HH.
  change (service wd ?q) with (echo wd (form_request (lit "POST") (lit "/echo") h u)).
  unfold echo. change (bd_client echo_builder) with MServer.CLIENT in E4. change (bd_token echo_builder) with (Some TOKEN) in E4.
  change (op_verifier (bd_options echo_builder)) with (@None bytes) in E4. rewrite E4. reflexivity.
Qed.

Lemma handshake : forall c envs wds vu r1 l1 r2 l2,
  (forall n, n < 4 -> in_step c (envs n) (wds n)) ->
  raw_honest r1 l1 -> Forall utf8_pair l1 -> raw_honest r2 l2 -> Forall utf8_pair l2 ->
  main c envs (fun n => service (wds n)) vu r1 r2
  = if vu (query_text echo_uri (map enc_value l1)) then
      inl (urlencoded_to_string (echoed (envs 2) (lit "GET") l1),
           urlencoded_to_string (echoed (envs 3) (lit "POST") l2))
    else inr BadUri.
Proof.
  intros c envs wds vu r1 l1 r2 l2 HI H1 U1 H2 U2. unfold main.
  rewrite (step_temporary c envs _ 0 (wds 0)) by (auto; apply HI; lia). cbn [cbind].
  rewrite (step_token c envs _ 1 (wds 1)) by (auto; apply HI; lia). cbn [cbind].
  rewrite (step_get c envs _ _ 2 (wds 2) r1 l1) by (auto; apply HI; lia).
  destruct (vu _); [|reflexivity]. cbn [cbind].
  rewrite (step_post c envs _ _ 3 (wds 3) r2 l2) by (auto; apply HI; lia). cbn [cbind].
  unfold client_to_string. rewrite !(proj2 (is_utf8_iff _) (urlencoded_utf8 _)). reflexivity.
Qed.
