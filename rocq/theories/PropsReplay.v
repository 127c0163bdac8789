(** C88: requests at a provider that remembers what it has served. *)
From Coq Require Import String.
From Coq Require Import Lia Arith Sorted Permutation.
From Verif Require Import Bytes Crypto Spec MFmt MPercent MSerializer MSign MRequest MCredentials MAuth MBuilder ModelTests
  SpecFmt SpecCalls SpecCalls2 SpecAuth SpecBuild SpecForm SpecServer SpecServer2 SpecParams SpecSign SpecReplay
  LBytes LFmt LPercent LTrace LAuth LSign LBuild LForm LBase LReq LReq2 LPanic LTop LParams LServer LCrypto
  Rsa LRsa PropsServer PropsHeader PropsSign PropsServer2 PropsRsa PropsForge.
From Verif Require LExample PropsExample PropsClient.
Local Open Scope nat_scope.

(** ** Specification *)

(** A request that a client makes, in the environment of the time, with the parameters [jb_params]. *)
Record job := Job {
  jb_cfg : cfg; jb_env : env; jb_builder : Builder; jb_method : bytes; jb_uri : bytes; jb_request : Request; jb_params : list pair;
}.

(** The nonce of its first draw unless there is a fixed one. *)
Definition nonce_sent (e : env) (b : Builder) : bytes :=
  match op_nonce (bd_options b) with Some n => n | None => nonce_of_bytes (random_bytes e 0) end.

(** Who makes it, when, and with which nonce. *)
Definition job_use (j : job) : use :=
  let b := jb_builder j in
  Use (cr_identifier (bd_client b)) (option_map cr_identifier (bd_token b)) (decimal (time_sent (jb_env j) b)) (nonce_sent (jb_env j) b).

(** The provider knows the client's and the token's secrets, or the public key to the client's RSA key. *)
Inductive knows (a : accounts) (b : Builder) : Prop :=
  | kn_hmac : bd_signature_method b = HMAC_SHA1 ->
      a (cr_identifier (bd_client b)) (option_map cr_identifier (bd_token b)) = Some (hmac_check (client_secret b) (token_secret b)) ->
      knows a b
  | kn_rsa : forall public private decode, key_pair public private -> 46 <= rsa_size (rk_n private) -> signs_with b private ->
      (forall x, decode (base64 b64_std true x) = Some x) ->
      a (cr_identifier (bd_client b)) (option_map cr_identifier (bd_token b)) = Some (rsa_check decode (pkcs1_verify public)) ->
      knows a b.

Record valid_job (a : accounts) (j : job) : Prop := {
  vj_knows : knows a (jb_builder j);
  vj_clock : cf_std (jb_cfg j) = true \/ op_timestamp (bd_options (jb_builder j)) <> None;
  vj_honest : honest (jb_request j) (jb_params j);
  vj_method : normal_method (jb_method j);
  vj_uri : normal_uri (jb_uri j);
}.

(** The ways to send it. *)
Inductive sends (j : job) : message -> Prop :=
  | sd_header_body : forall d header body, dtext d = jb_uri j -> dok d ->
      Builder_authorize (jb_cfg j) (jb_env j) (jb_builder j) (jb_method j) d (jb_request j) = Ok header ->
      to_form (jb_request j) = Ok body ->
      sends j (Message (jb_method j) (jb_uri j) (Some header) body)
  | sd_header_query : forall d header query, dtext d = jb_uri j -> dok d ->
      Builder_authorize (jb_cfg j) (jb_env j) (jb_builder j) (jb_method j) d (jb_request j) = Ok header ->
      to_query (jb_uri j) (jb_request j) = Ok query ->
      sends j (Message (jb_method j) query (Some header) [])
  | sd_form : forall d form body, dtext d = jb_uri j -> dok d ->
      Builder_to_form (jb_cfg j) (jb_env j) (jb_builder j) (jb_method j) d (jb_request j) = Ok form ->
      to_form (jb_request j) = Ok body ->
      sends j (Message (jb_method j) (jb_uri j) None (form_join form body))
  | sd_query_body : forall query body,
      Builder_to_query (jb_cfg j) (jb_env j) (w := StringW) dstr (jb_builder j) (jb_method j) (jb_uri j) (jb_request j) = Ok query ->
      to_form (jb_request j) = Ok body ->
      sends j (Message (jb_method j) query None body)
  | sd_query : forall query body,
      Builder_to_query (jb_cfg j) (jb_env j) (w := StringW) dstr (jb_builder j) (jb_method j) (jb_uri j) (jb_request j) = Ok query ->
      to_form (jb_request j) = Ok body ->
      sends j (Message (jb_method j) (query_join query body) None []).

(** The parameters that are not OAuth's. *)
Definition own_params (params : list pair) : list pair :=
  filter (fun p => negb (existsb (bseqb (fst p)) oauth_keys)) params.

(** ** Lemmas *)

Lemma check_params : forall check m out,
  server_check check (ms_method m) (ms_uri m) (ms_header m) (ms_body m) = Some out -> params_in m = Some out.
Proof.
  intros check m out H. unfold server_check in H. unfold params_in.
  destruct (match ms_header m with Some h => parse_header h | None => Some [] end) as [h|]; [|discriminate].
  destruct (parse_uri (ms_uri m)) as [[base q]|]; [|discriminate]. destruct (parse_form (ms_body m)) as [b|]; [|discriminate].
  cbv zeta in H.
  destruct (lookup (lit "oauth_signature") (all_params h q b)) as [|sg [|]]; try discriminate.
  destruct (lookup (lit "oauth_signature_method") (all_params h q b)) as [|mt [|]]; try discriminate.
  destruct (check _ _ _); [exact H|discriminate].
Qed.

Lemma use_of_shown : forall name e b sig l, no_oauth_keys l ->
  use_of (shown (conf_of name e b) sig l)
  = Some (Use (cr_identifier (bd_client b)) (option_map cr_identifier (bd_token b)) (decimal (time_sent e b)) (nonce_sent e b)).
Proof.
  intros name e b sig l HO. unfold use_of.
  change (lit "oauth_consumer_key") with (proto_key PConsumerKey). change (lit "oauth_token") with (proto_key PToken).
  change (lit "oauth_timestamp") with (proto_key PTimestamp). change (lit "oauth_nonce") with (proto_key PNonce).
  rewrite !(PropsClient.shown_has _ sig l _ HO). cbn [sent conf_of conf_with cn_client cn_token cn_use_nonce cn_use_timestamp PropsClient.opt_list].
  destruct (bd_token b) as [t|]; reflexivity.
Qed.

Lemma job_agrees : forall a j, valid_job a j -> exists name f sig check,
  builtin (bd_signature_method (jb_builder j)) name true f
  /\ timestamp_available (jb_cfg j) (conf_of name (jb_env j) (jb_builder j))
  /\ a (cr_identifier (bd_client (jb_builder j))) (option_map cr_identifier (bd_token (jb_builder j))) = Some check
  /\ agrees check name f (jb_builder j)
       (base_string (jb_method j) (jb_uri j) (protocol_pairs (conf_of name (jb_env j) (jb_builder j)) ++ jb_params j)) sig.
Proof.
  intros a j [HK HC HR HM HU]. destruct HK as [HB HA|public private decode HK HS HB HD HA].
  - destruct (C65_hmac (jb_builder j) (base_string (jb_method j) (jb_uri j)
      (protocol_pairs (conf_of (lit "HMAC-SHA1") (jb_env j) (jb_builder j)) ++ jb_params j)) HB) as [f [HF HG]].
    exists (lit "HMAC-SHA1"), f. do 2 eexists. split; [exact HF|]. split; [destruct HC; [now left|right; now left]|].
    split; [exact HA|exact HG].
  - destruct (sign_some private (sha1 (base_string (jb_method j) (jb_uri j) (protocol_pairs (rsa_conf (jb_env j) (jb_builder j)) ++ jb_params j)))
      (LExample.sha1_length _) HS) as [s ES].
    assert (HSV : forall h x, pkcs1_sign private h = Some x -> pkcs1_verify public h x = true).
    { intros h x E. now apply (sign_verify public private h x HK). }
    destruct (C66_rsa (jb_builder j) (pkcs1_sign private) decode (pkcs1_verify public) _ s HB HD HSV ES) as [f [HF HG]].
    exists (lit "RSA-SHA1"), f. do 2 eexists. split; [exact HF|]. split; [destruct HC; [now left|right; now left]|].
    split; [exact HA|exact HG].
Qed.

(** What arrives. *)
Lemma job_arrives : forall a j m, valid_job a j -> sends j m -> exists check out,
  a (us_client (job_use j)) (us_token (job_use j)) = Some check
  /\ server_check check (ms_method m) (ms_uri m) (ms_header m) (ms_body m) = Some out
  /\ use_of out = Some (job_use j) /\ own_params out = jb_params j.
Proof.
  intros a j m HV H. destruct (job_agrees a j HV) as [name [f [sig [check [HF [HT [HA HG]]]]]]].
  destruct HV as [_ _ HR HM HU]. exists check, (shown (conf_of name (jb_env j) (jb_builder j)) sig (jb_params j)).
  pose proof (tr_oauth _ _ HR) as HO.
  split; [exact HA|]. split; [|split; [now apply use_of_shown|now apply PropsClient.shown_rest]].
  destruct H as [d header body ED DD H1 H2|d header query ED DD H1 H2|d form body ED DD H1 H2|query body H1 H2|query body H1 H2];
    cbn [ms_method ms_uri ms_header ms_body].
  - destruct (C65_header _ _ _ name f _ _ _ _ d sig check HF HT HR HM HU ED DD HG) as [h [bo [q [E1 [E2 [E3 [E4 E5]]]]]]]. congruence.
  - destruct (C65_header _ _ _ name f _ _ _ _ d sig check HF HT HR HM HU ED DD HG) as [h [bo [q [E1 [E2 [E3 [E4 E5]]]]]]]. congruence.
  - destruct (C65_form_query _ _ _ name f _ _ _ _ d sig check HF HT HR HM HU ED DD HG) as [fo [q [bo [E1 [E2 [E3 [E4 [E5 E6]]]]]]]].
    rewrite E1 in H1. injection H1 as <-. rewrite E3 in H2. injection H2 as <-. exact E4.
  - destruct (C65_form_query _ _ _ name f _ _ _ _ (dstr (jb_uri j)) sig check HF HT HR HM HU (dtext_dstr _) (dok_dstr _) HG) as [fo [q [bo [E1 [E2 [E3 [E4 [E5 E6]]]]]]]].
    rewrite E2 in H1. injection H1 as <-. rewrite E3 in H2. injection H2 as <-. exact E5.
  - destruct (C65_form_query _ _ _ name f _ _ _ _ (dstr (jb_uri j)) sig check HF HT HR HM HU (dtext_dstr _) (dok_dstr _) HG) as [fo [q [bo [E1 [E2 [E3 [E4 [E5 E6]]]]]]]].
    rewrite E2 in H1. injection H1 as <-. rewrite E3 in H2. injection H2 as <-. exact E6.
Qed.

Lemma serve_job : forall a j m seen, valid_job a j -> sends j m -> exists out, own_params out = jb_params j
  /\ serve a seen m = if in_dec use_eq_dec (job_use j) seen then (seen, None) else (job_use j :: seen, Some out).
Proof.
  intros a j m seen HV HS. destruct (job_arrives a j m HV HS) as [check [out [H1 [H2 [H3 H4]]]]].
  exists out. split; [exact H4|]. unfold serve. rewrite (check_params check m out H2), H3, H1, H2. reflexivity.
Qed.

(** ** C88 *)

(** Every valid job can be sent, in each of the ways. *)
Theorem C88_sendable : forall a j, valid_job a j -> exists m1 m2 m3 m4 m5,
  sends j m1 /\ sends j m2 /\ sends j m3 /\ sends j m4 /\ sends j m5
  /\ ms_header m1 <> None /\ ms_uri m1 = jb_uri j /\ ms_header m2 <> None /\ ms_body m2 = []
  /\ ms_header m3 = None /\ ms_uri m3 = jb_uri j /\ ms_header m4 = None /\ ms_header m5 = None /\ ms_body m5 = [].
Proof.
  intros a j HV. destruct (job_agrees a j HV) as [name [f [sig [check [HF [HT [HA HG]]]]]]].
  destruct HV as [_ _ HR HM HU].
  destruct (C65_header _ _ _ name f _ _ _ _ (dstr (jb_uri j)) sig check HF HT HR HM HU (dtext_dstr _) (dok_dstr _) HG) as [h [bo [q [E1 [E2 [E3 _]]]]]].
  destruct (C65_form_query _ _ _ name f _ _ _ _ (dstr (jb_uri j)) sig check HF HT HR HM HU (dtext_dstr _) (dok_dstr _) HG) as [fo [q' [bo' [F1 [F2 [F3 _]]]]]].
  do 5 eexists.
  split; [apply (sd_header_body j _ _ _ (dtext_dstr _) (dok_dstr _) E1 E2)|].
  split; [apply (sd_header_query j _ _ _ (dtext_dstr _) (dok_dstr _) E1 E3)|].
  split; [apply (sd_form j _ _ _ (dtext_dstr _) (dok_dstr _) F1 F3)|].
  split; [apply (sd_query_body j _ _ F2 F3)|]. split; [apply (sd_query j _ _ F2 F3)|].
  repeat split; discriminate.
Qed.
Print Assumptions C88_sendable.

(** Any clients, each request in any transport, in any order, at a provider with any memory: a request is served, with its
    parameters, exactly if client, token, timestamp and nonce differ from all that are in the memory or came before. *)
Theorem C88_session : forall a jobs msgs, Forall (valid_job a) jobs -> Forall2 sends jobs msgs ->
  forall seen i j, nth_error jobs i = Some j ->
  exists answer, nth_error (serve_all a seen msgs) i = Some answer
    /\ match answer with
       | Some out => own_params out = jb_params j
           /\ ~ In (job_use j) seen /\ forall i' j', i' < i -> nth_error jobs i' = Some j' -> job_use j' <> job_use j
       | None => In (job_use j) seen \/ exists i' j', i' < i /\ nth_error jobs i' = Some j' /\ job_use j' = job_use j
       end.
Proof.
  intros a jobs msgs HV HS. revert HV. induction HS as [|j0 m0 jobs msgs H0 HS IH]; intros HV seen i j HI; [destruct i; discriminate|].
  inversion HV as [|? ? V0 HV']; subst. destruct (serve_job a j0 m0 seen V0 H0) as [out0 [HO HE]].
  cbn [serve_all]. rewrite HE. destruct i as [|i].
  - cbn [nth_error] in HI. injection HI as <-. destruct (in_dec use_eq_dec (job_use j0) seen) as [I|I]; cbn [nth_error].
    + exists None. split; [reflexivity|]. now left.
    + exists (Some out0). split; [reflexivity|]. split; [exact HO|]. split; [exact I|]. intros i' j' L. lia.
  - cbn [nth_error] in HI.
    assert (X : exists seen', (let '(s', ans) := (if in_dec use_eq_dec (job_use j0) seen then (seen, None) else (job_use j0 :: seen, Some out0)) in
                               ans :: serve_all a s' msgs) = (if in_dec use_eq_dec (job_use j0) seen then None else Some out0) :: serve_all a seen' msgs
                 /\ forall u, In u seen' <-> In u seen \/ u = job_use j0).
    { destruct (in_dec use_eq_dec (job_use j0) seen) as [I|I]; eexists; (split; [reflexivity|]); intros u.
      - split; [now left|]. now intros [H| ->].
      - cbn [In]. split; intros [H|H]; auto. }
    destruct X as [seen' [-> HIN]]. cbn [nth_error]. destruct (IH HV' seen' i j HI) as [answer [E HA]]. exists answer. split; [exact E|].
    destruct answer as [out|].
    + destruct HA as [A1 [A2 A3]]. split; [exact A1|]. rewrite HIN in A2. split; [tauto|].
      intros [|i'] j' L HJ; cbn [nth_error] in HJ.
      * injection HJ as <-. intros HEq. apply A2. right. now symmetry.
      * apply (A3 i' j'); [lia|exact HJ].
    + rewrite HIN in HA. destruct HA as [[HA|HA]|[i' [j' [L [HJ HEq]]]]].
      * now left.
      * right. exists 0, j0. split; [lia|]. now split.
      * right. exists (S i'), j'. split; [lia|]. now split.
Qed.
Print Assumptions C88_session.

(** With an empty memory all of them are served exactly if no two agree in client, token, timestamp and nonce. *)
Theorem C88_all_served : forall a jobs msgs, Forall (valid_job a) jobs -> Forall2 sends jobs msgs ->
  (Forall (fun answer => answer <> None) (serve_all a [] msgs) <-> NoDup (map job_use jobs)).
Proof.
  intros a jobs msgs HV HS. pose proof (C88_session a jobs msgs HV HS []) as H.
  assert (HL : length (serve_all a [] msgs) = length jobs).
  { assert (HS' : length jobs = length msgs) by (clear - HS; induction HS; cbn [length]; congruence).
    rewrite HS'. clear. generalize (@nil use). induction msgs as [|m msgs IH]; intros seen; [reflexivity|].
    cbn [serve_all]. destruct (serve a seen m). cbn [length]. now rewrite IH. }
  split.
  - intros HF. apply NoDup_nth_error. intros i i' L E. rewrite map_length in L.
    assert (W : forall i i', i < i' -> i' < length jobs -> nth_error (map job_use jobs) i = nth_error (map job_use jobs) i' -> False).
    { clear - H HF. intros i i' L L' E.
      destruct (nth_error jobs i') as [j'|] eqn:E'; [|apply nth_error_None in E'; lia].
      destruct (nth_error jobs i) as [j|] eqn:E0; [|apply nth_error_None in E0; lia].
      rewrite (map_nth_error job_use _ _ E'), (map_nth_error job_use _ _ E0) in E. apply (f_equal (fun o => match o with Some u => u | None => job_use j end)) in E. cbv beta iota in E.
      destruct (H i' j' E') as [ans [HN HA]]. rewrite Forall_forall in HF. pose proof (HF ans (nth_error_In _ _ HN)) as NN.
      destruct ans as [out|]; [|congruence]. destruct HA as [_ [_ HA]]. exact (HA i j L E0 E). }
    destruct (Nat.lt_trichotomy i i') as [C|[C|C]]; [|exact C|]; exfalso.
    + destruct (Nat.lt_ge_cases i' (length jobs)) as [L'|L']; [exact (W i i' C L' E)|].
      assert (N : nth_error (map job_use jobs) i' = None) by (apply nth_error_None; now rewrite map_length).
      rewrite N in E. apply nth_error_None in E. rewrite map_length in E. lia.
    + exact (W i' i C L (eq_sym E)).
  - intros HN. apply Forall_forall. intros ans HI. apply In_nth_error in HI as [i HI].
    destruct (nth_error jobs i) as [j|] eqn:EJ.
    + destruct (H i j EJ) as [ans' [E HA]]. rewrite HI in E. injection E as <-. destruct ans as [out|]; [discriminate|].
      exfalso. destruct HA as [[]|[i' [j' [L [HJ HEq]]]]]. rewrite NoDup_nth_error in HN.
      assert (X : i' = i); [|lia]. apply HN.
      * rewrite map_length. apply nth_error_Some. congruence.
      * now rewrite (map_nth_error job_use _ _ HJ), (map_nth_error job_use _ _ EJ), HEq.
    + apply nth_error_None in EJ. rewrite <- HL in EJ. apply nth_error_None in EJ. congruence.
Qed.
Print Assumptions C88_all_served.

Lemma use_same : forall j j', job_use j = job_use j' <->
  cr_identifier (bd_client (jb_builder j)) = cr_identifier (bd_client (jb_builder j'))
  /\ option_map cr_identifier (bd_token (jb_builder j)) = option_map cr_identifier (bd_token (jb_builder j'))
  /\ time_sent (jb_env j) (jb_builder j) = time_sent (jb_env j') (jb_builder j')
  /\ nonce_sent (jb_env j) (jb_builder j) = nonce_sent (jb_env j') (jb_builder j').
Proof.
  intros j j'. unfold job_use. split.
  - intros H. injection H as H1 H2 H3 H4. apply decimal_inj in H3. auto.
  - intros [-> [-> [-> ->]]]. reflexivity.
Qed.

(** When two requests are the same for the provider: the ids and the times are the same, and the nonces are; generated
    nonces are exactly if the nine random bytes are. *)
Theorem C88_same_use : forall j j',
  (job_use j = job_use j' <->
   cr_identifier (bd_client (jb_builder j)) = cr_identifier (bd_client (jb_builder j'))
   /\ option_map cr_identifier (bd_token (jb_builder j)) = option_map cr_identifier (bd_token (jb_builder j'))
   /\ time_sent (jb_env j) (jb_builder j) = time_sent (jb_env j') (jb_builder j')
   /\ nonce_sent (jb_env j) (jb_builder j) = nonce_sent (jb_env j') (jb_builder j'))
  /\ (op_nonce (bd_options (jb_builder j)) = None -> op_nonce (bd_options (jb_builder j')) = None ->
      (nonce_sent (jb_env j) (jb_builder j) = nonce_sent (jb_env j') (jb_builder j')
       <-> random_bytes (jb_env j) 0 = random_bytes (jb_env j') 0)).
Proof.
  intros j j'. split; [apply use_same|]. intros H H'. unfold nonce_sent. rewrite H, H'. rewrite !nonce_of_bytes_text. split.
  - apply nonce_text_inj; unfold random_bytes; now rewrite map_length, seq_length.
  - now intros ->.
Qed.
Print Assumptions C88_same_use.

(** So one client that makes its requests with one builder without a fixed nonce has all of them served exactly if no two
    of them have both the same time and the same random bytes. *)
Theorem C88_one_client : forall a b jobs msgs, Forall (valid_job a) jobs -> Forall2 sends jobs msgs ->
  op_nonce (bd_options b) = None -> Forall (fun j => jb_builder j = b) jobs ->
  (Forall (fun answer => answer <> None) (serve_all a [] msgs)
   <-> NoDup (map (fun j => (time_sent (jb_env j) b, random_bytes (jb_env j) 0)) jobs)).
Proof.
  intros a b jobs msgs HV HS HN HB. rewrite (C88_all_served a jobs msgs HV HS). clear HV HS.
  assert (X : forall j j', jb_builder j = b -> jb_builder j' = b ->
    (job_use j = job_use j' <-> (time_sent (jb_env j) b, random_bytes (jb_env j) 0) = (time_sent (jb_env j') b, random_bytes (jb_env j') 0))).
  { intros j j' E E'. destruct (C88_same_use j j') as [C1 C2]. rewrite E, E' in C1, C2. specialize (C2 HN HN). rewrite C1, C2. split.
    - now intros [_ [_ [-> ->]]].
    - intros H. apply pair_equal_spec in H as [H1 H2]. auto. }
  induction jobs as [|j jobs IH]; [split; constructor|]. inversion HB as [|? ? B0 HB']; subst. cbn [map]. rewrite !NoDup_cons_iff.
  rewrite (IH HB'). apply and_iff_compat_r. apply not_iff_compat. rewrite !in_map_iff. rewrite Forall_forall in HB'. split.
  - intros [j' [E I]]. exists j'. split; [|exact I]. apply (X j' j); auto.
  - intros [j' [E I]]. exists j'. split; [|exact I]. apply (X j' j); auto.
Qed.
Print Assumptions C88_one_client.

(** ** Whoever sends the requests *)

Lemma serve_all_inv : forall a ms seen i out, nth_error (serve_all a seen ms) i = Some (Some out) ->
  exists m u check, nth_error ms i = Some m /\ use_of out = Some u /\ a (us_client u) (us_token u) = Some check
    /\ server_check check (ms_method m) (ms_uri m) (ms_header m) (ms_body m) = Some out /\ ~ In u seen.
Proof.
  intros a. induction ms as [|m ms IH]; intros seen i out H; [destruct i; discriminate|]. cbn [serve_all] in H.
  unfold serve in H.
  destruct (params_in m) as [ps|] eqn:EP; [destruct (use_of ps) as [u|] eqn:EU; [destruct (a (us_client u) (us_token u)) as [check|] eqn:EA;
    [destruct (server_check check (ms_method m) (ms_uri m) (ms_header m) (ms_body m)) as [o|] eqn:EC;
      [destruct (in_dec use_eq_dec u seen) as [I|I]|]|]|]|];
    (destruct i as [|i]; cbn [nth_error] in H; [try discriminate|]; try now apply IH in H).
  - injection H as ->. rewrite (check_params _ _ _ EC) in EP. injection EP as <-. exists m, u, check. auto.
  - apply IH in H as [m' [u' [k [H1 [H2 [H3 [H4 H5]]]]]]]. exists m', u', k. repeat (split; auto). intros J. apply H5. now right.
Qed.

Lemma serve_all_distinct : forall a ms seen i i' out out', i < i' ->
  nth_error (serve_all a seen ms) i = Some (Some out) -> nth_error (serve_all a seen ms) i' = Some (Some out') ->
  use_of out <> use_of out'.
Proof.
  intros a. induction ms as [|m ms IH]; intros seen i i' out out' L H H'; [destruct i; discriminate|].
  destruct i' as [|i']; [lia|]. destruct i as [|i].
  - pose proof (serve_all_inv a (m :: ms) seen 0 out H) as [m0 [u [check [H1 [H2 [H3 [H4 H5]]]]]]].
    cbn [nth_error] in H1. injection H1 as <-. cbn [serve_all] in H'. unfold serve in H'.
    rewrite (check_params _ _ _ H4), H2, H3, H4 in H'. destruct (in_dec use_eq_dec u seen) as [I|_]; [contradiction|].
    cbn [nth_error] in H'. apply serve_all_inv in H' as [m' [u' [k [_ [E [_ [_ N]]]]]]]. rewrite H2, E. intros X. injection X as ->.
    apply N. now left.
  - cbn [serve_all] in H, H'. destruct (serve a seen m) as [s ans]. cbn [nth_error] in H, H'. apply (IH s i i' out out'); auto. lia.
Qed.

Lemma lookup_perm : forall k l l', Permutation l l' -> length (lookup k l) <= 1 -> lookup k l' = lookup k l.
Proof.
  intros k l l' P H. assert (Q : Permutation (lookup k l) (lookup k l')) by (unfold lookup; apply Permutation_map, filter_perm, P).
  destruct (lookup k l) as [|x [|]]; [now apply Permutation_nil in Q|now apply Permutation_length_1_inv in Q|cbn [length] in H; lia].
Qed.

Lemma lookup_unsigned : forall k out, k <> lit "oauth_signature" -> lookup k (unsigned out) = lookup k out.
Proof.
  intros k out N. unfold lookup, unsigned. f_equal. induction out as [|p out IH]; [reflexivity|]. cbn [filter].
  destruct (has_key (lit "oauth_signature") p) eqn:E; cbn [negb].
  - unfold has_key in E. apply bseqb_eq in E. rewrite IH. destruct (bseqb (fst p) k) eqn:E'; [|reflexivity].
    apply bseqb_eq in E'. congruence.
  - cbn [filter]. now rewrite IH.
Qed.

(** A server that sees the signed parameters sees the use that was signed. *)
Lemma use_of_signed : forall name e b l out, no_oauth_keys l ->
  Permutation (unsigned out) (protocol_pairs (conf_of name e b) ++ l) ->
  use_of out = Some (Use (cr_identifier (bd_client b)) (option_map cr_identifier (bd_token b)) (decimal (time_sent e b)) (nonce_sent e b)).
Proof.
  intros name e b l out HO HP. rewrite <- (use_of_shown name e b [] l HO). unfold use_of.
  assert (X : forall p, lookup (proto_key p) out = lookup (proto_key p) (shown (conf_of name e b) [] l)).
  { intros p. rewrite <- (lookup_unsigned (proto_key p) out) by (intros E; exact (sig_not_proto p (eq_sym E))).
    pose proof (PropsClient.shown_has (conf_of name e b) [] l p HO) as S.
    assert (E : lookup (proto_key p) (protocol_pairs (conf_of name e b) ++ l) = lookup (proto_key p) (shown (conf_of name e b) [] l)).
    { unfold shown. change ((lit "oauth_signature", []) :: l) with ([(lit "oauth_signature", [] : bytes)] ++ l). rewrite !lookup_app. f_equal.
      rewrite (lookup_none (proto_key p) [_]); [reflexivity|]. intros f [<-|[]] E. exact (sig_not_proto p E). }
    rewrite <- E. apply lookup_perm; [now apply Permutation_sym|]. rewrite E, S. destruct (sent _ 0 0 p); cbn; lia. }
  change (lit "oauth_consumer_key") with (proto_key PConsumerKey). change (lit "oauth_token") with (proto_key PToken).
  change (lit "oauth_timestamp") with (proto_key PTimestamp). change (lit "oauth_nonce") with (proto_key PNonce).
  now rewrite !X.
Qed.

(** The message [m], taken with parameters [out], has another text or key than what was signed, but the same HMAC. *)
Definition accident_hmac (a : accounts) (e : env) (b : Builder) (method uri : bytes) (l : list pair) (m : message) (out : list pair) : Prop :=
  exists u client token base q, use_of out = Some u
    /\ a (us_client u) (us_token u) = Some (hmac_check client token) /\ parse_uri (ms_uri m) = Some (base, q)
    /\ let text := base_string method uri (protocol_pairs (hmac_conf e b) ++ l) in
       let text' := base_string (ms_method m) (base_uri base) (unsigned out) in
       let key := signing_key (client_secret b) (token_secret b) in
       let key' := signing_key client token in
       (key, text) <> (key', text') /\ hmac_sha1 key text = hmac_sha1 key' text'.

(** All accounts of the provider have secrets. *)
Definition hmac_accounts (a : accounts) : Prop :=
  forall client token check, a client token = Some check -> exists cs ts, check = hmac_check cs ts.

(** Whatever requests reach the provider, by whomever they are made up, at most one with a signature made by the client is
    served, or one of the two is such an accident.  What is served is the signed request. *)
Theorem C88_once_hmac : forall a c e b method uri r l s seen ms i i' m m' out out',
  hmac_accounts a -> bd_signature_method b = HMAC_SHA1 -> honest r l -> normal_method method ->
  client_signature c e b method uri r s -> i < i' ->
  nth_error ms i = Some m -> nth_error ms i' = Some m' ->
  nth_error (serve_all a seen ms) i = Some (Some out) -> nth_error (serve_all a seen ms) i' = Some (Some out') ->
  lookup (lit "oauth_signature") out = [s] -> lookup (lit "oauth_signature") out' = [s] ->
  accident_hmac a e b method uri l m out \/ accident_hmac a e b method uri l m' out'.
Proof.
  intros a c e b method uri r l s seen ms i i' m m' out out' HA HB HR HM HC L HI HI' H H' HL HL'.
  pose proof (serve_all_distinct a ms seen i i' out out' L H H') as HD.
  apply serve_all_inv in H as [m0 [u [check [E1 [E2 [E3 [E4 _]]]]]]]. rewrite HI in E1. injection E1 as <-.
  apply serve_all_inv in H' as [m0 [u' [check' [F1 [F2 [F3 [F4 _]]]]]]]. rewrite HI' in F1. injection F1 as <-.
  destruct (HA _ _ _ E3) as [cs [ts ->]]. destruct (HA _ _ _ F3) as [cs' [ts' ->]].
  destruct (C73_hmac c e b method uri r l s cs ts _ _ _ _ out HB HR HM HC E4 HL) as [base [q [P1 [D|D]]]].
  - destruct (C73_hmac c e b method uri r l s cs' ts' _ _ _ _ out' HB HR HM HC F4 HL') as [base' [q' [P2 [D'|D']]]].
    + exfalso. apply HD. destruct D as [_ [_ [D _]]]. destruct D' as [_ [_ [D' _]]].
      rewrite (use_of_signed _ e b l out (tr_oauth r l HR) D). symmetry. exact (use_of_signed _ e b l out' (tr_oauth r l HR) D').
    + right. exists u', cs', ts', base', q'. auto.
  - left. exists u, cs, ts, base, q. auto.
Qed.
Print Assumptions C88_once_hmac.

(** The message has another text than what was signed, but the same digest. *)
Definition accident_rsa (e : env) (b : Builder) (method uri : bytes) (l : list pair) (m : message) (out : list pair) : Prop :=
  exists base q, parse_uri (ms_uri m) = Some (base, q)
    /\ let text := base_string method uri (protocol_pairs (rsa_conf e b) ++ l) in
       let text' := base_string (ms_method m) (base_uri base) (unsigned out) in
       text <> text' /\ sha1 text = sha1 text'.

(** With RSA-SHA1: among the requests in the name of this client and token. *)
Theorem C88_once_rsa : forall a c e b public private decode method uri r l s seen ms i i' m m' out out',
  key_pair public private -> signs_with b private -> (forall x, decode (base64 b64_std true x) = Some x) ->
  a (cr_identifier (bd_client b)) (option_map cr_identifier (bd_token b)) = Some (rsa_check decode (pkcs1_verify public)) ->
  honest r l -> normal_method method -> client_signature c e b method uri r s -> i < i' ->
  nth_error ms i = Some m -> nth_error ms i' = Some m' ->
  nth_error (serve_all a seen ms) i = Some (Some out) -> nth_error (serve_all a seen ms) i' = Some (Some out') ->
  (forall o u, In o [out; out'] -> use_of o = Some u ->
     us_client u = cr_identifier (bd_client b) /\ us_token u = option_map cr_identifier (bd_token b)) ->
  lookup (lit "oauth_signature") out = [s] -> lookup (lit "oauth_signature") out' = [s] ->
  accident_rsa e b method uri l m out \/ accident_rsa e b method uri l m' out'.
Proof.
  intros a c e b public private decode method uri r l s seen ms i i' m m' out out' HK HB HDe HA HR HM HC L HI HI' H H' HU HL HL'.
  pose proof (serve_all_distinct a ms seen i i' out out' L H H') as HD.
  apply serve_all_inv in H as [m0 [u [check [E1 [E2 [E3 [E4 _]]]]]]]. rewrite HI in E1. injection E1 as <-.
  apply serve_all_inv in H' as [m0 [u' [check' [F1 [F2 [F3 [F4 _]]]]]]]. rewrite HI' in F1. injection F1 as <-.
  destruct (HU out u (or_introl eq_refl) E2) as [U1 U2]. rewrite U1, U2, HA in E3. injection E3 as <-.
  destruct (HU out' u' (or_intror (or_introl eq_refl)) F2) as [V1 V2]. rewrite V1, V2, HA in F3. injection F3 as <-.
  destruct (C73_rsa c e b public private decode method uri r l s _ _ _ _ out HK HB HDe HR HM HC E4 HL) as [base [q [P1 [D|D]]]].
  - destruct (C73_rsa c e b public private decode method uri r l s _ _ _ _ out' HK HB HDe HR HM HC F4 HL') as [base' [q' [P2 [D'|D']]]].
    + exfalso. apply HD. destruct D as [_ [_ D]]. destruct D' as [_ [_ D']].
      rewrite (use_of_signed _ e b l out (tr_oauth r l HR) D). symmetry. exact (use_of_signed _ e b l out' (tr_oauth r l HR) D').
    + right. exists base', q'. auto.
  - left. exists base, q. auto.
Qed.
Print Assumptions C88_once_rsa.

(** ** Example *)

(** A client without a fixed nonce, at different times and with different random bytes. *)
Definition ex_client : Builder :=
  Builder_with_token (Token_from_parts (lit "consumer_key") (lit "consumer_secret") (lit "token") (lit "token_secret")) HMAC_SHA1.
Definition ex_env (time : N) (random : byte) : env := {| env_clock := fun _ => Some time; env_rng := fun _ _ => random |}.
Definition ex_job (time : N) (random : byte) : job :=
  Job dbg_std (ex_env time random) ex_client (lit "POST") (lit "http://example.com/x") ex_request
    [(lit "a", lit "1 2"); (lit "c", lit "&="); (lit "c", lit "z"); (lit "p", lit "q")].
Definition ex_accounts : accounts := fun client token =>
  if bseqb client (lit "consumer_key") && (match token with Some t => bseqb t (lit "token") | None => false end)
  then Some (hmac_check (lit "consumer_secret") (Some (lit "token_secret"))) else None.

Example C88_example_valid : forall time random, valid_job ex_accounts (ex_job time random).
Proof.
  intros time random. destruct C18_example_normal as [H1 [H2 _]]. constructor.
  - apply kn_hmac; reflexivity.
  - left. reflexivity.
  - exact C18_example_honest.
  - exact H1.
  - exact H2.
Qed.
Example C88_example_accounts : hmac_accounts ex_accounts.
Proof.
  intros client token check H. unfold ex_accounts in H. destruct (_ && _); [|discriminate]. injection H as <-. eauto.
Qed.

(** The requests at 5 seconds and at 6 seconds are served, with different random bytes also two in one second; a request
    that is sent again, with other spelling of method and URI, is not, nor one with other parameters. *)
Definition ex_header (time : N) (random : byte) : option bytes :=
  match Builder_authorize dbg_std (ex_env time random) ex_client (lit "POST") (s2d "http://example.com/x") ex_request with
  | Ok h => Some h | Panic _ => None
  end.
Definition ex_body : bytes := match to_form ex_request with Ok b => b | Panic _ => [] end.
Example C88_example :
  map (fun answer : option (list pair) => match answer with Some _ => true | None => false end)
    (serve_all ex_accounts []
       [Message (lit "POST") (lit "http://example.com/x") (ex_header 5 x01) ex_body;
        Message (lit "POST") (lit "http://example.com/x") (ex_header 6 x01) ex_body;
        Message (lit "POST") (lit "http://example.com/x") (ex_header 6 x01) ex_body;
        Message (lit "POST") (lit "http://example.com/x") (ex_header 6 x02) ex_body;
        Message (lit "post") (lit "http://EXAMPLE.com:80/x") (ex_header 5 x01) ex_body;
        Message (lit "POST") (lit "http://example.com/x") (ex_header 7 x01) (ex_body ++ lit "&z=1")])
  = [true; true; false; true; false; false].
Proof. vm_compute. reflexivity. Qed.
