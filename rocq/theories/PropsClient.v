(** C82: the example client with any server. *)
From Coq Require Import String.
From Coq Require Import Lia Arith Sorted Permutation.
From Verif Require Import Bytes Crypto Spec MFmt MPercent MSerializer MSign MRequest MCredentials MAuth MBuilder MSerde ModelTests
  SpecFmt SpecCalls SpecCalls2 SpecAuth SpecBuild SpecForm SpecServer SpecServer2 SpecParams SpecSign SpecHttp
  LBytes LFmt LPercent LTrace LAuth LSign LBuild LForm LBase LReq LReq2 LBase2 LPanic LTop LParams LServer
  MHttp LHttp LText MServer SpecExample MClient LExample3 PropsServer.
From Verif Require PropsServer2 PropsSerde PropsExample.

(** ** Specification *)

(** The URI that was requested, and the form that was sent. *)
Definition target (req : http_request) : bytes :=
  lit "http://127.0.0.1:8080" ++ rq_path req ++ match rq_query req with Some q => lit "?" ++ q | None => [] end.
Definition sent_form (req : http_request) : bytes :=
  match rq_content_type req, rq_body req with
  | Some t, Some b => if bseqb t (lit "application/x-www-form-urlencoded") then b else []
  | _, _ => []
  end.

(** What a server that conforms to RFC 5849 makes of a request, given the secrets. *)
Definition verified (client_secret : bytes) (token_secret : option bytes) (req : http_request) : option (list pair) :=
  match rq_authorization req with
  | [h] => server_check (hmac_check client_secret token_secret) (rq_method req) (target req) (Some h) (sent_form req)
  | _ => None
  end.

Definition opt_list {A} (o : option A) : list A := match o with Some x => [x] | None => [] end.

(** [req] is a request to [path], signed with the credentials, with these parameters. *)
Record signed_request (client : Credentials bytes) (token : option (Credentials bytes)) (callback verifier : option bytes)
    (method path : bytes) (l : list pair) (req : http_request) : Prop := {
  sr_method : rq_method req = method;
  sr_path : rq_path req = path;
  sr_verified : exists out, verified (cr_secret client) (option_map cr_secret token) req = Some out
    /\ lookup (lit "oauth_consumer_key") out = [cr_identifier client]
    /\ lookup (lit "oauth_token") out = opt_list (option_map cr_identifier token)
    /\ lookup (lit "oauth_callback") out = opt_list callback
    /\ lookup (lit "oauth_verifier") out = opt_list verifier
    /\ filter (fun p => negb (existsb (bseqb (fst p)) oauth_keys)) out = l;
}.

(** The body of an answer, whatever its status, and the credentials in a body. *)
Definition answers (http : server) (n : nat) (req : http_request) (body : bytes) : Prop :=
  exists resp, http n req = Done_ resp /\ rs_body resp = body.
Definition gives (body : bytes) (x : Credentials bytes) : Prop :=
  exists l, form_reads_as body l /\ lookup (lit "oauth_token") l = [cr_identifier x]
    /\ lookup (lit "oauth_token_secret") l = [cr_secret x].

(** ** Auxiliary facts *)

Definition form_entry (p : bytes * bytes) : entry Empty_set bytes :=
  {| en_key := VisitStr (fst p); en_value := inl (snd p); en_ignored := inl tt |}.

Lemma once_iff : forall k v l, PropsSerde.once k v (map form_entry l) <-> lookup k l = [v].
Proof.
  intros k v l. unfold PropsSerde.once, lookup.
  assert (HF : filter (PropsSerde.has_key k) (map form_entry l) = map form_entry (filter (fun p => bseqb (fst p) k) l)).
  { induction l as [|p l IH]; [reflexivity|]. cbn [map filter]. unfold PropsSerde.has_key at 1, PropsSerde.key_text at 1.
    cbn [en_key form_entry]. destruct (bseqb (fst p) k); [cbn [map]; now rewrite IH|exact IH]. }
  rewrite HF. destruct (filter (fun p => bseqb (fst p) k) l) as [|p [|q r]]; cbn [map].
  - split; [intros [en [H _]]; discriminate H|discriminate].
  - split.
    + intros [en [H1 H2]]. injection H1 as <-. cbn [en_value form_entry] in H2. injection H2 as ->. reflexivity.
    + intros H. injection H as <-. eexists. split; reflexivity.
  - split; [intros [en [H _]]; discriminate H|discriminate].
Qed.

Lemma gives_iff : forall body x, credentials_from_bytes body = inl x <-> gives body x.
Proof.
  intros body [i s]. unfold credentials_from_bytes.
  assert (HG : gives body (Cred i s) <-> lookup (lit "oauth_token") (form_parse body) = [i]
    /\ lookup (lit "oauth_token_secret") (form_parse body) = [s]).
  { unfold gives. cbn [cr_identifier cr_secret]. split.
    - intros [l [H1 H2]]. now apply form_reads_iff in H1 as <-.
    - intros H. exists (form_parse body). split; [now apply form_reads_iff|exact H]. }
  rewrite HG. clear HG.
  change (map _ (form_parse body)) with (map form_entry (form_parse body)).
  assert (HR : PropsSerde.readable (map form_entry (form_parse body))).
  { unfold PropsSerde.readable. apply Forall_forall. intros en Hen. apply in_map_iff in Hen as [p [<- _]].
    exists (fst p). split; [reflexivity|]. intros _ _. eexists. reflexivity. }
  pose proof (PropsSerde.C40_accepts (AMap {| ma_entries := map form_entry (form_parse body); ma_end := None |}) i s) as X.
  rewrite <- !once_iff. split.
  - intros H. destruct (Credentials_deserialize _) as [c|e]; [|discriminate H]. injection H as ->.
    apply proj1 in X. destruct (X eq_refl) as [m [K [_ [_ X1]]]]. injection K as <-. exact X1.
  - intros H. rewrite (proj2 X); [reflexivity|]. eexists. split; [reflexivity|]. cbn [ma_entries ma_end].
    split; [reflexivity|]. split; [exact HR|exact H].
Qed.

Lemma answers_iff : forall http n req body, call_server http n req = inl body <-> answers http n req body.
Proof.
  intros http n req body. unfold call_server, answers. destruct (http n req) as [resp|p].
  - split; [intros H; injection H as <-; now exists resp|]. intros [r [H <-]]. now injection H as ->.
  - split; [discriminate|]. intros [r [H _]]. discriminate H.
Qed.

Lemma cbind_ok : forall {A B} (x : cres A) (f : A -> cres B) y, cbind x f = inl y <-> exists a, x = inl a /\ f a = inl y.
Proof.
  intros A B [a|e] f y; cbn [cbind]; split.
  - intros H. now exists a.
  - intros [b [H1 H2]]. now injection H1 as ->.
  - discriminate.
  - intros [b [H _]]. discriminate H.
Qed.

(** What is in the parameters that the server sees. *)
Lemma shown_has : forall cf sig l p, no_oauth_keys l ->
  lookup (proto_key p) (PropsServer2.shown cf sig l) = opt_list (sent cf 0 0 p).
Proof.
  intros cf sig l p HO. unfold PropsServer2.shown. rewrite lookup_app.
  rewrite <- raw_all, (lookup_raw cf all_protos p all_protos_nodup) by (destruct p; cbn; tauto).
  change ((lit "oauth_signature", sig) :: l) with ([(lit "oauth_signature", sig)] ++ l). rewrite lookup_app.
  rewrite (lookup_none _ l).
  - rewrite (lookup_none _ [_]).
    + rewrite app_nil_r. now destruct (sent cf 0 0 p).
    + intros f [<-|[]] E. exact (sig_not_proto p E).
  - intros f Hf E. unfold no_oauth_keys in HO. rewrite Forall_forall in HO.
    apply (HO f Hf). rewrite E. right. apply in_map. destruct p; cbn; tauto.
Qed.

Lemma oauth_key_in : forall k, existsb (bseqb k) oauth_keys = true <-> In k oauth_keys.
Proof.
  intros k. rewrite existsb_exists. split.
  - intros [x [H E]]. apply bseqb_eq in E. now subst.
  - intros H. exists k. split; [exact H|apply bseqb_refl].
Qed.

Lemma shown_rest : forall cf sig l, no_oauth_keys l ->
  filter (fun p => negb (existsb (bseqb (fst p)) oauth_keys)) (PropsServer2.shown cf sig l) = l.
Proof.
  intros cf sig l HO. unfold PropsServer2.shown. rewrite filter_app.
  rewrite (filter_none _ (protocol_pairs cf)).
  - cbn [app]. change ((lit "oauth_signature", sig) :: l) with ([(lit "oauth_signature", sig)] ++ l). rewrite filter_app.
    rewrite (filter_none _ [_]); [cbn [app]; apply filter_all|].
    + intros f Hf. destruct (existsb _ _) eqn:E; [|reflexivity]. apply oauth_key_in in E.
      unfold no_oauth_keys in HO. rewrite Forall_forall in HO. exfalso. exact (HO f Hf E).
    + intros f [<-|[]]. reflexivity.
  - intros f Hf. rewrite <- raw_all in Hf. apply raw_in in Hf as [p [_ [E _]]].
    assert (X : existsb (bseqb (fst f)) oauth_keys = true).
    { apply oauth_key_in. rewrite E. right. apply in_map. destruct p; cbn; tauto. }
    now rewrite X.
Qed.

Lemma unit_is_honest : honest Request_unit [].
Proof.
  exists (calls_of []). split; [apply (crate_request_calls _ _ cq_unit)|]. split; [apply call_protos_calls_of|].
  split; [apply calls_of_ascending; constructor|]. split; [apply displays_calls_of; constructor|].
  split; [reflexivity|]. repeat split; constructor.
Qed.

(** ** Every request that the library signs for the client *)
Section Signed.
  Variables (c : cfg) (e : env) (b : Builder) (r : Request) (l : list pair) (method path : bytes) (d : disp).
  Hypothesis HB : bd_signature_method b = HMAC_SHA1.
  Hypothesis HS : cf_std c = true.
  Hypothesis HR : honest r l.
  Hypothesis HM : normal_method method.
  Hypothesis HP : plain_path path.
  Hypothesis HU : normal_uri (origin ++ path).
  Hypothesis ED : dtext d = origin ++ path.
  Hypothesis DD : dok d.
  Let sr := signed_request (bd_client b) (bd_token b) (op_callback (bd_options b)) (op_verifier (bd_options b)) method path l.

  Lemma signed : exists header body query,
    Builder_authorize c e b method d r = Ok header /\ to_form r = Ok body /\ to_query (origin ++ path) r = Ok query
    /\ sr {| rq_method := method; rq_path := path; rq_query := None; rq_authorization := [header];
             rq_content_type := Some (lit "application/x-www-form-urlencoded"); rq_body := Some body |}
    /\ uri_path query = path
    /\ sr {| rq_method := method; rq_path := path; rq_query := uri_query query; rq_authorization := [header];
             rq_content_type := None; rq_body := Some [] |}.
  Proof.
    pose (text := base_string method (origin ++ path) (protocol_pairs (hmac_conf e b) ++ l)).
    destruct (PropsServer2.C65_hmac b text HB) as [f [HF HA]].
    assert (HT : timestamp_available c (hmac_conf e b)) by now left.
    destruct (PropsServer2.C65_header c e b _ f r l method _ d _ _ HF HT HR HM HU ED DD HA)
      as [header [body [query [H1 [H2 [H3 [H4 H5]]]]]]].
    exists header, body, query. split; [exact H1|]. split; [exact H2|]. split; [exact H3|].
    assert (HO : no_oauth_keys l) by (destruct HR as [cs HX]; tauto).
    assert (EQ : uri_path query = path
      /\ origin ++ path ++ match uri_query query with Some q => lit "?" ++ q | None => [] end = query).
    { destruct HR as [cs [M [_ [_ [_ [CA [SK _]]]]]]]. apply (to_query_exact r cs _ _ M) in H3 as [_ ->]. rewrite CA.
      destruct l as [|p l'].
      - cbn [map query_text]. pose proof (uri_path_spec path [] HP I) as X. rewrite app_nil_r in X.
        split; [exact X|]. now rewrite uri_query_none, app_nil_r.
      - change (query_text (origin ++ path) (map enc_value (p :: l')))
          with ((origin ++ path) ++ lit "?" ++ form_text (map enc_value (p :: l'))).
        rewrite <- app_assoc. split.
        + apply uri_path_spec; auto. reflexivity.
        + rewrite uri_query_some by (auto; now apply form_text_no_hash). reflexivity. }
    destruct EQ as [E1 E2].
    assert (HG : forall req, rq_method req = method -> rq_path req = path ->
      verified (client_secret b) (token_secret b) req
        = Some (PropsServer2.shown (hmac_conf e b) (hmac_signature (client_secret b) (token_secret b) text) l) -> sr req).
    { intros req X1 X2 X3. constructor; auto. eexists. split; [exact X3|].
      split; [exact (shown_has (hmac_conf e b) _ l PConsumerKey HO)|].
      split; [exact (shown_has (hmac_conf e b) _ l PToken HO)|].
      split; [exact (shown_has (hmac_conf e b) _ l PCallback HO)|].
      split; [exact (shown_has (hmac_conf e b) _ l PVerifier HO)|]. now apply shown_rest. }
    split; [|split; [exact E1|]]; apply HG; try reflexivity; unfold verified, target, sent_form;
      cbn [rq_authorization rq_method rq_path rq_query rq_content_type rq_body].
    - rewrite bseqb_refl, app_nil_r. exact H4.
    - change (lit "http://127.0.0.1:8080") with origin. rewrite E2. exact H5.
  Qed.
End Signed.

(** ** C82 *)


(** The requests that are made: the first in any case, the second with the credentials that the answer to the first
    contains, the others with those that the answer to the second contains, if the query is short enough. *)
Inductive made (http : server) (short : Prop) (q0 : http_request) (q1 q2 q3 : Credentials bytes -> http_request) : nat -> http_request -> Prop :=
  | md_temporary : made http short q0 q1 q2 q3 0 q0
  | md_token : forall b0 x, answers http 0 q0 b0 -> gives b0 x -> made http short q0 q1 q2 q3 1 (q1 x)
  | md_get : forall b0 x b1 y, short -> answers http 0 q0 b0 -> gives b0 x -> answers http 1 (q1 x) b1 -> gives b1 y ->
      made http short q0 q1 q2 q3 2 (q2 y)
  | md_post : forall b0 x b1 y, short -> answers http 0 q0 b0 -> gives b0 x -> answers http 1 (q1 x) b1 -> gives b1 y ->
      made http short q0 q1 q2 q3 3 (q3 y).

Definition text_of (x : res bytes) : bytes := match x with Ok s => s | Panic _ => [] end.

Section Requests.
  Variables (c : cfg) (envs : nat -> env) (r1 r2 : Request).
  Definition b_temporary : Builder := Builder_callback (Some (lit "oob")) (Builder_new MServer.CLIENT HMAC_SHA1).
  Definition b_token (x : Credentials bytes) : Builder :=
    Builder_verifier (Some (lit "verifier")) (Builder_token (Some x) (Builder_new MServer.CLIENT HMAC_SHA1)).
  Definition b_echo (y : Credentials bytes) : Builder := Builder_token (Some y) (Builder_new MServer.CLIENT HMAC_SHA1).
  Definition plain_post (path h : bytes) : http_request :=
    {| rq_method := lit "POST"; rq_path := path; rq_query := None; rq_authorization := [h]; rq_content_type := None; rq_body := Some [] |}.
  Definition req0 : http_request :=
    plain_post (lit "/request_temp_credentials")
      (text_of (Builder_authorize c (envs 0) b_temporary (lit "POST") temp_uri_display Request_unit)).
  Definition req1 (x : Credentials bytes) : http_request :=
    plain_post (lit "/request_token")
      (text_of (Builder_authorize c (envs 1) (b_token x) (lit "POST") token_uri_display Request_unit)).
  Definition req2 (y : Credentials bytes) : http_request :=
    {| rq_method := lit "GET"; rq_path := lit "/echo"; rq_query := uri_query (text_of (to_query echo_uri r1));
       rq_authorization := [text_of (Builder_authorize c (envs 2) (b_echo y) (lit "GET") (dstr echo_uri) r1)];
       rq_content_type := None; rq_body := Some [] |}.
  Definition req3 (y : Credentials bytes) : http_request :=
    {| rq_method := lit "POST"; rq_path := lit "/echo"; rq_query := None;
       rq_authorization := [text_of (Builder_authorize c (envs 3) (b_echo y) (lit "POST") (dstr echo_uri) r2)];
       rq_content_type := Some (lit "application/x-www-form-urlencoded"); rq_body := Some (text_of (to_form r2)) |}.
End Requests.

Lemma plain_paths : plain_path (lit "/request_temp_credentials") /\ plain_path (lit "/request_token") /\ plain_path (lit "/echo").
Proof. split; [|split]; apply plain_path_check; reflexivity. Qed.

Lemma normal_origin : forall path, base_uri (origin ++ path) = origin ++ path -> plain_path path -> normal_uri (origin ++ path).
Proof.
  intros path H [_ [HQ _]]. split; [exact H|]. unfold has_question. intros X. apply in_app_iff in X as [X|X]; [|contradiction].
  vm_compute in X. intuition discriminate.
Qed.

Section Steps.
  Variables (c : cfg) (envs : nat -> env) (r1 r2 : Request) (l1 l2 : list pair).
  Hypothesis HS : cf_std c = true.
  Hypothesis H1 : honest r1 l1.
  Hypothesis H2 : honest r2 l2.

  Lemma step0 : signed_request MServer.CLIENT None (Some (lit "oob")) None (lit "POST") (lit "/request_temp_credentials") [] (req0 c envs)
    /\ forall http, temporary_credentials c envs http 0 as_ref_id MServer.CLIENT (lit "oob")
         = cbind (call_server http 0 (req0 c envs)) credentials_from_bytes.
  Proof.
    destruct plain_paths as [PP _].
    destruct (signed c (envs 0) b_temporary Request_unit [] (lit "POST") (lit "/request_temp_credentials") temp_uri_display
      eq_refl HS unit_is_honest eq_refl PP) as [h [f [q [E1 [E2 [E3 [E4 [E5 E6]]]]]]]].
    - apply normal_origin; [vm_compute; reflexivity|exact PP].
    - reflexivity.
    - reflexivity.
    - assert (EU : q = temp_uri).
      { apply (to_query_exact Request_unit (calls_of []) _ _ (crate_request_calls _ _ cq_unit)) in E3 as [_ ->]. reflexivity. }
      rewrite EU in E6. change (uri_query temp_uri) with (@None bytes) in E6.
      unfold req0, plain_post. rewrite E1. cbn [text_of]. split; [exact E6|]. intros http.
      unfold temporary_credentials, Builder_post.
      change (Builder_callback (Some (lit "oob")) (Builder_new (Credentials_as_ref as_ref_id MServer.CLIENT) HMAC_SHA1)) with b_temporary.
      rewrite E1. reflexivity.
  Qed.

  Lemma step1 : forall x, signed_request MServer.CLIENT (Some x) None (Some (lit "verifier")) (lit "POST") (lit "/request_token") [] (req1 c envs x)
    /\ forall http, token_credentials c envs http 1 as_ref_id as_ref_id MServer.CLIENT x (lit "verifier")
         = cbind (call_server http 1 (req1 c envs x)) credentials_from_bytes.
  Proof.
    intros x. destruct plain_paths as [_ [PP _]].
    destruct (signed c (envs 1) (b_token x) Request_unit [] (lit "POST") (lit "/request_token") token_uri_display
      eq_refl HS unit_is_honest eq_refl PP) as [h [f [q [E1 [E2 [E3 [E4 [E5 E6]]]]]]]].
    - apply normal_origin; [vm_compute; reflexivity|exact PP].
    - reflexivity.
    - reflexivity.
    - assert (EU : q = token_uri).
      { apply (to_query_exact Request_unit (calls_of []) _ _ (crate_request_calls _ _ cq_unit)) in E3 as [_ ->]. reflexivity. }
      rewrite EU in E6. change (uri_query token_uri) with (@None bytes) in E6.
      unfold req1, plain_post. rewrite E1. cbn [text_of]. split; [exact E6|]. intros http.
      unfold token_credentials, Builder_post. destruct x as [i s].
      change (Builder_verifier (Some (lit "verifier")) (Builder_token (Some (Credentials_as_ref as_ref_id (Cred i s)))
        (Builder_new (Credentials_as_ref as_ref_id MServer.CLIENT) HMAC_SHA1))) with (b_token (Cred i s)).
      rewrite E1. reflexivity.
  Qed.

  Lemma echo_normal : normal_uri (origin ++ lit "/echo").
  Proof. apply normal_origin; [vm_compute; reflexivity|apply plain_paths]. Qed.

  Lemma step2 : forall y, signed_request MServer.CLIENT (Some y) None None (lit "GET") (lit "/echo") l1 (req2 c envs r1 y)
    /\ forall http vu, uri_library vu ->
         SendRequest_send c envs http vu 2 (lit "GET") echo_uri r1 as_ref_id as_ref_id (Token_new MServer.CLIENT y)
         = if (N.of_nat (length (query_text echo_uri (map enc_value l1))) <=? max_uri)%N
           then call_server http 2 (req2 c envs r1 y) else inr BadUri.
  Proof.
    intros y. destruct plain_paths as [_ [_ PP]].
    destruct (signed c (envs 2) (b_echo y) r1 l1 (lit "GET") (lit "/echo") (dstr echo_uri)
      eq_refl HS H1 eq_refl PP echo_normal (dtext_dstr _) (dok_dstr _)) as [h [f [q [E1 [E2 [E3 [E4 [E5 E6]]]]]]]].
    change (origin ++ lit "/echo") with echo_uri in E3.
    unfold req2. rewrite E1, E3. cbn [text_of]. split; [exact E6|]. intros http vu HV. destruct y as [i s].
    unfold SendRequest_send, send. change (Builder_token _ _) with (b_echo (Cred i s)). rewrite E1. cbn [of_res cbind].
    change (bseqb (lit "GET") (lit "POST")) with false. cbv iota. rewrite E3. cbn [of_res cbind].
    assert (EU : q = query_text echo_uri (map enc_value l1) /\ safe_keys l1).
    { destruct H1 as [cs [M [_ [_ [_ [CA [SK _]]]]]]]. apply (to_query_exact r1 cs _ _ M) in E3 as [_ ->]. now rewrite CA. }
    destruct EU as [EU SK]. rewrite EU at 1. rewrite (valid_fits vu l1 HV SK). destruct (N.leb _ _); [|reflexivity].
    cbn [negb]. now rewrite E5.
  Qed.

  Lemma step3 : forall y, signed_request MServer.CLIENT (Some y) None None (lit "POST") (lit "/echo") l2 (req3 c envs r2 y)
    /\ forall http vu, SendRequest_send c envs http vu 3 (lit "POST") echo_uri r2 as_ref_id as_ref_id (Token_new MServer.CLIENT y)
         = call_server http 3 (req3 c envs r2 y).
  Proof.
    intros y. destruct plain_paths as [_ [_ PP]].
    destruct (signed c (envs 3) (b_echo y) r2 l2 (lit "POST") (lit "/echo") (dstr echo_uri)
      eq_refl HS H2 eq_refl PP echo_normal (dtext_dstr _) (dok_dstr _)) as [h [f [q [E1 [E2 [E3 [E4 [E5 E6]]]]]]]].
    unfold req3. rewrite E1, E2. cbn [text_of]. split; [exact E4|]. intros http vu. destruct y as [i s].
    unfold SendRequest_send, send. change (Builder_token _ _) with (b_echo (Cred i s)). rewrite E1. cbn [of_res cbind].
    change (bseqb (lit "POST") (lit "POST")) with true. cbv iota. rewrite E2. reflexivity.
  Qed.
End Steps.

(** The client makes these four requests and no others, each signed with the credentials it has got so far, and it
    succeeds exactly if all of them are answered, the first two with credentials and the last two with texts.  [http::Uri]
    takes at most 65534 bytes: with a longer query, the client panics before the third request. *)
Theorem C82_requests : forall c envs valid_uri r1 l1 r2 l2, cf_std c = true -> uri_library valid_uri ->
  honest r1 l1 -> honest r2 l2 ->
  exists q0 q1 q2 q3,
    signed_request MServer.CLIENT None (Some (lit "oob")) None (lit "POST") (lit "/request_temp_credentials") [] q0
    /\ (forall x, signed_request MServer.CLIENT (Some x) None (Some (lit "verifier")) (lit "POST") (lit "/request_token") [] (q1 x))
    /\ (forall y, signed_request MServer.CLIENT (Some y) None None (lit "GET") (lit "/echo") l1 (q2 y))
    /\ (forall y, signed_request MServer.CLIENT (Some y) None None (lit "POST") (lit "/echo") l2 (q3 y))
    /\ (forall http http', (forall n q, made http (PropsExample.fits (lit "http://127.0.0.1:8080/echo") l1) q0 q1 q2 q3 n q ->
            http n q = http' n q) ->
          main c envs http valid_uri r1 r2 = main c envs http' valid_uri r1 r2)
    /\ (forall http o1 o2, main c envs http valid_uri r1 r2 = inl (o1, o2) <->
          PropsExample.fits (lit "http://127.0.0.1:8080/echo") l1 /\
          exists b0 x b1 y, answers http 0 q0 b0 /\ gives b0 x /\ answers http 1 (q1 x) b1 /\ gives b1 y
            /\ answers http 2 (q2 y) o1 /\ utf8 o1 /\ answers http 3 (q3 y) o2 /\ utf8 o2).
Proof.
  intros c envs vu r1 l1 r2 l2 HS HV H1 H2.
  destruct (step0 c envs HS) as [S0 T0].
  pose proof (step1 c envs HS) as S1. pose proof (step2 c envs r1 l1 HS H1) as S2. pose proof (step3 c envs r2 l2 HS H2) as S3.
  exists (req0 c envs), (req1 c envs), (req2 c envs r1), (req3 c envs r2).
  split; [exact S0|]. split; [intros x; apply S1|]. split; [intros y; apply S2|]. split; [intros y; apply S3|].
  set (sh := (N.of_nat (length (query_text echo_uri (map enc_value l1))) <=? max_uri)%N) in *.
  assert (ES : sh = true <-> PropsExample.fits (lit "http://127.0.0.1:8080/echo") l1) by apply N.leb_le.
  clearbody sh.
  assert (EM : forall http, main c envs http vu r1 r2
    = cbind (cbind (call_server http 0 (req0 c envs)) credentials_from_bytes) (fun x =>
      cbind (cbind (call_server http 1 (req1 c envs x)) credentials_from_bytes) (fun y =>
      cbind (if sh then call_server http 2 (req2 c envs r1 y) else inr BadUri) (fun a =>
      cbind (call_server http 3 (req3 c envs r2 y)) (fun b =>
      cbind (client_to_string a) (fun a => cbind (client_to_string b) (fun b => inl (a, b)))))))).
  { intros http. unfold main. rewrite T0. destruct (cbind (call_server http 0 _) _) as [x|]; cbn [cbind]; [|reflexivity].
    rewrite (proj2 (S1 x)). destruct (cbind (call_server http 1 _) _) as [y|]; cbn [cbind]; [|reflexivity].
    rewrite (proj2 (S2 y)) by exact HV. now rewrite (proj2 (S3 y)). }
  assert (HT : forall s o, client_to_string s = inl o <-> o = s /\ utf8 s).
  { intros s o. unfold client_to_string. destruct (is_utf8 s) eqn:E.
    - apply is_utf8_iff in E. split; [intros H; injection H as ->; auto|intros [-> _]; reflexivity].
    - split; [discriminate|]. intros [_ H]. apply is_utf8_iff in H. congruence. }
  split.
  - intros http http' HH. rewrite !EM. unfold call_server at 1 5. rewrite <- (HH 0 _ (md_temporary http _ _ _ _ _)).
    destruct (http 0 (req0 c envs)) as [resp0|p0] eqn:E0; [|reflexivity]. cbn [cbind].
    destruct (credentials_from_bytes (rs_body resp0)) as [x|f0] eqn:G0; [|reflexivity]. cbn [cbind].
    apply gives_iff in G0. assert (A0 : answers http 0 (req0 c envs) (rs_body resp0)) by (now exists resp0).
    unfold call_server at 1 4. rewrite <- (HH 1 _ (md_token http _ _ _ _ _ _ _ A0 G0)).
    destruct (http 1 (req1 c envs x)) as [resp1|p1] eqn:E1; [|reflexivity]. cbn [cbind].
    destruct (credentials_from_bytes (rs_body resp1)) as [y|f1] eqn:G1; [|reflexivity]. cbn [cbind].
    apply gives_iff in G1. assert (A1 : answers http 1 (req1 c envs x) (rs_body resp1)) by (now exists resp1).
    destruct sh; [|reflexivity]. pose proof (proj1 ES eq_refl) as EF.
    unfold call_server. rewrite <- (HH 2 _ (md_get http _ _ _ _ _ _ _ _ _ EF A0 G0 A1 G1)), <- (HH 3 _ (md_post http _ _ _ _ _ _ _ _ _ EF A0 G0 A1 G1)).
    reflexivity.
  - intros http o1 o2. rewrite EM. split.
    + intros H. apply cbind_ok in H as [x [K0 H]]. apply cbind_ok in K0 as [b0 [A0 G0]].
      apply cbind_ok in H as [y [K1 H]]. apply cbind_ok in K1 as [b1 [A1 G1]].
      apply cbind_ok in H as [a [A2 H]]. destruct sh; [|discriminate A2]. split; [now apply ES|]. apply cbind_ok in H as [b [A3 H]].
      apply cbind_ok in H as [a' [U1 H]]. apply cbind_ok in H as [b' [U2 H]]. injection H as <- <-.
      apply HT in U1 as [-> U1], U2 as [-> U2]. apply answers_iff in A0, A1, A2, A3. apply gives_iff in G0, G1.
      exists b0, x, b1, y. auto 10.
    + intros [EF [b0 [x [b1 [y [A0 [G0 [A1 [G1 [A2 [U1 [A3 U2]]]]]]]]]]]]. apply ES in EF.
      apply answers_iff in A0, A1, A2, A3. apply gives_iff in G0, G1.
      rewrite A0. cbn [cbind]. rewrite G0. cbn [cbind]. rewrite A1. cbn [cbind]. rewrite G1. cbn [cbind].
      rewrite EF, A2, A3. cbn [cbind]. rewrite (proj2 (HT o1 o1) (conj eq_refl U1)), (proj2 (HT o2 o2) (conj eq_refl U2)). reflexivity.
Qed.
Print Assumptions C82_requests.

(** So it works with every provider that hands out some credentials to whoever signs its requests as RFC 5849 says. *)
Theorem C82_provider : forall c envs http valid_uri r1 l1 r2 l2 x y o1 o2, cf_std c = true -> uri_library valid_uri ->
  honest r1 l1 -> honest r2 l2 -> PropsExample.fits (lit "http://127.0.0.1:8080/echo") l1 ->
  (forall q, signed_request MServer.CLIENT None (Some (lit "oob")) None (lit "POST") (lit "/request_temp_credentials") [] q ->
     exists b, answers http 0 q b /\ gives b x) ->
  (forall q, signed_request MServer.CLIENT (Some x) None (Some (lit "verifier")) (lit "POST") (lit "/request_token") [] q ->
     exists b, answers http 1 q b /\ gives b y) ->
  (forall q, signed_request MServer.CLIENT (Some y) None None (lit "GET") (lit "/echo") l1 q -> answers http 2 q o1) -> utf8 o1 ->
  (forall q, signed_request MServer.CLIENT (Some y) None None (lit "POST") (lit "/echo") l2 q -> answers http 3 q o2) -> utf8 o2 ->
  main c envs http valid_uri r1 r2 = inl (o1, o2).
Proof.
  intros c envs http vu r1 l1 r2 l2 x y o1 o2 HS HV H1 H2 HL P0 P1 P2 U1 P3 U2.
  destruct (C82_requests c envs vu r1 l1 r2 l2 HS HV H1 H2) as [q0 [q1 [q2 [q3 [S0 [S1 [S2 [S3 [_ HM]]]]]]]]].
  destruct (P0 q0 S0) as [b0 [A0 G0]]. destruct (P1 (q1 x) (S1 x)) as [b1 [A1 G1]].
  apply HM. split; [exact HL|]. exists b0, x, b1, y. auto 10.
Qed.
Print Assumptions C82_provider.

(** Credentials that need encoding, and a server that verifies everything. *)
Definition x82 : Credentials bytes := Cred (lit "a b&c=d") (lit "100%+/").
Definition y82 : Credentials bytes := Cred (lit """,oauth_token=""x") [].
Definition checking (answer : bytes) (token : option (Credentials bytes)) (q : http_request) : outcome http_response :=
  Done_ match verified (cr_secret MServer.CLIENT) (option_map cr_secret token) q with
        | Some _ => {| rs_status := StOk; rs_content_type := None; rs_body := answer |}
        | None => {| rs_status := StUnauthorized; rs_content_type := None; rs_body := [] |}
        end.
Definition http82 : server := fun n q =>
  match n with
  | 0 => checking (lit "oauth_token_secret=100%25%2B%2F&x=y&oauth_token=a+b%26c%3Dd") None q
  | 1 => checking (lit "oauth_token=%22%2coauth_token%3d%22x&oauth_token_secret=") (Some x82) q
  | 2 => checking (lit "hello") (Some y82) q
  | _ => checking (lit "world") (Some y82) q
  end.
Definition r82 (k v : bytes) : Request := Request_pl true [(k, dstr v)].
Example C82_example :
  gives (lit "oauth_token_secret=100%25%2B%2F&x=y&oauth_token=a+b%26c%3Dd") x82
  /\ gives (lit "oauth_token=%22%2coauth_token%3d%22x&oauth_token_secret=") y82
  /\ honest (r82 (lit "foo") (lit "1 2")) [(lit "foo", lit "1 2")]
  /\ main dbg_std (fun _ => env0) http82 PropsExample.short_uri (r82 (lit "foo") (lit "1 2")) (r82 (lit "bar") (lit "&")) = inl (lit "hello", lit "world")
  /\ main dbg_std (fun _ => env0) (fun n => if Nat.eqb n 1 then http82 3 else http82 n) PropsExample.short_uri Request_unit Request_unit = inr BadResponse.
Proof.
  split; [eexists; rewrite form_reads_iff; split; [vm_compute; reflexivity|split; vm_compute; reflexivity]|].
  split; [eexists; rewrite form_reads_iff; split; [vm_compute; reflexivity|split; vm_compute; reflexivity]|].
  split; [|split; vm_compute; reflexivity].
  exists (calls_of [(lit "foo", dstr (lit "1 2"))]). split; [apply (crate_request_calls _ _ (cq_list true _))|].
  split; [apply call_protos_calls_of|]. split; [apply calls_of_ascending; repeat constructor|].
  split; [apply displays_calls_of; repeat constructor|]. split; [reflexivity|].
  split; [constructor; [apply safe_name; reflexivity|constructor]|].
  split; [constructor; [intros H; vm_compute in H; intuition discriminate|constructor]|].
  repeat constructor.
Qed.

(** The requests of the client's main function are of that kind, whatever is in the fields. *)
Theorem C82_client : forall foo bar baz r1 r2,
  PropsExample.derived_from GetEcho_decl [(lit "foo", foo)] r1 ->
  PropsExample.derived_from PostEcho_decl [(lit "bar", bar); (lit "baz", baz)] r2 ->
  honest r1 [(lit "foo", foo)] /\ honest r2 [(lit "bar", bar); (lit "baz", baz)].
Proof.
  intros foo bar baz r1 r2 D1 D2. apply PropsExample.get_echo_honest in D1. apply PropsExample.post_echo_honest in D2.
  destruct D1 as [cs [A1 [A2 [A3 [A4 [A5 [A6 [A7 _]]]]]]]]. destruct D2 as [cs' [B1 [B2 [B3 [B4 [B5 [B6 [B7 _]]]]]]]].
  split.
  - exists cs. repeat (split; [assumption|]). repeat constructor.
  - exists cs'. repeat (split; [assumption|]). repeat constructor.
Qed.
Print Assumptions C82_client.
