(** What the example server and client are expected to do. *)
From Coq Require Import String.
From Coq Require Import Sorted.
From Verif Require Import Bytes Crypto Spec MFmt MSign MSerializer MRequest MCredentials MAuth MBuilder
  SpecCalls SpecAuth SpecBuild SpecForm SpecServer SpecHttp MHttp MServer.

(** ** Library functions of which only the contract is known *)

(** [binary_search_by_key] on a slice in ascending order of the keys: the index of a match, or
    where a match could be inserted. *)
Definition search_ok (search : bytes -> list pair -> nat) : Prop := forall key params,
  ascending (map fst params) ->
  (exists v, nth_error params (search key params) = Some (key, v))
  \/ (~ In key (map fst params) /\ search key params <= length params
      /\ Forall (fun p => bltb (fst p) key = true) (firstn (search key params) params)).

(** Decoding undoes encoding. *)
Definition base64_ok (decode : bytes -> option bytes) : Prop := forall x, decode (base64 b64_std true x) = Some x.

Definition libraries_ok (wd : world) : Prop := search_ok (wd_search wd) /\ base64_ok (wd_base64 wd).

(** ** Honest requests to the example server *)

(** Like [honest], but repeated keys are in the order of their values as they are, not encoded. *)
Definition raw_honest (r : Request) (l : list pair) : Prop :=
  exists cs, makes_calls r cs /\ call_protos cs = all_protos /\ ascending (map call_key cs)
    /\ Forall displays_ok cs /\ carries cs l /\ safe_keys l /\ no_oauth_keys l /\ StronglySorted pair_le l.

(** The scheme and authority that the example server puts into base strings. *)
Definition origin : bytes := lit "http://127.0.0.1:8080".

(** A path that starts with a slash and has no query or fragment. *)
Definition plain_path (path : bytes) : Prop :=
  (exists rest, path = "/"%byte :: rest) /\ ~ In "?"%byte path /\ ~ In "#"%byte path.

(** The timestamp [t] is at most 30 seconds old (it may be in the future). *)
Definition fresh (wd : world) (t : N) : Prop :=
  exists now, wd_now wd = Some now /\ (now <= t + 30)%N /\ (t + 30 < 2 ^ 64)%N.

(** The signature that the server expects, given the shared secrets as they are. *)
Definition plain_key (client token : bytes) : bytes := client ++ lit "&" ++ token.
Definition secret_of (token : option (Credentials bytes)) : bytes :=
  match token with Some t => cr_secret t | None => [] end.

(** What a builder with configuration [cf] sends as protocol parameters, with signature [sig]. *)
Definition sent_params (cf : conf) (sig : bytes) : list pair :=
  protocol_pairs cf ++ [(lit "oauth_signature", sig)].

(** Conditions under which the example server reads what the builder sends: HMAC-SHA1, values that
    are text, no empty values (unless nom reads empty quoted strings), and a fresh timestamp. *)
Record understandable (c : cfg) (e : env) (b : Builder) (wd : world) : Prop := {
  un_method : bd_signature_method b = HMAC_SHA1;
  un_clock : timestamp_available c (conf_of (lit "HMAC-SHA1") e b);
  un_text : Forall utf8_pair (protocol_pairs (conf_of (lit "HMAC-SHA1") e b));
  un_nonempty : wd_empty_ok wd = true
                \/ Forall (fun p => snd p <> []) (protocol_pairs (conf_of (lit "HMAC-SHA1") e b));
  un_fresh : fresh wd (timestamp_value (conf_of (lit "HMAC-SHA1") e b) 0);
  un_libraries : libraries_ok wd;
}.

(** Conditions under which they understand each other: besides, the secrets need no encoding. *)
Record compatible (c : cfg) (e : env) (b : Builder) (wd : world) : Prop := {
  cp_understandable : understandable c e b wd;
  cp_client_secret : uri_safe (cr_secret (bd_client b));
  cp_token_secret : uri_safe (secret_of (bd_token b));
}.

(** What the server's handlers are given. *)
Definition understood (cf : conf) (sig : bytes) : OAuthParams :=
  {| oa_consumer_key := cn_client cf; oa_token := cn_token cf; oa_signature_method := cn_name cf;
     oa_timestamp := Some (timestamp_value cf 0); oa_nonce := Some (nonce_value cf 0);
     oa_signature := sig; oa_callback := op_callback (cn_options cf); oa_verifier := op_verifier (cn_options cf) |}.

(** A POST request with the parameters in a form body, and a request with the parameters in the
    query, both authorized with [header]. *)
Definition form_request (method path header body : bytes) : http_request :=
  {| rq_method := method; rq_path := path; rq_query := None; rq_authorization := [header];
     rq_content_type := Some (lit "application/x-www-form-urlencoded"); rq_body := Some body |}.
Definition query_request (method path header : bytes) (query : option bytes) : http_request :=
  {| rq_method := method; rq_path := path; rq_query := query; rq_authorization := [header];
     rq_content_type := None; rq_body := Some [] |}.

(** ** When the server should accept *)

(** The parameters of the first Authorization header with the scheme "OAuth", which must follow the
    grammar with just one space after the scheme; names and values are percent-decoded. *)
Inductive oauth_header (empty : bool) : list bytes -> list pair -> Prop :=
  | hp_none : oauth_header empty [] []
  | hp_other : forall h hs l, ~ has_scheme (lit "OAuth") h -> oauth_header empty hs l -> oauth_header empty (h :: hs) l
  | hp_oauth : forall h hs l l', has_scheme (lit "OAuth") h -> authorization_text empty (lit "OAuth") 1 h l ->
      Forall2 pair_decodes_to l l' -> oauth_header empty (h :: hs) l'.

(** The form body, if there is one that can be read. *)
Inductive form_body (req : http_request) : list pair -> Prop :=
  | fb_form : forall body l, rq_content_type req = Some (lit "application/x-www-form-urlencoded") ->
      rq_body req = Some body -> form_reads_as body l -> form_body req l
  | fb_other : rq_content_type req <> Some (lit "application/x-www-form-urlencoded") -> form_body req [].

(** All parameters of a request. *)
Definition request_params (empty : bool) (req : http_request) (l : list pair) : Prop :=
  exists header form query, oauth_header empty (rq_authorization req) header /\ form_body req form
    /\ form_reads_as (match rq_query req with Some q => q | None => [] end) query
    /\ l = header ++ form ++ query.

(** The value of a parameter: the smallest if there are several. *)
Definition has_value (l : list pair) (key : bytes) (o : option bytes) : Prop :=
  match o with
  | Some v => In (key, v) l /\ forall v', In (key, v') l -> bleb v v' = true
  | None => forall v, ~ In (key, v) l
  end.

(** A number as [u64::from_str] reads it. *)
Definition number (s : bytes) (n : N) : Prop :=
  exists digits, (s = digits \/ s = "+"%byte :: digits) /\ digits <> [] /\ read_decimal digits = Some n /\ (n < 2 ^ 64)%N.

(** The age of a timestamp is checked with 64 bits, so a debug build must not see the largest ones. *)
Definition in_time (wd : world) (t : N) : Prop :=
  exists now, wd_now wd = Some now
    /\ if wd_debug wd then (now <= t + 30 < 2 ^ 64)%N else (now <= (t + 30) mod 2 ^ 64)%N.
Definition timely (wd : world) (l : list pair) : Prop :=
  (has_value l (lit "oauth_timestamp") None /\ wd_now wd <> None)
  \/ exists s t, has_value l (lit "oauth_timestamp") (Some s) /\ number s t /\ in_time wd t.

Definition without_signature (l : list pair) : list pair :=
  filter (fun p => negb (has_key (lit "oauth_signature") p)) l.

(** An HMAC-SHA1 signature must be right; a PLAINTEXT signature need only be there. *)
Inductive signature_ok (wd : world) (req : http_request) (client : Credentials bytes)
    (token : option (Credentials bytes)) (l : list pair) : Prop :=
  | so_hmac : forall s t n, has_value l (lit "oauth_signature_method") (Some (lit "HMAC-SHA1")) ->
      has_value l (lit "oauth_signature") (Some s) -> has_value l (lit "oauth_timestamp") (Some t) ->
      has_value l (lit "oauth_nonce") (Some n) -> length s <= 28 ->
      wd_base64 wd s = Some (hmac_sha1 (plain_key (cr_secret client) (secret_of token))
                               (raw_base_string (rq_method req) (origin ++ rq_path req) (without_signature l))) ->
      signature_ok wd req client token l
  | so_plaintext : forall s, has_value l (lit "oauth_signature_method") (Some (lit "PLAINTEXT")) ->
      has_value l (lit "oauth_signature") (Some s) -> signature_ok wd req client token l.

(** A request with parameters [l] from the client, with the token and the verifier. *)
Record authentic (wd : world) (req : http_request) (client : Credentials bytes)
    (token : option (Credentials bytes)) (verifier : option bytes) (l : list pair) : Prop := {
  ac_params : request_params (wd_empty_ok wd) req l;
  ac_client : has_value l (lit "oauth_consumer_key") (Some (cr_identifier client));
  ac_token : has_value l (lit "oauth_token") (option_map cr_identifier token);
  ac_verifier : has_value l (lit "oauth_verifier") verifier;
  ac_time : timely wd l;
  ac_signature : signature_ok wd req client token l;
}.

(** What the server answers with status 200, and to which requests. *)
Definition REQUEST_ANSWER : list pair :=
  [(lit "oauth_token", lit "request"); (lit "oauth_token_secret", lit "request_secret");
   (lit "oauth_callback_confirmed", lit "true")].
Definition TOKEN_ANSWER : list pair :=
  [(lit "oauth_token", lit "token"); (lit "oauth_token_secret", lit "token_secret")].

Inductive served (wd : world) (req : http_request) : list pair -> list pair -> Prop :=
  | sv_echo : forall l, In (rq_method req) [lit "GET"; lit "POST"] -> rq_path req = lit "/echo" ->
      authentic wd req (Cred (lit "client") (lit "client_secret")) (Some (Cred (lit "token") (lit "token_secret"))) None l ->
      served wd req l (sort_pairs l)
  | sv_temporary : forall l, rq_method req = lit "POST" -> rq_path req = lit "/request_temp_credentials" ->
      authentic wd req (Cred (lit "client") (lit "client_secret")) None None l ->
      In (lit "oauth_callback", lit "oob") l -> served wd req l REQUEST_ANSWER
  | sv_token : forall l, rq_method req = lit "POST" -> rq_path req = lit "/request_token" ->
      authentic wd req (Cred (lit "client") (lit "client_secret")) (Some (Cred (lit "request") (lit "request_secret")))
        (Some (lit "verifier")) l ->
      served wd req l TOKEN_ANSWER.

(** ** The handshake *)

(** The clocks of client and server agree well enough at a request, the nonce drawn is not empty
    (unless nom reads empty quoted strings), and the libraries keep their contracts. *)
Record in_step (c : cfg) (e : env) (wd : world) : Prop := {
  is_std : cf_std c = true;
  is_nonce : wd_empty_ok wd = true \/ nonce_of_bytes (random_bytes e 0) <> [];
  is_fresh : fresh wd (seconds (env_clock e 0));
  is_libraries : libraries_ok wd;
}.

(** The contract of [http::Uri] 0.2: a text that consists of the URI of the example and a query of unreserved characters,
    "?", "&", "=" and "%" is accepted up to 65534 bytes. *)
Definition max_uri : N := 65534%N.
Definition query_char (b : byte) : bool := unreserved b || beqb b "?" || beqb b "&" || beqb b "=" || beqb b "%".
Definition uri_library (valid_uri : bytes -> bool) : Prop :=
  forall rest, forallb query_char rest = true ->
    valid_uri (lit "http://127.0.0.1:8080/echo" ++ rest)
    = (N.of_nat (length (lit "http://127.0.0.1:8080/echo" ++ rest)) <=? max_uri)%N.
