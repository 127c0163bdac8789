(** What RFC 5849 asks of the protocol parameters of any request, and what a server has to look at. *)
From Coq Require Import String.
From Verif Require Import Bytes Crypto Spec MFmt MSign MSerializer MRequest MCredentials MAuth MBuilder
  SpecCalls SpecAuth SpecBuild SpecForm SpecServer SpecHttp MHttp MServer SpecExample.
Local Open Scope nat_scope.

Definition oauth_names : list bytes := map lit
  ["oauth_callback"; "oauth_consumer_key"; "oauth_nonce"; "oauth_signature"; "oauth_signature_method"; "oauth_timestamp";
   "oauth_token"; "oauth_verifier"; "oauth_version"]%string.

(** Section 3.1: "Each parameter MUST NOT appear more than once per request." *)
Definition each_once (l : list pair) : Prop :=
  forall k, In k oauth_names -> length (filter (has_key k) l) <= 1.

(** Section 3.2: "If the oauth_version parameter is present, ensuring its value is 1.0." *)
Definition version_1 (l : list pair) : Prop := forall v, In (lit "oauth_version", v) l -> v = lit "1.0".

(** Section 3.5: the protocol parameters are "included in one and only one" of header, form and query. *)
Definition one_place (empty : bool) (req : http_request) : Prop :=
  forall header form query, oauth_header empty (rq_authorization req) header -> form_body req form ->
    form_reads_as (match rq_query req with Some q => q | None => [] end) query ->
    let has l := exists k, In k oauth_names /\ In k (map fst l) in
    ~ (has header /\ has form) /\ ~ (has header /\ has query) /\ ~ (has form /\ has query).

(** Two lists of parameters agree about [key]: neither has it, or the smallest values are the same. *)
Definition agree (key : string) (l l' : list pair) : Prop :=
  forall o, has_value l (lit key) o <-> has_value l' (lit key) o.

(** A content type that says that the body is a form: the type in any case (RFC 7231, section 3.1.1.1), alone or with
    parameters after a semicolon, which may have blanks before it. *)
Definition form_type (ct : bytes) : Prop :=
  exists t rest, ct = t ++ rest /\ map to_lower t = lit "application/x-www-form-urlencoded"
    /\ (rest = [] \/ exists blanks params, Forall (fun b => b = " "%byte \/ b = x09) blanks /\ rest = blanks ++ lit ";" ++ params).

(** The same request with another content type, and without a body. *)
Definition with_type (ct : option bytes) (req : http_request) : http_request :=
  {| rq_method := rq_method req; rq_path := rq_path req; rq_query := rq_query req;
     rq_authorization := rq_authorization req; rq_content_type := ct; rq_body := rq_body req |}.
Definition without_body (req : http_request) : http_request :=
  {| rq_method := rq_method req; rq_path := rq_path req; rq_query := rq_query req;
     rq_authorization := rq_authorization req; rq_content_type := None; rq_body := Some [] |}.
