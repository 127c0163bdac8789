(** Model of examples/src/client: the example client, against any server. *)
From Coq Require Import String.
From Verif Require Import Bytes Crypto MFmt MPercent MSign MSerializer MRequest MCredentials MAuth MBuilder MSerde
  MDerive MHttp MServer.

(** ** The HTTP library *)

(** [http::Uri] of a text [scheme://authority/path?query]: what the server sees of it.  (A text
    without "://" or with an empty path is not used by the example.)
    (examples/src/client/request.rs:66, 82-88) *)
Fixpoint after_scheme (s : bytes) : bytes :=
  match s with
  | [] => []
  | b :: s' => match nom_tag (lit "://") s with Some (rest, _) => rest | None => after_scheme s' end
  end.
(** examples/src/server/handler.rs:490, on the URIs of examples/src/client/request.rs:66, 87 *)
Definition uri_path (u : bytes) : bytes :=
  let rest := fst (take_while (fun b => negb (beqb b "/" || beqb b "?" || beqb b "#")) (after_scheme u)) in
  snd (take_while (fun b => negb (beqb b "?" || beqb b "#")) rest).
(** examples/src/server/handler.rs:339, on the URIs of examples/src/client/request.rs:66, 87 *)
Definition uri_query (u : bytes) : option bytes :=
  match fst (take_while (fun b => negb (beqb b "?" || beqb b "#")) u) with
  | b :: rest => if beqb b "?" then Some (snd (take_while (fun b => negb (beqb b "#")) rest)) else None
  | [] => None
  end.

(** Where the client can fail: the library panics, [http] rejects a URI, the connection breaks, the
    response is not what [unwrap] expects.
    (examples/src/client/auth.rs:27, 59-65; request.rs:74-89; main.rs:52-64) *)
Inductive failure := LibraryPanic (p : panic) | BadUri | ConnectionError | BadResponse.
(** A result or a failure: the [unwrap]s of examples/src/client/auth.rs:27, 59-65. *)
Definition cres (A : Type) := (A + failure)%type.

(** A panic of the library ends the client (examples/src/client/request.rs:71). *)
Definition of_res {A} (x : res A) : cres A := match x with Ok a => inl a | Panic p => inr (LibraryPanic p) end.
(** Continue unless the client has failed. *)
Definition cbind {A B} (x : cres A) (f : A -> cres B) : cres B :=
  match x with inl a => f a | inr e => inr e end.

(** The server: what it answers to the [n]-th request.
    (examples/src/client/auth.rs:63, request.rs:91) *)
Definition server := nat -> http_request -> outcome http_response.
(** examples/src/client/auth.rs:59-65 *)
Definition call_server (http : server) (n : nat) (req : http_request) : cres bytes :=
  match http n req with Done_ r => inl (rs_body r) | Crash _ => inr ConnectionError end.

(** ** auth.rs *)

(** auth.rs:53-66 [send_request]; the status is not looked at. *)
Definition send_request (http : server) (n : nat) (uri authorization : bytes) : cres bytes :=
  call_server http n
    {| rq_method := lit "POST"; rq_path := uri_path uri; rq_query := uri_query uri;
       rq_authorization := [authorization]; rq_content_type := None; rq_body := Some [] |}.

(** [serde_urlencoded::from_bytes::<Credentials<Box<str>>>]: all keys and values are texts.
    (examples/src/client/auth.rs:27, 50) *)
Definition credentials_from_bytes (body : bytes) : cres (Credentials bytes) :=
  match Credentials_deserialize (E := Empty_set) (AMap
          {| ma_entries := map (fun p => {| en_key := VisitStr (fst p); en_value := inl (snd p); en_ignored := inl tt |})
                             (form_parse body);
             ma_end := None |}) with
  | inl c => inl c
  | inr _ => inr BadResponse
  end.

(** auth.rs:21, 43; [Display for http::Uri] writes the parts one after the other. *)
Definition temp_uri : bytes := lit "http://127.0.0.1:8080/request_temp_credentials".
Definition temp_uri_display : disp :=
  dchunks [lit "http"; lit "://"; lit "127.0.0.1:8080"; lit "/request_temp_credentials"].
Definition token_uri : bytes := lit "http://127.0.0.1:8080/request_token".
Definition token_uri_display : disp :=
  dchunks [lit "http"; lit "://"; lit "127.0.0.1:8080"; lit "/request_token"].

Section Client.
  Variable c : cfg.
  (** The clock and random source at the [n]-th request. *)
  Variable envs : nat -> env.
  Variable http : server.
  (** [http::Uri::try_from] of a text with origin and path of the example: whether it is accepted.
      [http] 0.2 rejects texts of more than 65534 bytes and some characters; see [uri_library] in SpecExample.v. *)
  Variable valid_uri : bytes -> bool.

  (** auth.rs:10-28 [temporary_credentials]. *)
  Definition temporary_credentials (n : nat) {T} (asref : T -> bytes) (client : Credentials T) (callback : bytes)
    : cres (Credentials bytes) :=
    cbind (of_res (Builder_post c (envs n)
                     (Builder_callback (Some callback) (Builder_new (Credentials_as_ref asref client) HMAC_SHA1))
                     temp_uri_display Request_unit)) (fun authorization =>
    cbind (send_request http n temp_uri authorization) (fun body =>
    credentials_from_bytes body)).

  (** auth.rs:30-51 [token_credentials]. *)
  Definition token_credentials (n : nat) {C T} (ac : C -> bytes) (at_ : T -> bytes) (client : Credentials C)
      (temporary : Credentials T) (verifier : bytes) : cres (Credentials bytes) :=
    cbind (of_res (Builder_post c (envs n)
                     (Builder_verifier (Some verifier)
                        (Builder_token (Some (Credentials_as_ref at_ temporary))
                           (Builder_new (Credentials_as_ref ac client) HMAC_SHA1)))
                     token_uri_display Request_unit)) (fun authorization =>
    cbind (send_request http n token_uri authorization) (fun body =>
    credentials_from_bytes body)).

  (** ** request.rs *)

  (** request.rs:59-92 [send]; [method] and [uri] are the constants of the request's type.  The
      header is always acceptable to [http] (theorem C27). *)
  Definition send (n : nat) (method uri : bytes) (request : Request) (token : Token bytes bytes) : cres bytes :=
    let builder := Builder_token (Some (tk_token token)) (Builder_new (tk_client token) HMAC_SHA1) in
    cbind (of_res (Builder_authorize c (envs n) builder method (dstr uri) request)) (fun authorization =>
    if bseqb method (lit "POST") then
      cbind (of_res (to_form request)) (fun data =>
      call_server http n
        {| rq_method := method; rq_path := uri_path uri; rq_query := uri_query uri;
           rq_authorization := [authorization];
           rq_content_type := Some (lit "application/x-www-form-urlencoded"); rq_body := Some data |})
    else
      cbind (of_res (to_query uri request)) (fun uri =>
      if negb (valid_uri uri) then inr BadUri else
      call_server http n
        {| rq_method := method; rq_path := uri_path uri; rq_query := uri_query uri;
           rq_authorization := [authorization]; rq_content_type := None; rq_body := Some [] |})).

  (** request.rs:48-57 [SendRequest::send]. *)
  Definition SendRequest_send (n : nat) (method uri : bytes) (request : Request) {C T} (ac : C -> bytes) (at_ : T -> bytes)
      (token : Token C T) : cres bytes :=
    send n method uri request (Token_as_ref ac at_ token).

  (** ** main.rs *)

  (** main.rs:52-64 [to_string]. *)
  Definition client_to_string (body : bytes) : cres bytes := if is_utf8 body then inl body else inr BadResponse.

  (** examples/src/client/main.rs:10, 16 *)
  Definition echo_uri : bytes := lit "http://127.0.0.1:8080/echo".

  (** main.rs:30-50 [main]; the requests are values of the derived types (see below).  The two last
      requests are independent of each other, so their interleaving does not matter. *)
  Definition main (get_echo post_echo : Request) : cres (bytes * bytes) :=
    cbind (temporary_credentials 0 as_ref_id MServer.CLIENT (lit "oob")) (fun temporary =>
    cbind (token_credentials 1 as_ref_id as_ref_id MServer.CLIENT temporary (lit "verifier")) (fun token =>
    let token := Token_new MServer.CLIENT token in
    cbind (SendRequest_send 2 (lit "GET") echo_uri get_echo as_ref_id as_ref_id token) (fun res1 =>
    cbind (SendRequest_send 3 (lit "POST") echo_uri post_echo as_ref_id as_ref_id token) (fun res2 =>
    cbind (client_to_string res1) (fun res1 =>
    cbind (client_to_string res2) (fun res2 =>
    inl (res1, res2))))))).
End Client.

(** main.rs:9-22: the derived structs; their fields have reference types. *)
Definition echo_field (name : bytes) : syn_field :=
  {| sf_attrs := []; sf_ident := {| id_raw := false; id_text := name |}; sf_ty := TyOther |}.
Definition GetEcho_decl : derive_input :=
  {| di_attrs := []; di_data := NamedFields [echo_field (lit "foo")] |}.
Definition PostEcho_decl : derive_input :=
  {| di_attrs := []; di_data := NamedFields [echo_field (lit "bar"); echo_field (lit "baz")] |}.

(** [str] values: displayed as they are, never options; no paths in attributes.
    (examples/src/client/main.rs:9-22) *)
Definition str_program : program bytes :=
  {| pg_display := dstr; pg_fmt := fun _ => None; pg_skip_if := fun _ => None; pg_option := fun _ => None |}.
(** A value of one of the structs of examples/src/client/main.rs:9-22. *)
Definition struct_of (fields : list (bytes * bytes)) : struct_value bytes := fun n =>
  option_map snd (find (fun p => bseqb (fst p) n) fields).
