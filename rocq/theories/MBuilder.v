(** Model of oauth1-request/src/lib.rs: [Builder] and the free functions. *)
From Coq Require Import String.
From Verif Require Import Bytes MFmt MPercent MSign MSerializer MRequest MCredentials MAuth.

(** lib.rs:243-254 [Builder].  The string types [C] and [T] ([AsRef<str>]) are reduced to their
    text.  [SM: Clone] is assumed to clone faithfully, so [signature_method.clone()] is the value. *)
Record Builder := {
  bd_signature_method : SignatureMethod;
  bd_client : Credentials bytes;
  bd_token : option (Credentials bytes);
  bd_options : Options;
}.

(** [AsRef<str>] for a text.
    (lib.rs:424) *)
Definition as_ref_id (s : bytes) : bytes := s.

(** lib.rs:316-323 [new]. *)
Definition Builder_new (client : Credentials bytes) (sm : SignatureMethod) : Builder :=
  {| bd_signature_method := sm; bd_client := client; bd_token := None; bd_options := Options_new |}.

(** lib.rs:333-336 [token]. *)
Definition Builder_token (t : option (Credentials bytes)) (b : Builder) : Builder :=
  {| bd_signature_method := bd_signature_method b; bd_client := bd_client b; bd_token := t;
     bd_options := bd_options b |}.

(** lib.rs:326-330 [with_token]. *)
Definition Builder_with_token (token : Token bytes bytes) (sm : SignatureMethod) : Builder :=
  let ret := Builder_new (tk_client token) sm in
  Builder_token (Some (tk_token token)) ret.

(** The setters of lib.rs go to the field [options]. *)
Definition bd_map_options (f : Options -> Options) (b : Builder) : Builder :=
  {| bd_signature_method := bd_signature_method b; bd_client := bd_client b;
     bd_token := bd_token b; bd_options := f (bd_options b) |}.

(** lib.rs:339-376, the setters. *)
Definition Builder_callback (v : option bytes) : Builder -> Builder := bd_map_options (set_callback v).
Definition Builder_verifier (v : option bytes) : Builder -> Builder := bd_map_options (set_verifier v).
Definition Builder_nonce (v : option bytes) : Builder -> Builder := bd_map_options (set_nonce v).
Definition Builder_timestamp (v : option N) : Builder -> Builder := bd_map_options (set_timestamp v).
Definition Builder_version (v : bool) : Builder -> Builder := bd_map_options (set_version v).

Section Run.
  Variable c : cfg.
  Variable e : env.

  (** lib.rs:415-431 [authorize]. *)
  Definition Builder_authorize (b : Builder) (method : bytes) (uri : disp) (request : Request) : res bytes :=
    s <- authorization c (bd_signature_method b) method uri
           (Credentials_as_ref as_ref_id (bd_client b))
           (option_map (Credentials_as_ref as_ref_id) (bd_token b))
           (bd_options b) ;;
    request (AuthorizerS (sm_sign (bd_signature_method b)) StringW c e) s.

  (** lib.rs:438-454 [to_form]. *)
  Definition Builder_to_form (b : Builder) (method : bytes) (uri : disp) (request : Request) : res bytes :=
    s <- form c (bd_signature_method b) method uri
           (Credentials_as_ref as_ref_id (bd_client b))
           (option_map (Credentials_as_ref as_ref_id) (bd_token b))
           (bd_options b) ;;
    request (AuthorizerS (sm_sign (bd_signature_method b)) StringW c e) s.

  (** lib.rs:461-477 [to_query]; [show] is [W]'s [Display]. *)
  Definition Builder_to_query {w : Writer} (show : w -> disp) (b : Builder) (method : bytes) (uri : w)
      (request : Request) : res w :=
    s <- query c (bd_signature_method b) show method uri
           (Credentials_as_ref as_ref_id (bd_client b))
           (option_map (Credentials_as_ref as_ref_id) (bd_token b))
           (bd_options b) ;;
    request (AuthorizerS (sm_sign (bd_signature_method b)) w c e) s.

  (** lib.rs:481-499 [authorize_with_buf]. *)
  Definition Builder_authorize_with_buf {w : Writer} (b : Builder) (buf : w) (method : bytes) (uri : disp)
      (request : Request) : res w :=
    s <- authorization_with_buf c (bd_signature_method b) buf method uri
           (Credentials_as_ref as_ref_id (bd_client b))
           (option_map (Credentials_as_ref as_ref_id) (bd_token b))
           (bd_options b) ;;
    request (AuthorizerS (sm_sign (bd_signature_method b)) w c e) s.

  (** lib.rs:505-523 [to_form_with_buf]. *)
  Definition Builder_to_form_with_buf {w : Writer} (b : Builder) (buf : w) (method : bytes) (uri : disp)
      (request : Request) : res w :=
    s <- form_with_buf c (bd_signature_method b) buf method uri
           (Credentials_as_ref as_ref_id (bd_client b))
           (option_map (Credentials_as_ref as_ref_id) (bd_token b))
           (bd_options b) ;;
    request (AuthorizerS (sm_sign (bd_signature_method b)) w c e) s.

  (** lib.rs:533-548 [into_authorization]. *)
  Definition Builder_into_authorization (b : Builder) (method : bytes) (uri : disp) (request : Request)
    : res bytes :=
    s <- authorization c (bd_signature_method b) method uri
           (Credentials_as_ref as_ref_id (bd_client b))
           (option_map (Credentials_as_ref as_ref_id) (bd_token b))
           (bd_options b) ;;
    request (AuthorizerS (sm_sign (bd_signature_method b)) StringW c e) s.

  (** lib.rs:559-574 [into_form]. *)
  Definition Builder_into_form (b : Builder) (method : bytes) (uri : disp) (request : Request) : res bytes :=
    s <- form c (bd_signature_method b) method uri
           (Credentials_as_ref as_ref_id (bd_client b))
           (option_map (Credentials_as_ref as_ref_id) (bd_token b))
           (bd_options b) ;;
    request (AuthorizerS (sm_sign (bd_signature_method b)) StringW c e) s.

  (** lib.rs:585-600 [into_query]. *)
  Definition Builder_into_query {w : Writer} (show : w -> disp) (b : Builder) (method : bytes) (uri : w)
      (request : Request) : res w :=
    s <- query c (bd_signature_method b) show method uri
           (Credentials_as_ref as_ref_id (bd_client b))
           (option_map (Credentials_as_ref as_ref_id) (bd_token b))
           (bd_options b) ;;
    request (AuthorizerS (sm_sign (bd_signature_method b)) w c e) s.

  (** lib.rs:604-628 [into_authorization_with_buf]. *)
  Definition Builder_into_authorization_with_buf {w : Writer} (b : Builder) (buf : w) (method : bytes)
      (uri : disp) (request : Request) : res w :=
    s <- authorization_with_buf c (bd_signature_method b) buf method uri
           (Credentials_as_ref as_ref_id (bd_client b))
           (option_map (Credentials_as_ref as_ref_id) (bd_token b))
           (bd_options b) ;;
    request (AuthorizerS (sm_sign (bd_signature_method b)) w c e) s.

  (** lib.rs:632-649 [into_form_with_buf]. *)
  Definition Builder_into_form_with_buf {w : Writer} (b : Builder) (buf : w) (method : bytes) (uri : disp)
      (request : Request) : res w :=
    s <- form_with_buf c (bd_signature_method b) buf method uri
           (Credentials_as_ref as_ref_id (bd_client b))
           (option_map (Credentials_as_ref as_ref_id) (bd_token b))
           (bd_options b) ;;
    request (AuthorizerS (sm_sign (bd_signature_method b)) w c e) s.

  (** lib.rs:257-273, 378-388: the header shorthands. *)
  Definition Builder_get b u r := Builder_authorize b (lit "GET") u r.
  Definition Builder_put b u r := Builder_authorize b (lit "PUT") u r.
  Definition Builder_post b u r := Builder_authorize b (lit "POST") u r.
  Definition Builder_delete b u r := Builder_authorize b (lit "DELETE") u r.
  Definition Builder_options b u r := Builder_authorize b (lit "OPTIONS") u r.
  Definition Builder_head b u r := Builder_authorize b (lit "HEAD") u r.
  Definition Builder_connect b u r := Builder_authorize b (lit "CONNECT") u r.
  Definition Builder_patch b u r := Builder_authorize b (lit "PATCH") u r.
  Definition Builder_trace b u r := Builder_authorize b (lit "TRACE") u r.

  (** lib.rs:275-292, 390-395: the form shorthands. *)
  Definition Builder_put_form b u r := Builder_to_form b (lit "PUT") u r.
  Definition Builder_post_form b u r := Builder_to_form b (lit "POST") u r.
  Definition Builder_options_form b u r := Builder_to_form b (lit "OPTIONS") u r.
  Definition Builder_patch_form b u r := Builder_to_form b (lit "PATCH") u r.

  (** lib.rs:294-311, 397-407: the query shorthands. *)
  Definition Builder_get_query {w : Writer} (show : w -> disp) b u r := Builder_to_query show b (lit "GET") u r.
  Definition Builder_put_query {w : Writer} (show : w -> disp) b u r := Builder_to_query show b (lit "PUT") u r.
  Definition Builder_post_query {w : Writer} (show : w -> disp) b u r := Builder_to_query show b (lit "POST") u r.
  Definition Builder_delete_query {w : Writer} (show : w -> disp) b u r := Builder_to_query show b (lit "DELETE") u r.
  Definition Builder_options_query {w : Writer} (show : w -> disp) b u r := Builder_to_query show b (lit "OPTIONS") u r.
  Definition Builder_head_query {w : Writer} (show : w -> disp) b u r := Builder_to_query show b (lit "HEAD") u r.
  Definition Builder_connect_query {w : Writer} (show : w -> disp) b u r := Builder_to_query show b (lit "CONNECT") u r.
  Definition Builder_patch_query {w : Writer} (show : w -> disp) b u r := Builder_to_query show b (lit "PATCH") u r.
  Definition Builder_trace_query {w : Writer} (show : w -> disp) b u r := Builder_to_query show b (lit "TRACE") u r.

  (** lib.rs:697-726, the free function [authorize]; [C] and [T] are arbitrary string types. *)
  Definition authorize {C T} (ac : C -> bytes) (at_ : T -> bytes) (method : bytes) (uri : disp)
      (request : Request) (token : Token C T) (sm : SignatureMethod) : res bytes :=
    Builder_into_authorization (Builder_with_token (Token_as_ref ac at_ token) sm) method uri request.

  (** lib.rs:652-688, the free shorthands. *)
  Definition get {C T} ac at_ u r (t : Token C T) sm := authorize ac at_ (lit "GET") u r t sm.
  Definition put {C T} ac at_ u r (t : Token C T) sm := authorize ac at_ (lit "PUT") u r t sm.
  Definition post {C T} ac at_ u r (t : Token C T) sm := authorize ac at_ (lit "POST") u r t sm.
  Definition delete {C T} ac at_ u r (t : Token C T) sm := authorize ac at_ (lit "DELETE") u r t sm.
  Definition options {C T} ac at_ u r (t : Token C T) sm := authorize ac at_ (lit "OPTIONS") u r t sm.
  Definition head {C T} ac at_ u r (t : Token C T) sm := authorize ac at_ (lit "HEAD") u r t sm.
  Definition connect {C T} ac at_ u r (t : Token C T) sm := authorize ac at_ (lit "CONNECT") u r t sm.
  Definition patch {C T} ac at_ u r (t : Token C T) sm := authorize ac at_ (lit "PATCH") u r t sm.
  Definition trace {C T} ac at_ u r (t : Token C T) sm := authorize ac at_ (lit "TRACE") u r t sm.
End Run.

(** lib.rs:730-735, the free function [to_form]. *)
Definition to_form (request : Request) : res bytes := request (UrlencoderS StringW) ue_form.

(** lib.rs:742-747, the free function [to_query]. *)
Definition to_query (uri : bytes) (request : Request) : res bytes :=
  request (UrlencoderS StringW) (ue_query (w := StringW) uri).
