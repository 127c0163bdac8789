(** Model of examples/src/server: the example server that the client is tested against. *)
From Coq Require Import String.
From Verif Require Import Bytes Crypto MFmt MPercent MCredentials MHttp.

(** ** authorization.rs *)

(** authorization.rs:193-195, 200-202 *)
Definition is_obs_text (b : byte) : bool := (128 <=? bn b)%N.
Definition is_vchar (b : byte) : bool := in_range 33 126 b.

(** authorization.rs:182-188 *)
Definition is_qdtext (b : byte) : bool :=
  nom_is_space b || beqb b "033" || in_range 35 91 b || in_range 93 126 b || is_obs_text b.

(** authorization.rs:164-166 *)
Definition is_tchar (b : byte) : bool :=
  is_alphanumeric b || existsb (beqb b) (lit "!#$%&'*+-.^_`|~").

(** authorization.rs:150-152 [token], 111-113 [auth_scheme], 157-159 [ows] (which never fails). *)
Definition token : parser bytes := take_while1 is_tchar.
Definition auth_scheme : parser bytes := token.
Definition ows (input : bytes) : bytes := fst (space0 input).

Section Nom.
  (** Whether [escaped_transform] succeeds without consuming anything (see MHttp.v). *)
  Variable empty_ok : bool.

  (** authorization.rs:172-177 *)
  Definition quoted_string : parser bytes := fun input =>
    match nom_tag (lit """") input with
    | None => None
    | Some (input, _) =>
        match escaped_transform empty_ok (take_while1 is_qdtext)
                (take_one (fun b => nom_is_space b || is_vchar b || is_obs_text b))
                (length input) true input with
        | None => None
        | Some (input, v) =>
            match nom_tag (lit """") input with
            | None => None
            | Some (input, _) => Some (input, v)
            end
        end
    end.

  (** authorization.rs:119-126 *)
  Definition auth_param : parser (bytes * bytes) := fun input =>
    match token input with
    | None => None
    | Some (input, key) =>
        let input := ows input in
        match nom_tag (lit "=") input with
        | None => None
        | Some (input, _) =>
            let input := ows input in
            match quoted_string input with
            | Some (input, value) => Some (input, (key, value))
            | None =>
                match token input with
                | Some (input, value) => Some (input, (key, value))
                | None => None
                end
            end
        end
    end.

  (** authorization.rs:138-143, [punct] of [hash]. *)
  Definition punct : parser unit := fun input =>
    let input := ows input in
    match nom_tag (lit ",") input with
    | None => None
    | Some (input, _) => Some (ows input, tt)
    end.

  (** authorization.rs:28-40; [State::Err] is not reachable because no parser fails with anything
      but [Err::Error]. *)
  Inductive State := Head | Mid | Done.

  (** authorization.rs:73-105 [Punctuated::next] for the parsers of [hash(.., auth_param)]. *)
  Definition pn_next (x : bytes * State) : option (bytes * bytes) * (bytes * State) :=
    let '(input, state) := x in
    match state with
    | Head =>
        match auth_param input with
        | None => (None, (input, Done))
        | Some (input, o) => (Some o, (input, Mid))
        end
    | Mid =>
        match punct input with
        | None => (None, (input, Done))
        | Some (input', _) =>
            match auth_param input' with
            | None => (None, (input, Done))
            | Some (input, o) => (Some o, (input, Mid))
            end
        end
    | Done => (None, (input, Done))
    end.

  (** The [for] loop of handler.rs:368 over it: the items and the input left, which is what
      [finish] (authorization.rs:57-62) returns. *)
  Fixpoint pn_collect (fuel : nat) (x : bytes * State) : list (bytes * bytes) * bytes :=
    match fuel with
    | O => ([], fst x)
    | S fuel' =>
        match pn_next x with
        | (None, (input, _)) => ([], input)
        | (Some o, x) => let '(l, input) := pn_collect fuel' x in (o :: l, input)
        end
    end.
  Definition hash (input : bytes) : list (bytes * bytes) * bytes :=
    pn_collect (S (length input)) (input, Head).
End Nom.

(** ** handler.rs *)

(** What the HTTP library hands over.  [None] as body: reading it fails.  [rq_authorization] are all
    the values of that header, in order.
    (examples/src/server/handler.rs:127-175) *)
Record http_request := {
  rq_method : bytes;
  rq_path : bytes;
  rq_query : option bytes;
  rq_authorization : list bytes;
  rq_content_type : option bytes;
  rq_body : option bytes;
}.

(** [StatusCode] (examples/src/server/handler.rs:8, 87-321). *)
Inductive status := StOk | StBadRequest | StUnauthorized | StNotFound.
(** The response (examples/src/server/handler.rs:60-66, 99-109, 117-123). *)
Record http_response := { rs_status : status; rs_content_type : option bytes; rs_body : bytes }.

(** A panic of the handler.
    (examples/src/server/handler.rs:142, 186-188, 255, 373) *)
Inductive crash := BodyFailed | ClockBackwards | TimestampOverflow.
(** A value or a panic. *)
Inductive outcome (A : Type) := Done_ (a : A) | Crash (p : crash).
Arguments Done_ {A} a.
Arguments Crash {A} p.

(** The world: whether overflow checks are on, the clock, and library functions of which only a
    contract is known: the index that [binary_search_by_key] returns (either case), base 64
    decoding, and nom's behaviour on empty input.
    (examples/src/server/handler.rs:186-190, 395) *)
Record world := {
  wd_debug : bool;
  wd_now : option N;
  wd_search : bytes -> list (bytes * bytes) -> nat;
  wd_base64 : bytes -> option bytes;
  wd_empty_ok : bool;
}.

(** handler.rs:16-31, 42 *)
Definition CLIENT : Credentials bytes := Cred (lit "client") (lit "client_secret").
Definition REQUEST : Credentials bytes := Cred (lit "request") (lit "request_secret").
Definition VERIFIER : bytes := lit "verifier".
Definition TOKEN : Credentials bytes := Cred (lit "token") (lit "token_secret").
Definition SCHEME : bytes := lit "http".
Definition AUTHORITY : bytes := lit "127.0.0.1:8080".
Definition APPLICATION_WWW_FORM_URLENCODED : bytes := lit "application/x-www-form-urlencoded".

(** handler.rs:44-53; the timestamp is a [u64]. *)
Record OAuthParams := {
  oa_consumer_key : bytes;
  oa_token : option bytes;
  oa_signature_method : bytes;
  oa_timestamp : option N;
  oa_nonce : option bytes;
  oa_signature : bytes;
  oa_callback : option bytes;
  oa_verifier : option bytes;
}.

(** [Parameter] (examples/src/server/handler.rs:55-56). *)
Definition param := (bytes * bytes)%type.

(** [Ord] for pairs of texts, and [sort_unstable] (equal pairs cannot be told apart).
    (examples/src/server/handler.rs:349) *)
Definition param_leb (p q : param) : bool :=
  match bcmp (fst p) (fst q) with
  | Lt => true
  | Gt => false
  | Eq => bleb (snd p) (snd q)
  end.
(** As above (examples/src/server/handler.rs:349). *)
Fixpoint insert_param (p : param) (l : list param) : list param :=
  match l with
  | [] => [p]
  | q :: l' => if param_leb p q then p :: l else q :: insert_param p l'
  end.
(** As above (examples/src/server/handler.rs:349). *)
Fixpoint sort_params (l : list param) : list param :=
  match l with
  | [] => []
  | p :: l' => insert_param p (sort_params l')
  end.

(** handler.rs:355-387 [collect_auth_params]; [None] is the error.  Decoding a value copied from a
    quoted string (lines 371-377) gives the same text in both cases of the [match]. *)
Fixpoint collect_auth_params (empty_ok : bool) (headers : list bytes) : option (list param) :=
  match headers with
  | [] => Some []
  | v :: headers' =>
      match auth_scheme v with
      | Some (auth_params, scheme) =>
          if bseqb scheme (lit "OAuth") then
            match auth_params with
            | [] => Some []                                              (* l.360-362, break *)
            | c :: rest =>
                if beqb c " " then
                  let '(items, remaining) := hash empty_ok rest in
                  match remaining with
                  | [] => Some (map (fun p => (decode_utf8_lossy (fst p), decode_utf8_lossy (snd p))) items)
                  | _ => None                                            (* l.382 *)
                  end
                else None                                                (* l.363-365 *)
            end
          else collect_auth_params empty_ok headers'
      | None => collect_auth_params empty_ok headers'
      end
  end.

(** handler.rs:338-352 [collect_params]. *)
Definition collect_params (empty_ok : bool) (req : http_request) (form : bytes) : option (list param) :=
  let query := match rq_query req with Some q => q | None => [] end in
  match collect_auth_params empty_ok (rq_authorization req) with
  | None => None
  | Some params => Some (sort_params (params ++ form_parse form ++ form_parse query))
  end.

(** handler.rs:401-417 [get]: the value and the parameters left. *)
Fixpoint get (params : list param) (key : bytes) : option bytes * list param :=
  match params with
  | [] => (None, [])
  | (k, v) :: params' =>
      match bcmp k key with
      | Eq => (Some v, params')
      | Gt => (None, params)
      | Lt => get params' key
      end
  end.

(** [str::parse::<u64>]: an optional "+", then at least one digit; too large a number is an error.
    (examples/src/server/handler.rs:441) *)
Definition dec_digit (b : byte) : option N := if in_range 48 57 b then Some (bn b - 48)%N else None.
(** As above (examples/src/server/handler.rs:441). *)
Fixpoint parse_digits (acc : N) (s : bytes) : option N :=
  match s with
  | [] => Some acc
  | b :: s' =>
      match dec_digit b with
      | None => None
      | Some d => let n := (acc * 10 + d)%N in if (n <? 2 ^ 64)%N then parse_digits n s' else None
      end
  end.
(** As above (examples/src/server/handler.rs:441). *)
Definition parse_u64 (s : bytes) : option N :=
  match s with
  | [] => None
  | b :: s' =>
      if beqb b "+" then match s' with [] => None | _ => parse_digits 0 s' end
      else parse_digits 0 s
  end.

(** handler.rs:393-464 [collect_oauth_params]. *)
Definition collect_oauth_params (search : bytes -> list param -> nat) (params : list param)
  : OAuthParams + status :=
  let params := skipn (search (lit "oauth_callback") params) params in
  let '(callback, params) := get params (lit "oauth_callback") in
  match get params (lit "oauth_consumer_key") with
  | (None, _) => inr StUnauthorized
  | (Some consumer_key, params) =>
      let '(nonce, params) := get params (lit "oauth_nonce") in
      match get params (lit "oauth_signature") with
      | (None, _) => inr StBadRequest
      | (Some signature, params) =>
          match get params (lit "oauth_signature_method") with
          | (None, _) => inr StBadRequest
          | (Some signature_method, params) =>
              let '(timestamp, params) := get params (lit "oauth_timestamp") in
              match match timestamp with
                    | Some v => match parse_u64 v with Some t => inl (Some t) | None => inr StBadRequest end
                    | None => inl None
                    end with
              | inr e => inr e
              | inl timestamp =>
                  let '(token, params) := get params (lit "oauth_token") in
                  let '(verifier, params) := get params (lit "oauth_verifier") in
                  inl {| oa_consumer_key := consumer_key; oa_token := token;
                         oa_signature_method := signature_method; oa_timestamp := timestamp;
                         oa_nonce := nonce; oa_signature := signature; oa_callback := callback;
                         oa_verifier := verifier |}
              end
          end
      end
  end.

(** [to_ascii_uppercase]
    (examples/src/server/handler.rs:473) *)
Definition ascii_uppercase (s : bytes) : bytes :=
  map (fun b => if in_range 97 122 b then n2b (bn b - 32) else b) s.

(** handler.rs:494-511, the loop. *)
Fixpoint base_params (first : bool) (params : list param) : bytes :=
  match params with
  | [] => []
  | (k, v) :: params' =>
      if bseqb k (lit "oauth_signature") then base_params first params'
      else
        (if first then [] else lit "%26")
        ++ percent_encode_text (percent_encode_text k) ++ lit "%3D"
        ++ percent_encode_text (percent_encode_text v)
        ++ base_params false params'
  end.

(** handler.rs:470-514 [create_base_string].  The port of [AUTHORITY] is 8080, so lines 480-488 keep
    the authority as it is. *)
Definition create_base_string (req : http_request) (params : list param) : bytes :=
  percent_encode_text (ascii_uppercase (rq_method req)) ++ lit "&"
  ++ percent_encode_text SCHEME ++ lit "%3A%2F%2F" ++ percent_encode_text AUTHORITY
  ++ percent_encode_text (rq_path req) ++ lit "&"
  ++ base_params true params.

(** handler.rs:186-196: the clock and the age of the timestamp.  [t + 30] is a [u64] addition. *)
Definition check_time (wd : world) (timestamp : option N) : outcome (option status) :=
  match wd_now wd with
  | None => Crash ClockBackwards
  | Some now =>
      match timestamp with
      | None => Done_ None
      | Some t =>
          let s := (t + 30)%N in
          if (s <? 2 ^ 64)%N then Done_ (if (s <? now)%N then Some StUnauthorized else None)
          else if wd_debug wd then Crash TimestampOverflow
          else Done_ (if (s - 2 ^ 64 <? now)%N then Some StUnauthorized else None)
      end
  end.

(** handler.rs:198-222: whether token and verifier are given just when they are expected. *)
Definition check_presence {A B} (expected : option A) (given : option B) : option status :=
  match expected, given with
  | Some _, Some _ | None, None => None
  | Some _, None => Some StUnauthorized
  | None, Some _ => Some StBadRequest
  end.

(** handler.rs:225-287. *)
Definition check_hmac (wd : world) (req : http_request) (params : list param) (oa : OAuthParams)
    (client : Credentials bytes) (token : option (Credentials bytes)) : option status :=
  match oa_timestamp oa, oa_nonce oa with
  | Some _, Some _ =>
      if Nat.ltb 28 (length (oa_signature oa)) then Some StBadRequest
      else
        match wd_base64 wd (oa_signature oa) with
        | None => Some StBadRequest
        | Some signature =>
            if Nat.eqb (length signature) 20 then
              let key := cr_secret client ++ lit "&"
                         ++ match token with Some t => cr_secret t | None => [] end in
              if bseqb signature (hmac_sha1 key (create_base_string req params)) then None
              else Some StUnauthorized
            else Some StBadRequest
        end
  | _, _ => Some StBadRequest
  end.

(** handler.rs:288-304: the comparison is made, its result is only logged. *)
Definition plaintext_matches (oa : OAuthParams) (client : Credentials bytes)
    (token : option (Credentials bytes)) : bool :=
  match nom_tag (cr_secret client) (oa_signature oa) with
  | None => false
  | Some (input, _) =>
      match nom_tag (lit "&") input with
      | None => false
      | Some (input, _) =>
          match match token with Some t => nom_tag (cr_secret t) input | None => Some (input, tt) end with
          | Some ([], _) => true
          | _ => false
          end
      end
  end.
Definition check_plaintext (oa : OAuthParams) (client : Credentials bytes)
    (token : option (Credentials bytes)) : option status :=
  if plaintext_matches oa client token then None else None.

(** examples/src/server/handler.rs:240-312 *)
Definition check_signature (wd : world) (req : http_request) (params : list param) (oa : OAuthParams)
    (client : Credentials bytes) (token : option (Credentials bytes)) : option status :=
  if bseqb (oa_signature_method oa) (lit "HMAC-SHA1") then check_hmac wd req params oa client token
  else if bseqb (oa_signature_method oa) (lit "PLAINTEXT") then check_plaintext oa client token
  else Some StBadRequest.

(** handler.rs:318-332: an expected value that differs from the given one. *)
Definition check_equal (expected given : option bytes) : option status :=
  match expected, given with
  | Some x, Some y => if bseqb x y then None else Some StUnauthorized
  | _, _ => None
  end.

(** Continue unless there is an error ([return Err(..)]).
    (examples/src/server/handler.rs:185-335) *)
Definition andthen (x : option status) (y : option status) : option status :=
  match x with Some e => Some e | None => y end.

(** handler.rs:178-335 [inner]; [None] is [Ok(())]. *)
Definition inner (wd : world) (req : http_request) (params : list param) (oa : OAuthParams)
    (client : Credentials bytes) (token : option (Credentials bytes)) (verifier : option bytes)
  : outcome (option status) :=
  match check_time wd (oa_timestamp oa) with
  | Crash p => Crash p
  | Done_ x =>
      Done_
        (andthen x
        (andthen (check_presence token (oa_token oa))
        (andthen (check_presence verifier (oa_verifier oa))
        (andthen (check_signature wd req params oa client token)
        (andthen (if bseqb (cr_identifier client) (oa_consumer_key oa) then None else Some StUnauthorized)
        (andthen (check_equal (option_map cr_identifier token) (oa_token oa))
                 (check_equal verifier (oa_verifier oa))))))))
  end.

(** A response with an error status (examples/src/server/handler.rs:150-173). *)
Definition fail (code : status) : http_response :=
  {| rs_status := code; rs_content_type := None; rs_body := [] |}.

(** handler.rs:127-336 [verify_and_then]. *)
Definition verify_and_then (wd : world) (req : http_request) (client : Credentials bytes)
    (token : option (Credentials bytes)) (verifier : option bytes)
    (f : list param -> OAuthParams -> http_response) : outcome http_response :=
  let is_form := match rq_content_type req with
                 | Some v => bseqb v APPLICATION_WWW_FORM_URLENCODED
                 | None => false
                 end in
  match (if is_form then rq_body req else Some []) with
  | None => Crash BodyFailed
  | Some form =>
      match collect_params (wd_empty_ok wd) req form with
      | None => Done_ (fail StBadRequest)
      | Some params =>
          match collect_oauth_params (wd_search wd) params with
          | inr code => Done_ (fail code)
          | inl oa =>
              match inner wd req params oa client token verifier with
              | Crash p => Crash p
              | Done_ None => Done_ (f params oa)
              | Done_ (Some code) => Done_ (fail code)
              end
          end
      end
  end.

(** examples/src/server/handler.rs:60-66, 99-109, 117-123 *)
Definition urlencoded_response (l : list param) : http_response :=
  {| rs_status := StOk; rs_content_type := Some APPLICATION_WWW_FORM_URLENCODED;
     rs_body := urlencoded_to_string l |}.

(** handler.rs:58-67 [echo]. *)
Definition echo (wd : world) (req : http_request) : outcome http_response :=
  verify_and_then wd req CLIENT (Some TOKEN) None (fun params _ => urlencoded_response params).

(** The fields that [Credentials] serializes (oauth-credentials/src/serde_imp.rs:223-236). *)
Definition credential_fields (c : Credentials bytes) : list param :=
  [(lit "oauth_token", cr_identifier c); (lit "oauth_token_secret", cr_secret c)].

(** handler.rs:72-110 [post_request_temp_credentials]; the flattened struct of lines 73-78. *)
Definition post_request_temp_credentials (wd : world) (req : http_request) : outcome http_response :=
  verify_and_then wd req CLIENT None None (fun _ oa =>
    match oa_callback oa with
    | Some callback =>
        if bseqb callback (lit "oob") then
          urlencoded_response (credential_fields REQUEST ++ [(lit "oauth_callback_confirmed", lit "true")])
        else fail StBadRequest
    | None => fail StBadRequest
    end).

(** handler.rs:115-124 [post_request_token]. *)
Definition post_request_token (wd : world) (req : http_request) : outcome http_response :=
  verify_and_then wd req CLIENT (Some REQUEST) (Some VERIFIER) (fun _ _ =>
    urlencoded_response (credential_fields TOKEN)).

(** main.rs:24-36, the routes. *)
Definition service (wd : world) (req : http_request) : outcome http_response :=
  let is_get := bseqb (rq_method req) (lit "GET") in
  let is_post := bseqb (rq_method req) (lit "POST") in
  if (is_get || is_post) && bseqb (rq_path req) (lit "/echo") then echo wd req
  else if is_post && bseqb (rq_path req) (lit "/request_temp_credentials") then post_request_temp_credentials wd req
  else if is_post && bseqb (rq_path req) (lit "/request_token") then post_request_token wd req
  else Done_ (fail StNotFound).
