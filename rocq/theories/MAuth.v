(** Model of oauth1-request/src/serializer/auth.rs. *)
From Coq Require Import String.
From Verif Require Import Bytes Crypto MFmt MPercent MSign MSerializer MCredentials.

(** ** Environment

    What the code obtains from the outside: successive readings of the clock ([None] when it is
    before the Unix epoch, else whole seconds) and successive random draws ([env_rng n i] is byte
    [i] of the [n]-th [fill_bytes]).  A failing random source is not modelled.
    Used at auth.rs:384-441. *)
Record env := {
  env_clock : nat -> option N;
  env_rng : nat -> nat -> byte;
}.

(** auth.rs:46-68 [Options]; [timestamp] is a [NonZeroU64]. *)
Record Options := {
  op_callback : option bytes;
  op_verifier : option bytes;
  op_nonce : option bytes;
  op_timestamp : option N;
  op_version : bool;
}.

(** auth.rs:48 [derive(Default)] and util.rs:115 [new]. *)
Definition Options_new : Options :=
  {| op_callback := None; op_verifier := None; op_nonce := None; op_timestamp := None;
     op_version := false |}.

(** util.rs:124-150 [impl_setters!] for the five fields. *)
Definition set_callback (v : option bytes) (o : Options) : Options :=
  {| op_callback := v; op_verifier := op_verifier o; op_nonce := op_nonce o;
     op_timestamp := op_timestamp o; op_version := op_version o |}.
Definition set_verifier (v : option bytes) (o : Options) : Options :=
  {| op_callback := op_callback o; op_verifier := v; op_nonce := op_nonce o;
     op_timestamp := op_timestamp o; op_version := op_version o |}.
Definition set_nonce (v : option bytes) (o : Options) : Options :=
  {| op_callback := op_callback o; op_verifier := op_verifier o; op_nonce := v;
     op_timestamp := op_timestamp o; op_version := op_version o |}.
Definition set_timestamp (v : option N) (o : Options) : Options :=
  {| op_callback := op_callback o; op_verifier := op_verifier o; op_nonce := op_nonce o;
     op_timestamp := v; op_version := op_version o |}.
Definition set_version (v : bool) (o : Options) : Options :=
  {| op_callback := op_callback o; op_verifier := op_verifier o; op_nonce := op_nonce o;
     op_timestamp := op_timestamp o; op_version := v |}.

(** auth.rs:41-44 [Data]. *)
Inductive Data (w : Writer) :=
  | Authorization (header : w)
  | Urlencode (encoder : Urlencoder w).
Arguments Authorization {w} header.
Arguments Urlencode {w} encoder.

(** auth.rs:23-37 [Authorizer].  [au_prev_key] exists only in debug builds with "alloc"; it is
    ignored otherwise.  [au_draws] and [au_ticks] count the uses of the environment. *)
Record Authorizer (sg : Sign) (w : Writer) := {
  au_consumer_key : bytes;
  au_token : option bytes;
  au_options : Options;
  au_data : Data w;
  au_sign : sg;
  au_append_delim : bool;
  au_prev_key : bytes;
  au_draws : nat;
  au_ticks : nat;
}.
Arguments au_consumer_key {sg w} _.
Arguments au_token {sg w} _.
Arguments au_options {sg w} _.
Arguments au_data {sg w} _.
Arguments au_sign {sg w} _.
Arguments au_append_delim {sg w} _.
Arguments au_prev_key {sg w} _.
Arguments au_draws {sg w} _.
Arguments au_ticks {sg w} _.

Section Authorizer.
  Context {sg : Sign} {w : Writer}.
  Variable c : cfg.
  Variable e : env.

  (** Assignment to the field [data] (auth.rs:244-251). *)
  Definition with_data (a : Authorizer sg w) (d : Data w) : Authorizer sg w :=
    {| au_consumer_key := au_consumer_key a; au_token := au_token a; au_options := au_options a;
       au_data := d; au_sign := au_sign a; au_append_delim := au_append_delim a;
       au_prev_key := au_prev_key a; au_draws := au_draws a; au_ticks := au_ticks a |}.
  (** Assignment to the field [sign] (auth.rs:278-293). *)
  Definition with_sign (a : Authorizer sg w) (s : sg) : Authorizer sg w :=
    {| au_consumer_key := au_consumer_key a; au_token := au_token a; au_options := au_options a;
       au_data := au_data a; au_sign := s; au_append_delim := au_append_delim a;
       au_prev_key := au_prev_key a; au_draws := au_draws a; au_ticks := au_ticks a |}.
  (** Assignment to [append_delim_to_sign] (auth.rs:253-259). *)
  Definition with_delim (a : Authorizer sg w) (b : bool) : Authorizer sg w :=
    {| au_consumer_key := au_consumer_key a; au_token := au_token a; au_options := au_options a;
       au_data := au_data a; au_sign := au_sign a; au_append_delim := b;
       au_prev_key := au_prev_key a; au_draws := au_draws a; au_ticks := au_ticks a |}.
  (** Assignment to [prev_key] (auth.rs:261-275). *)
  Definition with_prev (a : Authorizer sg w) (k : bytes) : Authorizer sg w :=
    {| au_consumer_key := au_consumer_key a; au_token := au_token a; au_options := au_options a;
       au_data := au_data a; au_sign := au_sign a; au_append_delim := au_append_delim a;
       au_prev_key := k; au_draws := au_draws a; au_ticks := au_ticks a |}.
  (** One more use of the random source (auth.rs:425-441). *)
  Definition with_draw (a : Authorizer sg w) : Authorizer sg w :=
    {| au_consumer_key := au_consumer_key a; au_token := au_token a; au_options := au_options a;
       au_data := au_data a; au_sign := au_sign a; au_append_delim := au_append_delim a;
       au_prev_key := au_prev_key a; au_draws := S (au_draws a); au_ticks := au_ticks a |}.
  (** One more use of the clock (auth.rs:384-404). *)
  Definition with_tick (a : Authorizer sg w) : Authorizer sg w :=
    {| au_consumer_key := au_consumer_key a; au_token := au_token a; au_options := au_options a;
       au_data := au_data a; au_sign := au_sign a; au_append_delim := au_append_delim a;
       au_prev_key := au_prev_key a; au_draws := au_draws a; au_ticks := S (au_ticks a) |}.

  (** auth.rs:261-275 [check_dictionary_order]. *)
  Definition check_dictionary_order (a : Authorizer sg w) (k : bytes) : res (Authorizer sg w) :=
    if cf_alloc c && cf_debug c then
      if bleb (au_prev_key a) k then Ok (with_prev a k) else Panic PDictOrder
    else Ok a.

  (** auth.rs:253-259 [sign_delimiter]. *)
  Definition sign_delimiter (a : Authorizer sg w) : res (Authorizer sg w) :=
    if au_append_delim a then
      s <- sg_delimiter (au_sign a) ;; Ok (with_sign a s)
    else Ok (with_delim a true).

  (** auth.rs:244-251 [append_to_header_encoded]. *)
  Definition append_to_header_encoded (a : Authorizer sg w) (k : bytes) (v : disp)
    : res (Authorizer sg w) :=
    a <- check_dictionary_order a k ;;
    a <- match au_data a with
         | Authorization header =>
             h <- write_unwrap
                    (dseq (dstr k) (dseq (dstr (lit "=""")) (dseq v (dstr (lit ""","))))) header ;;
             Ok (with_data a (Authorization h))
         | Urlencode encoder =>
             u <- ue_parameter_encoded encoder k v ;;
             Ok (with_data a (Urlencode u))
         end ;;
    sign_delimiter a.

  (** [this.sign.$k($w)] of the macro at auth.rs:278-293. *)
  Definition sign_step (a : Authorizer sg w) (f : sg -> res sg) : res (Authorizer sg w) :=
    s <- f (au_sign a) ;; Ok (with_sign a s).

  (** auth.rs:289-292, [append_to_header!(self, k, v)]: the header gets [percent_encode(v)], the
      signature [DoublePercentEncode(v)]. *)
  Definition append_to_header (a : Authorizer sg w) (k : bytes) (f : sg -> disp -> res sg) (v : bytes)
    : res (Authorizer sg w) :=
    a <- append_to_header_encoded a k (percent_encode v) ;;
    sign_step a (fun s => f s (DoublePercentEncode (dstr v))).

  (** auth.rs:298-302 [serialize_parameter]. *)
  Definition au_parameter (a : Authorizer sg w) (key : bytes) (value : disp) : res (Authorizer sg w) :=
    a <- check_dictionary_order a key ;;
    a <- sign_delimiter a ;;
    sign_step a (fun s => sg_parameter s key (DoublePercentEncode value)).

  (** auth.rs:304-308 [serialize_parameter_encoded]. *)
  Definition au_parameter_encoded (a : Authorizer sg w) (key : bytes) (value : disp)
    : res (Authorizer sg w) :=
    a <- check_dictionary_order a key ;;
    a <- sign_delimiter a ;;
    sign_step a (fun s => sg_parameter s key (PercentEncode value)).

  (** auth.rs:310-314 *)
  Definition au_oauth_callback (a : Authorizer sg w) : res (Authorizer sg w) :=
    match op_callback (au_options a) with
    | Some v => append_to_header a (lit "oauth_callback") sg_callback v
    | None => Ok a
    end.

  (** auth.rs:316-318 *)
  Definition au_oauth_consumer_key (a : Authorizer sg w) : res (Authorizer sg w) :=
    append_to_header a (lit "oauth_consumer_key") sg_consumer_key (au_consumer_key a).

  (** auth.rs:425-441 [gen_nonce] with [NONCE_LEN] = 12; [rand] are the 9 bytes drawn.
      [encode_slice] fails if the output does not fit in the 12-byte buffer; [str::from_utf8] is
      reduced to an ASCII check. *)
  Definition NONCE_LEN : nat := 12.

  (** auth.rs:425-441, the leading zeroes are dropped. *)
  Fixpoint trim_zeroes (rand : bytes) : bytes :=
    match rand with
    | b :: r => if N.eqb (bn b) 0 then trim_zeroes r else rand
    | [] => []
    end.

  (** auth.rs:425-441 *)
  Definition gen_nonce (rand : bytes) : res bytes :=
    let rand := trim_zeroes rand in
    let out := base64 b64_url false rand in
    if Nat.leb (length out) NONCE_LEN then
      if forallb is_ascii out then Ok out else Panic PUtf8
    else Panic PBase64.

  (** The bytes of draw [n]: [NONCE_LEN * 3 / 4] = 9 of them.
      (auth.rs:425-441) *)
  Definition draw (n : nat) : bytes := map (env_rng e n) (seq 0 (Nat.div (NONCE_LEN * 3) 4)).

  (** auth.rs:320-329 *)
  Definition au_oauth_nonce (a : Authorizer sg w) : res (Authorizer sg w) :=
    if sg_use_nonce (au_sign a) then
      match op_nonce (au_options a) with
      | Some n => append_to_header a (lit "oauth_nonce") sg_nonce n
      | None =>
          n <- gen_nonce (draw (au_draws a)) ;;
          let a := with_draw a in
          a <- append_to_header_encoded a (lit "oauth_nonce") (dstr n) ;;
          sign_step a (fun s => sg_nonce s (dstr n))
      end
    else Ok a.

  (** auth.rs:331-335 *)
  Definition au_oauth_signature_method (a : Authorizer sg w) : res (Authorizer sg w) :=
    let v := sg_name (au_sign a) in
    a <- append_to_header_encoded a (lit "oauth_signature_method") (dstr v) ;;
    sign_step a sg_signature_method.

  (** auth.rs:384-404 [get_current_timestamp] on non-wasm targets. *)
  Definition get_current_timestamp (reading : option N) : res N :=
    if cf_std c then
      match reading with
      | Some secs => Ok secs
      | None => Ok 1%N
      end
    else Panic PNoTimestamp.

  (** auth.rs:337-346 *)
  Definition au_oauth_timestamp (a : Authorizer sg w) : res (Authorizer sg w) :=
    if sg_use_timestamp (au_sign a) then
      '(t, a) <- match op_timestamp (au_options a) with
                 | Some t => Ok (t, a)
                 | None =>
                     t <- get_current_timestamp (env_clock e (au_ticks a)) ;;
                     Ok (t, with_tick a)
                 end ;;
      a <- append_to_header_encoded a (lit "oauth_timestamp") (dnum t) ;;
      sign_step a (fun s => sg_timestamp s t)
    else Ok a.

  (** auth.rs:348-352 *)
  Definition au_oauth_token (a : Authorizer sg w) : res (Authorizer sg w) :=
    match au_token a with
    | Some t => append_to_header a (lit "oauth_token") sg_token t
    | None => Ok a
    end.

  (** auth.rs:354-358 *)
  Definition au_oauth_verifier (a : Authorizer sg w) : res (Authorizer sg w) :=
    match op_verifier (au_options a) with
    | Some v => append_to_header a (lit "oauth_verifier") sg_verifier v
    | None => Ok a
    end.

  (** auth.rs:360-365 *)
  Definition au_oauth_version (a : Authorizer sg w) : res (Authorizer sg w) :=
    if op_version (au_options a) then
      a <- append_to_header_encoded a (lit "oauth_version") (dstr (lit "1.0")) ;;
      sign_step a sg_version
    else Ok a.

  (** auth.rs:367-381 [end]. *)
  Definition au_end (a : Authorizer sg w) : res w :=
    match au_data a with
    | Authorization header =>
        h <- write_unwrap (dstr (lit "oauth_signature=")) header ;;
        s <- sg_end (au_sign a) ;;
        write_unwrap (dseq (dstr (lit """")) (dseq s (dstr (lit """")))) h
    | Urlencode encoder =>
        s <- sg_end (au_sign a) ;;
        u <- ue_parameter_encoded encoder (lit "oauth_signature") s ;;
        Ok (ue_data u)
    end.

  (** auth.rs:295-382 [Serializer for Authorizer]. *)
  Definition AuthorizerS : Serializer :=
    {| sr_st := Authorizer sg w;
       sr_out := w;
       sr_parameter := au_parameter;
       sr_parameter_encoded := au_parameter_encoded;
       sr_oauth_callback := au_oauth_callback;
       sr_oauth_consumer_key := au_oauth_consumer_key;
       sr_oauth_nonce := au_oauth_nonce;
       sr_oauth_signature_method := au_oauth_signature_method;
       sr_oauth_timestamp := au_oauth_timestamp;
       sr_oauth_token := au_oauth_token;
       sr_oauth_verifier := au_oauth_verifier;
       sr_oauth_version := au_oauth_version;
       sr_end := au_end |}.

  (** auth.rs:180-209 [new_]. *)
  Definition au_new (data : Data w) (sign : sg) (client : Credentials bytes)
      (token : option (Credentials bytes)) (options : Options) : Authorizer sg w :=
    {| au_consumer_key := cr_identifier client;
       au_token := option_map cr_identifier token;
       au_options := options;
       au_data := data;
       au_sign := sign;
       au_append_delim := false;
       au_prev_key := [];
       au_draws := 0;
       au_ticks := 0 |}.
End Authorizer.
Arguments AuthorizerS sg w c e : clear implicits.

(** auth.rs:225-232 [AssertNotContainQuestion]. *)
Definition contains_question (s : bytes) : bool := existsb (fun b => beqb b "?") s.
Definition AssertNotContainQuestion : Writer :=
  {| W := unit;
     write_str := fun _ s => if contains_question s then Panic PUriQuery else Ok (tt, true) |}.

(** auth.rs:212-241 [make_sign]. *)
Definition make_sign (c : cfg) (sm : SignatureMethod) (method : bytes) (uri : disp)
    (client : Credentials bytes) (token : option (Credentials bytes)) : res (sm_sign sm) :=
  _ <- (if cf_debug c then write_unwrap (w := AssertNotContainQuestion) uri tt else Ok tt) ;;
  ret <- sm_sign_with sm (cr_secret client) (option_map cr_secret token) ;;
  ret <- sg_request_method ret method ;;
  sg_uri ret (PercentEncode uri).

Section Constructors.
  Variable c : cfg.
  Variable sm : SignatureMethod.
  Context {w : Writer}.

  (** auth.rs:150-163 [authorization_with_buf]. *)
  Definition authorization_with_buf (buf : w) (method : bytes) (uri : disp)
      (client : Credentials bytes) (token : option (Credentials bytes)) (options : Options)
    : res (Authorizer (sm_sign sm) w) :=
    buf <- write_unwrap (dstr (lit "OAuth ")) buf ;;
    let data := Authorization buf in
    sign <- make_sign c sm method uri client token ;;
    Ok (au_new data sign client token options).

  (** auth.rs:166-178 [form_with_buf]. *)
  Definition form_with_buf (buf : w) (method : bytes) (uri : disp)
      (client : Credentials bytes) (token : option (Credentials bytes)) (options : Options)
    : res (Authorizer (sm_sign sm) w) :=
    let data := Urlencode (ue_form_with_buf buf) in
    sign <- make_sign c sm method uri client token ;;
    Ok (au_new data sign client token options).

  (** auth.rs:132-146 [query]; [show] is [W]'s [Display]. *)
  Definition query (show : w -> disp) (method : bytes) (uri : w)
      (client : Credentials bytes) (token : option (Credentials bytes)) (options : Options)
    : res (Authorizer (sm_sign sm) w) :=
    sign <- make_sign c sm method (show uri) client token ;;
    let data := Urlencode (ue_query uri) in
    Ok (au_new data sign client token options).
End Constructors.

(** auth.rs:81-99 [authorization] and 109-119 [form]: an empty [String] as buffer. *)
Definition authorization (c : cfg) (sm : SignatureMethod) (method : bytes) (uri : disp)
    (client : Credentials bytes) (token : option (Credentials bytes)) (options : Options)
  : res (Authorizer (sm_sign sm) StringW) :=
  authorization_with_buf c sm (w := StringW) ([] : bytes) method uri client token options.
Definition form (c : cfg) (sm : SignatureMethod) (method : bytes) (uri : disp)
    (client : Credentials bytes) (token : option (Credentials bytes)) (options : Options)
  : res (Authorizer (sm_sign sm) StringW) :=
  form_with_buf c sm (w := StringW) ([] : bytes) method uri client token options.
