(** Model of oauth1-request-derive/src: the derive macro, from the parsed struct to the generated
    code, and what the generated code does.

    Lexing, parsing of paths and expressions ([syn]) and the compiler are external.  Spans,
    hygiene, generics and visibility are not modelled. *)
From Coq Require Import String.
From Verif Require Import Bytes MFmt MPercent MSerializer MRequest.

(** ** What syn hands to the macro *)

(** [proc_macro2::Ident].
    (field.rs:38) *)
Record ident := { id_raw : bool; id_text : bytes }.

(** [Ident::to_string].
    (field.rs:65, meta.rs:138) *)
Definition ident_to_string (i : ident) : bytes := (if id_raw i then lit "r#" else []) ++ id_text i.

(** [IdentExt::unraw]: an identifier that is not raw.
    (field.rs:38) *)
Definition unraw (i : ident) : ident := {| id_raw := false; id_text := id_text i |}.

(** [syn::Path] in an attribute: a single identifier, or anything else (with its text).
    (meta.rs:24, 129) *)
Inductive mpath :=
  | PIdent (i : ident)
  | PLong (text : bytes).

(** [syn::Path::get_ident].
    (meta.rs:24, 129) *)
Definition get_ident (p : mpath) : option ident :=
  match p with PIdent i => Some i | PLong _ => None end.

(** The expressions that the macro distinguishes; paths are opaque.
    (meta.rs:126-259) *)
Inductive expr :=
  | EPath (p : bytes)
  | EBool (b : bool)
  | EStr (s : bytes)
  | EOther.

(** The tokens that [Meta::parse] looks at.
    (meta.rs:24-47) *)
Inductive tok :=
  | TParen                (** a parenthesized group *)
  | TEq
  | TComma
  | TTok (text : bytes).

(** syn's parsers for paths and expressions: the item and the rest, or an error.
    (meta.rs:24-47) *)
Record syn := {
  parse_path : list tok -> option (mpath * list tok);
  parse_expr : list tok -> option (expr * list tok);
}.

(** [syn::Attribute]: its path and arguments ([#[a]], [#[a = ..]] or [#[a(..)]]).
    (meta.rs:24-31) *)
Inductive attr_args := ArgsNone | ArgsEq | ArgsList (toks : list tok).
(** meta.rs:24-31 *)
Record attr := { at_path : mpath; at_args : attr_args }.

(** [syn::Type], as far as [is_option] looks.
    (method_body.rs:183-202) *)
Inductive path_args := ArgNone | ArgAngle (n : nat) | ArgParen.
(** method_body.rs:183-202 *)
Inductive ty :=
  | TyGroup (t : ty)
  | TyPath (leading_colon : bool) (segments : list (ident * path_args))
  | TyOther.

(** [syn::Field] (field.rs:31-40). *)
Record syn_field := { sf_attrs : list attr; sf_ident : ident; sf_ty : ty }.

(** [syn::Data] and its fields (lib.rs:40-75). *)
Inductive data :=
  | NamedFields (fields : list syn_field)
  | OtherData.

(** [syn::DeriveInput] (lib.rs:40-60). *)
Record derive_input := { di_attrs : list attr; di_data : data }.

(** ** Errors *)

(** The messages; those of syn's parsers are not distinguished.
    (ctxt.rs:1-41, meta.rs:24-259, lib.rs:40-120) *)
Inductive error :=
  | ExpectedNamedFields
  | DuplicateParameter (name : bytes)
  | SynError
  | ExpectedWord
  | ExpectedNameValue
  | DuplicateAttribute (name : bytes)
  | UnknownAttribute (text : bytes)
  | ExpectedPath
  | ExpectedBool
  | ExpectedStr
  | NotUriSafe
  | CrateNotFound.

(** ctxt.rs:7-9 [Ctxt]; a [syn::Error] is a nonempty list of messages. *)
Definition Ctxt := option (list error).
(** ctxt.rs:12-14 *)
Definition Ctxt_new : Ctxt := None.
(** ctxt.rs:16-22 [add_error] ([combine] appends) and 24-26 [add_error_message]. *)
Definition add_error (cx : Ctxt) (e : error) : Ctxt :=
  match cx with
  | Some es => Some (es ++ [e])
  | None => Some [e]
  end.

(** ** meta.rs *)

(** meta.rs:152-168 *)
Inductive MetaKind := MkPath | MkList | MkNameValue (e : expr).
Record Meta := { mt_path : mpath; mt_kind : MetaKind }.

(** meta.rs:187-203 [Parse for Meta]. *)
Definition Meta_parse (sy : syn) (input : list tok) : option (Meta * list tok) :=
  match parse_path sy input with
  | None => None
  | Some (path, TParen :: input) => Some ({| mt_path := path; mt_kind := MkList |}, input)
  | Some (path, TEq :: input) =>
      match parse_expr sy input with
      | None => None
      | Some (e, input) => Some ({| mt_path := path; mt_kind := MkNameValue e |}, input)
      end
  | Some (path, input) => Some ({| mt_path := path; mt_kind := MkPath |}, input)
  end.

(** [ParseBuffer::parse_terminated(Meta::parse, Token![,])] on the whole input (syn): items
    separated by commas, an optional comma at the end.  [None] in the fuel branch is not reached
    when the parsers consume something (theorem C45_parse).
    (meta.rs:29) *)
Fixpoint parse_terminated (sy : syn) (fuel : nat) (input : list tok) : option (list Meta) :=
  match input with
  | [] => Some []
  | _ =>
      match fuel with
      | O => None
      | S fuel' =>
          match Meta_parse sy input with
          | None => None
          | Some (m, []) => Some [m]
          | Some (m, TComma :: rest) => option_map (cons m) (parse_terminated sy fuel' rest)
          | Some (_, _) => None
          end
      end
  end.

(** [Attribute::parse_args_with]: an error unless the arguments are in parentheses.
    (meta.rs:31) *)
Definition parse_args (sy : syn) (a : attr) : option (list Meta) :=
  match at_args a with
  | ArgsList toks => parse_terminated sy (length toks) toks
  | _ => None
  end.

(** meta.rs:38-42: adding each of [meta_list]. *)
Definition add_metas {M} (add_meta : M -> Meta -> M + error) (l : list Meta) (x : M * Ctxt) : M * Ctxt :=
  fold_left (fun x m => match add_meta (fst x) m with
                        | inl ret => (ret, snd x)
                        | inr e => (fst x, add_error (snd x) e)
                        end) l x.

(** meta.rs:21: whether the loop looks at the attribute. *)
Definition is_oauth1 (a : attr) : bool :=
  match get_ident (at_path a) with
  | Some i => bseqb (ident_to_string i) (lit "oauth1")
  | None => false
  end.

(** meta.rs:15-47 [def_meta!], [new]. *)
Definition meta_new {M} (sy : syn) (default : M) (add_meta : M -> Meta -> M + error)
    (attrs : list attr) (cx : Ctxt) : M * Ctxt :=
  fold_left (fun x a =>
    if is_oauth1 a then
      match parse_args sy a with
      | Some l => add_metas add_meta l x
      | None => (fst x, add_error (snd x) SynError)
      end
    else x) attrs (default, cx).

(** meta.rs:76-97, the arm for a [bool]. *)
Definition add_word (name : bytes) (kind : MetaKind) (cur : bool) : bool + error :=
  match kind with
  | MkPath => if cur then inr (DuplicateAttribute name) else inl true
  | _ => inr ExpectedWord
  end.

(** meta.rs:98-126, the arm for an [Option]. *)
Definition add_value {A} (from_expr : expr -> A + error) (name : bytes) (kind : MetaKind) (cur : option A)
  : option A + error :=
  match kind with
  | MkNameValue e =>
      match from_expr e with
      | inr e => inr e
      | inl v =>
          match cur with
          | Some _ => inr (DuplicateAttribute name)
          | None => inl (Some v)
          end
      end
  | _ => inr ExpectedNameValue
  end.

(** meta.rs:205-213, 215-227 *)
Definition path_from_expr (e : expr) : bytes + error :=
  match e with EPath p => inl p | _ => inr ExpectedPath end.
Definition bool_from_expr (e : expr) : bool + error :=
  match e with EBool b => inl b | _ => inr ExpectedBool end.

(** meta.rs:239-247, the match on a byte. *)
Definition between (lo hi b : byte) : bool := ((bn lo <=? bn b) && (bn b <=? bn hi))%N.
Definition uri_safe_byte (b : byte) : bool :=
  between "0" "9" b || between "A" "Z" b || between "a" "z" b
  || beqb b "-" || beqb b "." || beqb b "_" || beqb b "~".

(** meta.rs:229-251 *)
Definition uri_safe_from_expr (e : expr) : bytes + error :=
  match e with
  | EStr s => if forallb uri_safe_byte s then inl s else inr NotUriSafe
  | _ => inr ExpectedStr
  end.

(** ** field.rs *)

(** field.rs:16-25 [FieldMeta]. *)
Record FieldMeta := {
  fm_encoded : bool;
  fm_fmt : option bytes;
  fm_option : option bool;
  fm_rename : option bytes;
  fm_skip : bool;
  fm_skip_if : option bytes;
}.
Definition FieldMeta_default : FieldMeta := {|
  fm_encoded := false; fm_fmt := None; fm_option := None; fm_rename := None; fm_skip := false; fm_skip_if := None |}.

(** [Result::map] on one side; helper. *)
Definition on {A B} (f : A -> B) (x : A + error) : B + error :=
  match x with inl a => inl (f a) | inr e => inr e end.

(** meta.rs:49-57, 127-145 [add_meta] for [FieldMeta]. *)
Definition FieldMeta_add (m : FieldMeta) (meta : Meta) : FieldMeta + error :=
  let kind := mt_kind meta in
  match get_ident (mt_path meta) with
  | None => inr (UnknownAttribute (match mt_path meta with PLong t => t | PIdent i => ident_to_string i end))
  | Some i =>
      let name := ident_to_string i in
      if bseqb name (lit "encoded") then
        on (fun v => {| fm_encoded := v; fm_fmt := fm_fmt m; fm_option := fm_option m; fm_rename := fm_rename m;
                        fm_skip := fm_skip m; fm_skip_if := fm_skip_if m |})
           (add_word (lit "encoded") kind (fm_encoded m))
      else if bseqb name (lit "fmt") then
        on (fun v => {| fm_encoded := fm_encoded m; fm_fmt := v; fm_option := fm_option m; fm_rename := fm_rename m;
                        fm_skip := fm_skip m; fm_skip_if := fm_skip_if m |})
           (add_value path_from_expr (lit "fmt") kind (fm_fmt m))
      else if bseqb name (lit "option") then
        on (fun v => {| fm_encoded := fm_encoded m; fm_fmt := fm_fmt m; fm_option := v; fm_rename := fm_rename m;
                        fm_skip := fm_skip m; fm_skip_if := fm_skip_if m |})
           (add_value bool_from_expr (lit "option") kind (fm_option m))
      else if bseqb name (lit "rename") then
        on (fun v => {| fm_encoded := fm_encoded m; fm_fmt := fm_fmt m; fm_option := fm_option m; fm_rename := v;
                        fm_skip := fm_skip m; fm_skip_if := fm_skip_if m |})
           (add_value uri_safe_from_expr (lit "rename") kind (fm_rename m))
      else if bseqb name (lit "skip") then
        on (fun v => {| fm_encoded := fm_encoded m; fm_fmt := fm_fmt m; fm_option := fm_option m; fm_rename := fm_rename m;
                        fm_skip := v; fm_skip_if := fm_skip_if m |})
           (add_word (lit "skip") kind (fm_skip m))
      else if bseqb name (lit "skip_if") then
        on (fun v => {| fm_encoded := fm_encoded m; fm_fmt := fm_fmt m; fm_option := fm_option m; fm_rename := fm_rename m;
                        fm_skip := fm_skip m; fm_skip_if := v |})
           (add_value path_from_expr (lit "skip_if") kind (fm_skip_if m))
      else inr (UnknownAttribute name)
  end.

(** container.rs:3-7 [ContainerMeta], and its [add_meta]. *)
Definition ContainerMeta := option bytes.
Definition ContainerMeta_add (m : ContainerMeta) (meta : Meta) : ContainerMeta + error :=
  match get_ident (mt_path meta) with
  | None => inr (UnknownAttribute (match mt_path meta with PLong t => t | PIdent i => ident_to_string i end))
  | Some i =>
      let name := ident_to_string i in
      if bseqb name (lit "crate") then add_value path_from_expr (lit "crate") (mt_kind meta) m
      else inr (UnknownAttribute name)
  end.

(** field.rs:10-14 *)
Record Field := { fd_ident : ident; fd_ty : ty; fd_meta : FieldMeta }.

(** field.rs:33-41 [Field::new]. *)
Definition Field_new (sy : syn) (f : syn_field) (cx : Ctxt) : Field * Ctxt :=
  let '(meta, cx) := meta_new sy FieldMeta_default FieldMeta_add (sf_attrs f) cx in
  ({| fd_ident := unraw (sf_ident f); fd_ty := sf_ty f; fd_meta := meta |}, cx).

(** field.rs:44-50 [name] and 63-68 [string_value]. *)
Definition Field_name (f : Field) : bytes :=
  match fm_rename (fd_meta f) with
  | Some name => name
  | None => ident_to_string (fd_ident f)
  end.

(** ** method_body.rs *)

(** The generated statements.  [vexpr] is the expression bound to [tmp] (method_body.rs:79-83): the
    variable bound by [if let Some(value)], or [&self.field]. *)
Inductive vexpr := VBind | VField (i : ident).

(** The statements that method_body.rs:44-181 generates. *)
Inductive stmt :=
  | SOAuth (method : bytes)                                                (** [ser.method();] *)
  | SSerialize (method key : bytes) (fmt : option bytes) (tmp : vexpr)
      (** [let fmt = ..; let tmp = ..; ser.method(key, helper.fmt(fmt, tmp));], or
          [let tmp = ..; ser.method(key, tmp);] *)
  | SIfNot (skip_if : bytes) (tmp : vexpr) (body : stmt)                   (** [if !skip_if({ let tmp = ..; tmp }) { .. }] *)
  | SIfSome (field : ident) (body : stmt)                                  (** [if let Some(value) = self.field.as_ref() { .. }] *)
  | SBlock (body : stmt).                                                  (** [{ .. }] *)

(** util.rs:9-22 [serialize_method_name]. *)
Definition serialize_method_name (p : OAuthParameter) : option bytes :=
  match p with
  | Callback => Some (lit "serialize_oauth_callback")
  | ConsumerKey => Some (lit "serialize_oauth_consumer_key")
  | Nonce => Some (lit "serialize_oauth_nonce")
  | SignatureMethod_ => Some (lit "serialize_oauth_signature_method")
  | Timestamp => Some (lit "serialize_oauth_timestamp")
  | Token_ => Some (lit "serialize_oauth_token")
  | Verifier => Some (lit "serialize_oauth_verifier")
  | Version => Some (lit "serialize_oauth_version")
  | None_ => None
  end.

(** util.rs:24-32 [to_tokens], as the statement it is used in. *)
Definition oauth_stmt (p : OAuthParameter) : res stmt :=
  match serialize_method_name p with
  | Some m => Ok (SOAuth m)
  | None => Panic POAuthNone
  end.

(** method_body.rs:66-71 *)
Fixpoint body_before (dbg : bool) (fuel : nat) (name : bytes) (p : OAuthParameter) : res (OAuthParameter * list stmt) :=
  if op_lt p name then
    match fuel with
    | O => Panic PFuel
    | S fuel' =>
        st <- oauth_stmt p ;;
        p <- next dbg p ;;
        '(p, rest) <- body_before dbg fuel' name p ;;
        Ok (p, st :: rest)
    end
  else Ok (p, []).

(** method_body.rs:165-170 *)
Fixpoint body_rest (dbg : bool) (fuel : nat) (p : OAuthParameter) : res (list stmt) :=
  if is_none_ p then Ok []
  else
    match fuel with
    | O => Panic PFuel
    | S fuel' =>
        st <- oauth_stmt p ;;
        p <- next dbg p ;;
        rest <- body_rest dbg fuel' p ;;
        Ok (st :: rest)
    end.

(** method_body.rs:178-202 [is_option]. *)
Fixpoint is_option (t : ty) : bool :=
  match t with
  | TyGroup t => is_option t
  | TyPath leading_colon [(i, args)] =>
      negb leading_colon && bseqb (ident_to_string i) (lit "Option")
      && match args with ArgAngle n => Nat.eqb n 1 | _ => false end
  | _ => false
  end.

(** method_body.rs:73-78 [ty_is_option]. *)
Definition ty_is_option (f : Field) : bool :=
  match fm_option (fd_meta f) with
  | Some b => b
  | None => is_option (fd_ty f)
  end.

(** method_body.rs:79-162: the statement for a field. *)
Definition field_stmt (f : Field) : stmt :=
  let opt := ty_is_option f in
  let unwrapped := if opt then VBind else VField (fd_ident f) in
  let method := if fm_encoded (fd_meta f) then lit "serialize_parameter_encoded" else lit "serialize_parameter" in
  let stmts := SSerialize method (Field_name f) (fm_fmt (fd_meta f)) unwrapped in
  let stmts := match fm_skip_if (fd_meta f) with
               | Some skip_if => SIfNot skip_if unwrapped stmts
               | None => stmts
               end in
  let stmts := if opt then SIfSome (fd_ident f) stmts else stmts in
  match fm_skip_if (fd_meta f) with
  | None => if opt then stmts else SBlock stmts
  | Some _ => stmts
  end.

(** method_body.rs:54-163, the loop. *)
Fixpoint body_loop (dbg : bool) (fields : list Field) (p : OAuthParameter) : res (OAuthParameter * list stmt) :=
  match fields with
  | [] => Ok (p, [])
  | f :: fields' =>
      if fm_skip (fd_meta f) then body_loop dbg fields' p
      else
        '(p, before) <- body_before dbg 9 (Field_name f) p ;;
        '(p, rest) <- body_loop dbg fields' p ;;
        Ok (p, before ++ field_stmt f :: rest)
  end.

(** method_body.rs:24-174 [to_tokens]; the final [ser.end()] is in [exec_body]. *)
Definition method_body (dbg : bool) (fields : list Field) : res (list stmt) :=
  '(p, stmts) <- body_loop dbg fields OAuthParameter_default ;;
  rest <- body_rest dbg 9 p ;;
  Ok (stmts ++ rest).

(** ** lib.rs *)

(** [slice::sort_by_cached_key] (std: a stable sort by the key, here in byte order).
    (lib.rs:80) *)
Fixpoint insert_field (f : Field) (l : list Field) : list Field :=
  match l with
  | [] => [f]
  | g :: l' => if bleb (Field_name f) (Field_name g) then f :: l else g :: insert_field f l'
  end.
(** lib.rs:80 *)
Fixpoint sort_fields (l : list Field) : list Field :=
  match l with
  | [] => []
  | f :: l' => insert_field f (sort_fields l')
  end.

(** lib.rs:75-79: [map(|f| Field::new(f, &mut cx)).collect()]. *)
Fixpoint new_fields (sy : syn) (l : list syn_field) (cx : Ctxt) : list Field * Ctxt :=
  match l with
  | [] => ([], cx)
  | f :: l' =>
      let '(f, cx) := Field_new sy f cx in
      let '(fs, cx) := new_fields sy l' cx in
      (f :: fs, cx)
  end.

(** lib.rs:82-89 *)
Fixpoint check_names (prev_name : bytes) (fields : list Field) (cx : Ctxt) : Ctxt :=
  match fields with
  | [] => cx
  | f :: fields' =>
      let name := Field_name f in
      let cx := if bseqb name prev_name then add_error cx (DuplicateParameter name) else cx in
      check_names name fields' cx
  end.

(** [proc_macro_crate::crate_name("oauth1-request")], external: the name of the crate in Cargo.toml, the crate
    itself, no Cargo, or any other error.
    (lib.rs:98-112) *)
Inductive crate_lookup := FoundName (name : bytes) | FoundItself | ManifestDirNotSet | LookupError.

(** What comes of it: the name to be used, a reported error, or a panic.
    (lib.rs:98-114) *)
Inductive found_crate := CrateName (name : bytes) | CrateError | CratePanic.

(** lib.rs:98-113; [var] is the environment variable [CARGO_CRATE_NAME].  Cargo's names are identifiers, so that
    [Ident::new] in line 114 does not panic. *)
Definition find_crate (lookup : crate_lookup) (var : option bytes) : found_crate :=
  match lookup with
  | FoundName k => CrateName k
  | FoundItself => match var with Some k => CrateName k | None => CratePanic end
  | ManifestDirNotSet => CrateName (lit "oauth1_request")
  | LookupError => CrateError
  end.

(** The generated [use path as _] or [extern crate name as _].
    (lib.rs:93-121) *)
Inductive crate_ref := UsePath (p : bytes) | ExternCrate (name : bytes).

(** What the macro returns: the error messages or the implementation (lib.rs:122-160). *)
Inductive expansion :=
  | OnlyErrors (es : list error)
  | Fallback (es : list error) (krate : crate_ref)      (** the errors and an [unimplemented!()] impl *)
  | Impl (krate : crate_ref) (body : list stmt).

(** lib.rs:54-165 [expand_derive_oauth1_authorize]. *)
Definition expand (sy : syn) (dbg : bool) (found : found_crate) (input : derive_input) : res expansion :=
  match di_data input with
  | OtherData => Ok (OnlyErrors [ExpectedNamedFields])
  | NamedFields fields =>
      let '(fields, cx) := new_fields sy fields Ctxt_new in
      let fields := sort_fields fields in
      let cx := check_names [] fields cx in
      let '(meta, cx) := meta_new sy None ContainerMeta_add (di_attrs input) cx in
      '(krate, cx) <-
        match meta with
        | Some p => Ok (UsePath p, cx)
        | None =>
            match found with
            | CrateName k => Ok (ExternCrate k, cx)
            | CrateError => Ok (ExternCrate (lit "oauth1_request"), add_error cx CrateNotFound)
            | CratePanic => Panic PCrateName
            end
        end ;;
      match cx with
      | Some es => Ok (Fallback es krate)
      | None =>
          body <- method_body dbg fields ;;
          Ok (Impl krate body)
      end
  end.

(** ** Running the generated code *)

(** Reserved words of Rust 2018 (an identifier spelt so must be raw).
    Needed for [self.ident], method_body.rs:83. *)
Definition keywords : list bytes := map lit
  ["as"; "break"; "const"; "continue"; "crate"; "else"; "enum"; "extern"; "false"; "fn"; "for"; "if"; "impl"; "in";
   "let"; "loop"; "match"; "mod"; "move"; "mut"; "pub"; "ref"; "return"; "self"; "Self"; "static"; "struct"; "super";
   "trait"; "true"; "type"; "unsafe"; "use"; "where"; "while"; "async"; "await"; "dyn"; "abstract"; "become"; "box";
   "do"; "final"; "macro"; "override"; "priv"; "typeof"; "unsized"; "virtual"; "yield"; "try"]%string.
(** As above, method_body.rs:83. *)
Definition is_keyword (t : bytes) : bool := existsb (bseqb t) keywords.

(** The program around the struct: what its values are ([V]), how they are displayed, what the paths
    in attributes refer to, and which values are [Option]s.
    (method_body.rs:44-181) *)
Record program (V : Type) := {
  pg_display : V -> disp;
  pg_fmt : bytes -> option (V -> disp);
  pg_skip_if : bytes -> option (V -> res bool);
  pg_option : V -> option (option V);
}.
Arguments pg_display {V} _ _.
Arguments pg_fmt {V} _ _.
Arguments pg_skip_if {V} _ _.
Arguments pg_option {V} _ _.

(** A struct value: the values of its fields.
    (method_body.rs:83) *)
Definition struct_value (V : Type) := bytes -> option V.

(** [&self.i]: a syntax error for a reserved word, an unknown field otherwise.
    (method_body.rs:83) *)
Definition field_access {V} (self : struct_value V) (i : ident) : option V :=
  if negb (id_raw i) && is_keyword (id_text i) then None else self (id_text i).

(** The value [tmp] of method_body.rs:80-96. *)
Definition eval_v {V} (self : struct_value V) (bind : option V) (e : vexpr) : option V :=
  match e with VBind => bind | VField i => field_access self i end.

(** The serializer methods by name.
    (method_body.rs:67-71, util.rs:12-32) *)
Definition oauth_method {S : Serializer} (m : bytes) : option (S -> res S) :=
  if bseqb m (lit "serialize_oauth_callback") then Some sr_oauth_callback
  else if bseqb m (lit "serialize_oauth_consumer_key") then Some sr_oauth_consumer_key
  else if bseqb m (lit "serialize_oauth_nonce") then Some sr_oauth_nonce
  else if bseqb m (lit "serialize_oauth_signature_method") then Some sr_oauth_signature_method
  else if bseqb m (lit "serialize_oauth_timestamp") then Some sr_oauth_timestamp
  else if bseqb m (lit "serialize_oauth_token") then Some sr_oauth_token
  else if bseqb m (lit "serialize_oauth_verifier") then Some sr_oauth_verifier
  else if bseqb m (lit "serialize_oauth_version") then Some sr_oauth_version
  else None.
(** method_body.rs:116-131 *)
Definition parameter_method {S : Serializer} (m : bytes) : option (S -> bytes -> disp -> res S) :=
  if bseqb m (lit "serialize_parameter") then Some sr_parameter
  else if bseqb m (lit "serialize_parameter_encoded") then Some sr_parameter_encoded
  else None.

(** Running a statement; [None] means that the program does not compile.  Names and types are only
    checked along the execution, which accepts more programs than the compiler.
    (method_body.rs:44-181) *)
Fixpoint exec {V} (pg : program V) (self : struct_value V) (st : stmt) (bind : option V) {S : Serializer} (s : S)
  : option (res S) :=
  match st with
  | SOAuth m => option_map (fun f => f s) (oauth_method m)
  | SSerialize m key fmt tmp =>
      match parameter_method m, eval_v self bind tmp with
      | Some f, Some v =>
          match fmt with
          | None => Some (f s key (pg_display pg v))
          | Some p => option_map (fun g => f s key (g v)) (pg_fmt pg p)
          end
      | _, _ => None
      end
  | SIfNot p tmp body =>
      match pg_skip_if pg p, eval_v self bind tmp with
      | Some g, Some v =>
          match exec pg self body bind s with
          | None => None
          | Some r => Some (b <- g v ;; if negb b then r else Ok s)
          end
      | _, _ => None
      end
  | SIfSome i body =>
      match field_access self i with
      | None => None
      | Some v =>
          match pg_option pg v with
          | None => None
          | Some None => Some (Ok s)
          | Some (Some x) => exec pg self body (Some x) s
          end
      end
  | SBlock body => exec pg self body bind s
  end.

(** A sequence of statements (method_body.rs:44-181). *)
Fixpoint exec_all {V} (pg : program V) (self : struct_value V) (l : list stmt) {S : Serializer} (s : S) : option (res S) :=
  match l with
  | [] => Some (Ok s)
  | st :: l' =>
      match exec pg self st None s with
      | None => None
      | Some (Panic e) => Some (Panic e)
      | Some (Ok s) => exec_all pg self l' s
      end
  end.

(** [serialize] of the generated implementation: the statements, then [serializer.end()].
    (method_body.rs:177-181) *)
Definition exec_body {V} (pg : program V) (self : struct_value V) (body : list stmt) (S : Serializer) (s : S)
  : option (res (sr_out S)) :=
  option_map (fun r => s <- r ;; sr_end s) (exec_all pg self body s).
