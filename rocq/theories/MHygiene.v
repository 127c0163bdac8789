(** Model of the names in the generated code of the derive macro and of how they are resolved:
    oauth1-request-derive/src/{lib, method_body, method_body/helper}.rs again, with identifiers.
    MDerive.v has the same code with every name replaced by what it is meant to refer to. *)
From Coq Require Import String.
From Verif Require Import Bytes MFmt MPercent MSerializer MRequest MDerive.

(** ** Identifiers *)

(** The two kinds of spans: [quote!] and tokens of the user resolve at the call site, [mixed_site]
    hides local variables (and only these) from it.  A struct whose tokens come from several macros
    is not considered.
    (method_body.rs:25-29, 64; lib.rs:114, 146) *)
Inductive site := CallSite | MixedSite.
(** An identifier with its span (method_body.rs:25-29, 64). *)
Record name := { nm_text : bytes; nm_site : site }.
(** Equality of spans. *)
Definition site_eqb (a b : site) : bool :=
  match a, b with CallSite, CallSite | MixedSite, MixedSite => true | _, _ => false end.
(** Local variables are the same if text and site are.
    Equality of identifiers with spans. *)
Definition name_eqb (a b : name) : bool := bseqb (nm_text a) (nm_text b) && site_eqb (nm_site a) (nm_site b).

(** An identifier of [quote!] (method_body.rs:44-181). *)
Definition at_call (t : bytes) : name := {| nm_text := t; nm_site := CallSite |}.
(** An identifier with [Span::mixed_site()] (method_body.rs:25-29). *)
Definition at_mixed (t : bytes) : name := {| nm_text := t; nm_site := MixedSite |}.

(** ** The generated code *)

(** Expressions.  [GUser] is a path from an attribute, with the user's tokens.
    (method_body.rs:80-150) *)
Inductive gexpr :=
  | GName (n : name)
  | GStr (s : bytes)
  | GUser (path : bytes)
  | GRefField (self : name) (i : ident)                      (** [&self.i] *)
  | GMethod0 (recv : name) (m : bytes)
  | GMethod1 (recv : name) (m : bytes) (a : gexpr)
  | GMethod2 (recv : name) (m : bytes) (a b : gexpr)
  | GApply (f a : gexpr)
  | GNot (e : gexpr)
  | GBlock (x : name) (e body : gexpr)                       (** [{ let x = e; body }] *)
  | GAsRef (e : gexpr)                                       (** [::core::option::Option::as_ref(e)] *)
  | GHelper (fmt skip_if : bool).                            (** [{ struct DeriveRequestAssertion; ..; DeriveRequestAssertion }] *)

(** Statements, each with what follows it in its block.
    (method_body.rs:44-181) *)
Inductive code :=
  | CDone
  | CLet (x : name) (e : gexpr) (k : code)
  | CExpr (e : gexpr) (k : code)
  | CIf (cond : gexpr) (body k : code)
  | CIfSome (x : name) (e : gexpr) (body k : code)           (** [if let ::core::option::Option::Some(x) = e { .. }] *)
  | CBlock (body k : code).

(** method_body.rs:26-30 *)
Definition this : name := at_mixed (lit "self").
Definition ser : name := at_mixed (lit "serializer").
Definition helper : name := at_mixed (lit "helper").
Definition bind : name := at_mixed (lit "value").

(** method_body.rs:60-168, the statements for a field, followed by [k].  The span of [tmp] is that of
    the field's type. *)
Definition field_code (f : Field) (k : code) : code :=
  let tmp := at_call (lit "tmp") in                                                           (* l.64 *)
  let fmt_ := at_mixed (lit "fmt") in
  let opt := ty_is_option f in
  let unwrapped := if opt then GName bind else GRefField this (fd_ident f) in               (* l.80-84 *)
  let display := match fm_fmt (fd_meta f) with
                 | Some _ => GMethod2 helper (lit "fmt") (GName fmt_) (GName tmp)            (* l.109-111 *)
                 | None => GName tmp                                                        (* l.113 *)
                 end in
  let method := if fm_encoded (fd_meta f) then lit "serialize_parameter_encoded"
                else lit "serialize_parameter" in                                           (* l.116-130 *)
  let stmts := CLet tmp unwrapped (CExpr (GMethod2 ser method (GStr (Field_name f)) display) CDone) in (* l.96, 131 *)
  let stmts := match fm_fmt (fd_meta f) with
               | Some fmt => CLet fmt_ (GMethod1 helper (lit "fmt_impls_fn") (GUser fmt)) stmts  (* l.100-108 *)
               | None => stmts
               end in
  let conditional k := match fm_skip_if (fd_meta f) with                                    (* l.133-150 *)
                       | Some skip_if =>
                           CIf (GNot (GApply (GMethod1 helper (lit "skip_if_impls_fn") (GUser skip_if))
                                             (GBlock tmp unwrapped (GName tmp)))) stmts k
                       | None => CBlock stmts k                                             (* l.164-166 *)
                       end in
  if opt then
    CIfSome bind (GBlock tmp (GRefField this (fd_ident f)) (GAsRef (GName tmp)))             (* l.152-161 *)
      (match fm_skip_if (fd_meta f) with Some _ => conditional CDone | None => stmts end) k
  else conditional k.

(** [ser.method();] (method_body.rs:67-69, 172-174); the methods are those of [oauth_stmt]. *)
Fixpoint oauth_code (l : list stmt) (k : code) : code :=
  match l with
  | SOAuth m :: l' => CExpr (GMethod0 ser m) (oauth_code l' k)
  | _ :: l' => oauth_code l' k
  | [] => k
  end.

(** method_body.rs:54-177, the loop and what follows it; the final [ser.end()] is left to
    [exec_body], as in MDerive.v. *)
Fixpoint code_loop (dbg : bool) (fields : list Field) (p : OAuthParameter) : res code :=
  match fields with
  | [] => rest <- body_rest dbg 9 p ;; Ok (oauth_code rest CDone)
  | f :: fields' =>
      if fm_skip (fd_meta f) then code_loop dbg fields' p
      else
        '(p, before) <- body_before dbg 9 (Field_name f) p ;;
        k <- code_loop dbg fields' p ;;
        Ok (oauth_code before (field_code f k))
  end.

(** [Option::is_some]; helper. *)
Definition some_p {A} (o : option A) : bool := match o with Some _ => true | None => false end.

(** method_body.rs:24-176 [to_tokens]. *)
Definition method_code (dbg : bool) (fields : list Field) : res code :=
  let has_fmt := existsb (fun f => some_p (fm_fmt (fd_meta f))) fields in
  let has_skip_if := existsb (fun f => some_p (fm_skip_if (fd_meta f))) fields in
  k <- code_loop dbg fields OAuthParameter_default ;;
  Ok (if has_fmt || has_skip_if then CLet helper (GHelper has_fmt has_skip_if) k else k).

(** ** The program around the struct *)

(** The names that a path of an attribute uses (method_body.rs:98-136). *)
Record path_names := {
  pn_value : option bytes;     (** the path, if it is a single segment and so names a value *)
  pn_types : list bytes;       (** the names that it uses as types or modules: first segments, in arguments too *)
}.

(** How a method takes the value it is called on.
    (method_body.rs:67-69, 131; helper.rs:1-98) *)
Inductive self_kind := ByValue | ByRef | ByMut.

(** A method of a trait that is in scope at the struct (other than [Serializer]'s own), together with the types that have it.
    (method_body.rs:67-69, 131) *)
Record trait_method := {
  tm_name : bytes;
  tm_self : self_kind;         (** [self], [&self] or [&mut self]; an implementation for all [&T] that takes [self] is [ByRef] here *)
  tm_serializers : bool;       (** every type that implements [Serializer] has it *)
  tm_fresh : bool;             (** a new unit struct has it *)
}.

(** What is visible where the struct stands (call site, method_body.rs:41-43). *)
Record scope := {
  sc_value : bytes -> bool;    (** constants, statics, constant parameters, and constructors of unit and tuple structs
                                   and variants, that are visible under this name: what a binding may not shadow *)
  sc_type : bytes -> bool;     (** types, traits and modules other than those of Rust's prelude *)
  sc_struct : bytes;           (** the name of the struct *)
  sc_params : list bytes;      (** its type and constant parameters *)
  sc_mentions : list bytes;    (** the names used as types or modules in their bounds and in the where clause *)
  sc_path : bytes -> path_names;
  sc_methods : list trait_method;
}.

(** Membership; helper. *)
Definition mem (x : bytes) (l : list bytes) : bool := existsb (bseqb x) l.

(** A type of this name at the struct is not the one that Rust's prelude has.
    (helper.rs:30-98) *)
Definition user_type (sc : scope) (x : bytes) : bool := sc_type sc x || mem x (sc_params sc).

(** ** Name resolution *)

(** What an expression stands for.
    (method_body.rs:25-64) *)
Inductive sym :=
  | YSelf
  | YSer
  | YHelper (fmt skip_if : bool)
  | YStr (s : bytes)
  | YPath (p : bytes)                      (** what the path refers to where the struct is *)
  | YFmtFn (p : bytes)
  | YSkipFn (p : bytes)
  | YRef (v : vexpr)
  | YAsRef (i : ident)                     (** the [Option] of a reference to what is in the field *)
  | YFmt (p : bytes) (v : vexpr)           (** [Fmt(v, p)] *)
  | YSkip (p : bytes) (v : vexpr)
  | YNotSkip (p : bytes) (v : vexpr)
  | YOAuth (m : bytes)
  | YSerialize (m key : bytes) (fmt : option bytes) (v : vexpr).

(** The scope inside of the generated code: local variables, and the types, modules and values that
    the generated code itself defines (they resolve at the call site, so the user's paths see them).
    (method_body.rs:41-64) *)
Record context := { cx_locals : list (name * sym); cx_types : list bytes; cx_values : list bytes }.

(** The innermost local variable of this name and span. *)
Fixpoint lookup (l : list (name * sym)) (n : name) : option sym :=
  match l with
  | [] => None
  | (m, v) :: l' => if name_eqb m n then Some v else lookup l' n
  end.
(** A new local variable ([let] of method_body.rs:45, 96, 106). *)
Definition push (x : name) (v : sym) (cx : context) : context :=
  {| cx_locals := (x, v) :: cx_locals cx; cx_types := cx_types cx; cx_values := cx_values cx |}.

(** A path of the user means what it means at the struct unless the generated code captures a name.
    (method_body.rs:98-136) *)
Definition resolve_path (sc : scope) (cx : context) (p : bytes) : option sym :=
  let pn := sc_path sc p in
  match pn_value pn with
  | Some x => if some_p (lookup (cx_locals cx) (at_call x)) || mem x (cx_values cx) then None
              else if existsb (fun t => mem t (cx_types cx)) (pn_types pn) then None else Some (YPath p)
  | None => if existsb (fun t => mem t (cx_types cx)) (pn_types pn) then None else Some (YPath p)
  end.

(** An identifier pattern binds a variable unless a constant or the like is visible; that is looked up
    at the call site in both kinds of spans.
    (method_body.rs:45, 96, 106) *)
Definition bindable (sc : scope) (x : name) : bool := negb (sc_value sc (nm_text x)).

(** helper.rs:39-83: parameters of the helper's functions, and types that it names without a path. *)
Definition helper_binds (fmt skip_if : bool) : list bytes := lit "f" :: if fmt then [lit "t"] else [].
Definition helper_types (fmt skip_if : bool) : list bytes :=
  (if fmt then [lit "Copy"; lit "Fn"; lit "Sized"] else [])
  ++ if skip_if then [lit "Fn"; lit "Sized"; lit "bool"] else [].

(** Method calls on a local variable that is not a reference: the method is looked for among those that take the value, then
    a shared reference to it, then a mutable one; each time first among the methods of the type itself (for a type parameter:
    of the traits in its bounds), then among those of the traits in scope.
    Equality; helper. *)
Definition kind_eqb (a b : self_kind) : bool :=
  match a, b with ByValue, ByValue | ByRef, ByRef | ByMut, ByMut => true | _, _ => false end.
(** Method lookup as described above. *)
Fixpoint probe (steps : list self_kind) (own : option self_kind) (others : list self_kind) : bool :=
  match steps with
  | [] => false
  | k :: steps' =>
      if match own with Some o => kind_eqb o k | None => false end then true
      else if existsb (kind_eqb k) others then false
      else probe steps' own others
  end.
(** Method lookup as described above. *)
Definition finds (own : option self_kind) (others : list self_kind) : bool := probe [ByValue; ByRef; ByMut] own others.
(** The methods of that name from other traits. *)
Definition others (sc : scope) (has : trait_method -> bool) (m : bytes) : list self_kind :=
  map tm_self (filter (fun t => has t && bseqb (tm_name t) m) (sc_methods sc)).

(** serializer.rs:111-168, the methods of [Serializer]. *)
Definition serializer_method (m : bytes) : option self_kind :=
  if bseqb m (lit "end") then Some ByValue
  else if mem m (lit "serialize_parameter" :: lit "serialize_parameter_encoded"
                 :: map (fun n => lit "serialize_oauth_" ++ n)
                      [lit "callback"; lit "consumer_key"; lit "nonce"; lit "signature_method"; lit "timestamp"; lit "token"; lit "verifier"; lit "version"])
  then Some ByMut else None.
(** helper.rs:54-68 and 74-79. *)
Definition helper_method (fmt skip_if : bool) (m : bytes) : option self_kind :=
  if (bseqb m (lit "fmt") || bseqb m (lit "fmt_impls_fn")) && fmt then Some ByRef
  else if bseqb m (lit "skip_if_impls_fn") && skip_if then Some ByRef else None.

(** Does [serializer.m(..)] call [Serializer]'s method, and [helper.m(..)] the helper's?
    (method_body.rs:67-69, 131) *)
Definition calls_serializer (sc : scope) (m : bytes) : bool := finds (serializer_method m) (others sc tm_serializers m).
(** method_body.rs:100-111, 134-150 *)
Definition calls_helper (sc : scope) (fmt skip_if : bool) (m : bytes) : bool :=
  finds (helper_method fmt skip_if m) (others sc tm_fresh m).

(** What an expression of method_body.rs:80-150 stands for. *)
Fixpoint eval (sc : scope) (cx : context) (e : gexpr) : option sym :=
  match e with
  | GName n => lookup (cx_locals cx) n
  | GStr s => Some (YStr s)
  | GUser p => resolve_path sc cx p
  | GRefField self i =>
      match lookup (cx_locals cx) self with
      | Some YSelf => Some (YRef (VField i))
      | _ => None
      end
  | GMethod0 recv m =>
      match lookup (cx_locals cx) recv with
      | Some YSer => if calls_serializer sc m then Some (YOAuth m) else None
      | _ => None
      end
  | GMethod1 recv m a =>
      match lookup (cx_locals cx) recv, eval sc cx a with
      | Some (YHelper fmt skip_if), Some (YPath p) =>
          if calls_helper sc fmt skip_if m then
            if bseqb m (lit "fmt_impls_fn") then Some (YFmtFn p)
            else if bseqb m (lit "skip_if_impls_fn") then Some (YSkipFn p)
            else None
          else None
      | _, _ => None
      end
  | GMethod2 recv m a b =>
      match lookup (cx_locals cx) recv, eval sc cx a, eval sc cx b with
      | Some (YHelper fmt skip_if), Some (YFmtFn p), Some (YRef v) =>
          if calls_helper sc fmt skip_if m && bseqb m (lit "fmt") then Some (YFmt p v) else None
      | Some YSer, Some (YStr key), Some (YRef v) => if calls_serializer sc m then Some (YSerialize m key None v) else None
      | Some YSer, Some (YStr key), Some (YFmt p v) => if calls_serializer sc m then Some (YSerialize m key (Some p) v) else None
      | _, _, _ => None
      end
  | GApply f a =>
      match eval sc cx f, eval sc cx a with
      | Some (YSkipFn p), Some (YRef v) => Some (YSkip p v)
      | _, _ => None
      end
  | GNot e =>
      match eval sc cx e with
      | Some (YSkip p v) => Some (YNotSkip p v)
      | _ => None
      end
  | GBlock x e body =>
      match eval sc cx e with
      | Some v => if bindable sc x then eval sc (push x v cx) body else None
      | None => None
      end
  | GAsRef e =>
      match eval sc cx e with
      | Some (YRef (VField i)) => Some (YAsRef i)
      | _ => None
      end
  | GHelper fmt skip_if =>
      if forallb (fun x => bindable sc (at_call x)) (helper_binds fmt skip_if)
         && forallb (fun t => negb (user_type sc t)) (helper_types fmt skip_if)
      then Some (YHelper fmt skip_if) else None
  end.

(** The statements with their names resolved, as in MDerive.v; [None] if a name does not refer to what
    it was meant to.
    (method_body.rs:44-181) *)
Fixpoint elab (sc : scope) (cx : context) (c : code) : option (list stmt) :=
  match c with
  | CDone => Some []
  | CLet x e k =>
      match eval sc cx e with
      | Some v => if bindable sc x then elab sc (push x v cx) k else None
      | None => None
      end
  | CExpr e k =>
      match eval sc cx e, elab sc cx k with
      | Some (YOAuth m), Some l => Some (SOAuth m :: l)
      | Some (YSerialize m key fmt v), Some l => Some (SSerialize m key fmt v :: l)
      | _, _ => None
      end
  | CIf cond body k =>
      match eval sc cx cond, elab sc cx body, elab sc cx k with
      | Some (YNotSkip p v), Some [st], Some l => Some (SIfNot p v st :: l)
      | _, _, _ => None
      end
  | CIfSome x e body k =>
      match eval sc cx e with
      | Some (YAsRef i) =>
          if bindable sc x then
            match elab sc (push x (YRef VBind) cx) body, elab sc cx k with
            | Some [st], Some l => Some (SIfSome i st :: l)
            | _, _ => None
            end
          else None
      | _ => None
      end
  | CBlock body k =>
      match elab sc cx body, elab sc cx k with
      | Some [st], Some l => Some (SBlock st :: l)
      | _, _ => None
      end
  end.

(** lib.rs:142-164: the implementation, in a block where [_oauth1_request] names the crate, and its
    method with the type parameter [_S] and the parameters [self] and [serializer]; method_body.rs:176-178: [serializer.end()]. *)
Definition elab_impl (sc : scope) (body : code) : option (list stmt) :=
  if mem (lit "_oauth1_request") (sc_struct sc :: sc_params sc ++ sc_mentions sc) then None
  else if mem (lit "_S") (sc_params sc) then None
  else if bindable sc ser && calls_serializer sc (lit "end") then
    elab sc {| cx_locals := [(this, YSelf); (ser, YSer)];
               cx_types := [lit "_S"; lit "_oauth1_request"]; cx_values := [] |} body
  else None.

(** lib.rs:54-165 [expand_derive_oauth1_authorize] for a struct without errors, with names resolved.
    (The path in a [crate] attribute is not looked at: it is used once, at the start of the block.) *)
Definition expand_names (sy : syn) (dbg : bool) (sc : scope) (input : derive_input) : res (option (list stmt)) :=
  match di_data input with
  | OtherData => Ok None
  | NamedFields fields =>
      let fields := sort_fields (fst (new_fields sy fields Ctxt_new)) in
      body <- method_code dbg fields ;;
      Ok (elab_impl sc body)
  end.
