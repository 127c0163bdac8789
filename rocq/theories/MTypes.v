(** Type checking of the code generated by the derive macro, and its generic parameters
    (oauth1-request-derive/src/lib.rs:117-118 and 141-173, method_body.rs:53-173, method_body/helper.rs).

    Simplifications: a type has at most one type argument that matters; a function named in an attribute is
    described by the types whose references it can be called with; names are resolved beforehand: a
    parameter called [_S] and similar clashes with generated names are the subject of MHygiene.v. *)
From Coq Require Import String.
From Verif Require Import Bytes MFmt MSerializer MDerive.

(** Types after name resolution: a type parameter of the struct (by its position among the generic
    parameters), a type without arguments, one with an argument, and [core::option::Option].
    (method_body.rs:96, 137-150) *)
Inductive rty :=
  | RParam (i : nat)
  | RCon (name : bytes)
  | RApp (name : bytes) (arg : rty)
  | ROption (arg : rty).

(** How a type with an argument implements [Display].
    (method_body.rs:131) *)
Inductive display_rule := Never | Always | IfArg.

(** The program around the struct: the [Display] implementations, and the functions in scope with the
    types whose references they accept ([None]: the path is not the name of anything).  A function with
    another number of arguments, arguments by value or another result accepts nothing, and neither does
    anything that is not a function.
    (method_body.rs:98-150) *)
Record tworld := {
  tw_display0 : bytes -> bool;
  tw_display1 : bytes -> display_rule;
  tw_fmt : bytes -> option (rty -> bool);
  tw_skip_if : bytes -> option (rty -> bool);
}.

(** [t : Display], where the type parameters in [env] are known to be.
    (method_body.rs:116-131) *)
Fixpoint displays (tw : tworld) (env : nat -> bool) (t : rty) : bool :=
  match t with
  | RParam i => env i
  | RCon n => tw_display0 tw n
  | RApp n t => match tw_display1 tw n with Never => false | Always => true | IfArg => displays tw env t end
  | ROption _ => false
  end.

(** The generic parameters of the struct: lifetimes, types with their bounds, constants.
    (lib.rs:160-173) *)
Inductive gparam := GLifetime | GType (bounds : list bytes) | GConst.

(** lib.rs:170 *)
Definition display_path : bytes := lit "::core::fmt::Display".

(** lib.rs:167-173 [add_trait_bounds]. *)
Definition add_trait_bounds (g : list gparam) : list gparam :=
  map (fun p => match p with GType bs => GType (bs ++ [display_path]) | _ => p end) g.

(** What the bounds say about parameter [i] inside the implementation.
    (lib.rs:160-173) *)
Definition known_display (g : list gparam) (i : nat) : bool :=
  match nth_error g i with
  | Some (GType bs) => existsb (bseqb display_path) bs
  | _ => false
  end.

(** The types of the fields.
    (field.rs:1-40) *)
Definition struct_type := bytes -> option rty.

(** [self.i]
    (method_body.rs:83) *)
Definition field_type (ts : struct_type) (i : ident) : option rty :=
  if negb (id_raw i) && is_keyword (id_text i) then None else ts (id_text i).

(** method_body.rs:80-84 [unwrapped]: the type that the expression is a reference to. *)
Definition type_v (ts : struct_type) (bind : option rty) (e : vexpr) : option rty :=
  match e with VBind => bind | VField i => field_type ts i end.

(** The names of the methods of [Serializer] (serializer.rs:99-168). *)
Definition oauth_methods : list bytes := map lit
  ["serialize_oauth_callback"; "serialize_oauth_consumer_key"; "serialize_oauth_nonce"; "serialize_oauth_signature_method";
   "serialize_oauth_timestamp"; "serialize_oauth_token"; "serialize_oauth_verifier"; "serialize_oauth_version"]%string.
Definition parameter_methods : list bytes := map lit ["serialize_parameter"; "serialize_parameter_encoded"]%string.

(** A path used as a function on a reference to a [t]: method_body/helper.rs:50-65 [fmt] and
    [fmt_impls_fn], 69-77 [skip_if_impls_fn]. *)
Definition accepts (fns : bytes -> option (rty -> bool)) (p : bytes) (t : rty) : bool :=
  match fns p with Some f => f t | None => false end.

(** Whether a statement type-checks, by the form of its tokens (method_body.rs:54-163).  [bind] is the
    type of what [value] refers to. *)
Fixpoint check (tw : tworld) (env : nat -> bool) (ts : struct_type) (st : stmt) (bind : option rty) : bool :=
  match st with
  | SOAuth m => existsb (bseqb m) oauth_methods
  | SSerialize m key fmt tmp =>
      existsb (bseqb m) parameter_methods
      && match type_v ts bind tmp with
         | None => false
         | Some t =>
             match fmt with
             | None => displays tw env t                 (* [V: Display] of [serialize_parameter] *)
             | Some p => accepts (tw_fmt tw) p t
             end
         end
  | SIfNot p tmp body =>
      match type_v ts bind tmp with
      | None => false
      | Some t => accepts (tw_skip_if tw) p t
      end && check tw env ts body bind
  | SIfSome i body =>
      match field_type ts i with
      | Some (ROption t) => check tw env ts body (Some t)  (* [Option::as_ref(&self.i)] *)
      | _ => false
      end
  | SBlock body => check tw env ts body bind
  end.

(** Whether the generated implementation type-checks (lib.rs:117-118, 141-165); the code that comes with
    errors ([Fallback]) does not get that far. *)
Definition compiles (tw : tworld) (g : list gparam) (ts : struct_type) (e : expansion) : bool :=
  match e with
  | Impl _ body => forallb (fun st => check tw (known_display (add_trait_bounds g)) ts st None) body
  | _ => false
  end.

(** ** Using the implementation at particular types *)

(** The arguments for the type parameters, all without parameters themselves.
    (lib.rs:140-160) *)
Definition type_args := nat -> rty.

(** A type with the arguments for the type parameters (lib.rs:140-160). *)
Fixpoint subst (args : type_args) (t : rty) : rty :=
  match t with
  | RParam i => args i
  | RCon n => RCon n
  | RApp n t => RApp n (subst args t)
  | ROption t => ROption (subst args t)
  end.

(** No type parameter is in scope where the implementation is used.
    (lib.rs:140-160) *)
Definition no_params : nat -> bool := fun _ => false.

(** A bound holds of a type: [holds] decides those other than [Display].
    (lib.rs:160-173) *)
Definition bound_holds (tw : tworld) (holds : bytes -> rty -> bool) (b : bytes) (t : rty) : bool :=
  if bseqb b display_path then displays tw no_params t else holds b t.

(** [impl<generics> Request for ..] applies to the type with these arguments (lib.rs:117-118, 149). *)
Fixpoint applies (tw : tworld) (holds : bytes -> rty -> bool) (g : list gparam) (args : type_args) (i : nat) : bool :=
  match g with
  | [] => true
  | GType bs :: g' => forallb (fun b => bound_holds tw holds b (args i)) bs && applies tw holds g' args (S i)
  | _ :: g' => applies tw holds g' args (S i)
  end.

(** Whether [Name<args>: Request] after the expansion.
    (lib.rs:140-173) *)
Definition implements_request (tw : tworld) (holds : bytes -> rty -> bool) (g : list gparam) (args : type_args)
  (ts : struct_type) (e : expansion) : bool :=
  compiles tw g ts e && applies tw holds (add_trait_bounds g) args 0.
