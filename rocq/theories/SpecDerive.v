(** What the derive macro is documented to do (oauth1-request/src/lib.rs:132-206), in terms of the
    attributes as written. *)
From Coq Require Import String.
From Coq Require Import Sorted.
From Verif Require Import Bytes Spec MFmt MSerializer MRequest MDerive SpecCalls.

(** ** Reserved words (the Rust Reference, "Keywords", editions up to 2021) *)

Definition strict_keywords : list bytes := map lit
  ["as"; "break"; "const"; "continue"; "crate"; "else"; "enum"; "extern"; "false"; "fn"; "for"; "if"; "impl"; "in"; "let"; "loop";
   "match"; "mod"; "move"; "mut"; "pub"; "ref"; "return"; "self"; "Self"; "static"; "struct"; "super"; "trait"; "true"; "type";
   "unsafe"; "use"; "where"; "while"]%string.
Definition strict_keywords_2018 : list bytes := map lit ["async"; "await"; "dyn"]%string.
Definition reserved_keywords : list bytes := map lit
  ["abstract"; "become"; "box"; "do"; "final"; "macro"; "override"; "priv"; "typeof"; "unsized"; "virtual"; "yield"]%string.
Definition reserved_keywords_2018 : list bytes := map lit ["try"]%string.
Definition reserved_word (t : bytes) : bool :=
  existsb (bseqb t) (strict_keywords ++ strict_keywords_2018 ++ reserved_keywords ++ reserved_keywords_2018).

(** ** Attributes *)

(** An attribute is for this macro if it is [#[oauth1 ..]]. *)
Definition for_oauth1 (a : attr) : bool :=
  match at_path a with PIdent i => negb (id_raw i) && bseqb (id_text i) (lit "oauth1") | PLong _ => false end.

(** The items in the [oauth1] attributes, in order; an attribute that cannot be parsed counts as an
    error. *)
Definition items (sy : syn) (attrs : list attr) : list (Meta + error) :=
  flat_map (fun a =>
    if for_oauth1 a then match parse_args sy a with Some l => map inl l | None => [inr SynError] end else []) attrs.

Definition metas (sy : syn) (attrs : list attr) : list Meta :=
  flat_map (fun x => match x with inl m => [m] | inr _ => [] end) (items sy attrs).

(** The item is called [n]. *)
Definition named (n : bytes) (m : Meta) : bool :=
  match mt_path m with PIdent i => negb (id_raw i) && bseqb (id_text i) n | PLong _ => false end.

(** The documented attributes and the form they take. *)
Inductive shape := AWord | APath | ABool | AName.

Definition field_attributes : list (bytes * shape) :=
  [(lit "encoded", AWord); (lit "fmt", APath); (lit "option", ABool); (lit "rename", AName); (lit "skip", AWord);
   (lit "skip_if", APath)].
Definition container_attributes : list (bytes * shape) := [(lit "crate", APath)].

(** What is wrong with the form of an item, if anything. *)
Definition complaint (s : shape) (k : MetaKind) : option error :=
  match s, k with
  | AWord, MkPath => None
  | AWord, _ => Some ExpectedWord
  | APath, MkNameValue (EPath _) => None
  | APath, MkNameValue _ => Some ExpectedPath
  | ABool, MkNameValue (EBool _) => None
  | ABool, MkNameValue _ => Some ExpectedBool
  | AName, MkNameValue (EStr t) => if forallb unreserved t then None else Some NotUriSafe
  | AName, MkNameValue _ => Some ExpectedStr
  | _, _ => Some ExpectedNameValue
  end.

(** A well-formed item called [n]. *)
Definition good (n : bytes) (s : shape) (m : Meta) : bool :=
  named n m && match complaint s (mt_kind m) with None => true | Some _ => false end.

Definition path_text (p : mpath) : bytes :=
  match p with PIdent i => (if id_raw i then lit "r#" else []) ++ id_text i | PLong t => t end.

(** The error for item [m] after the items [before], if there is one: an unknown name, a wrong form,
    or a second well-formed item of the same name. *)
Definition fault (table : list (bytes * shape)) (before : list Meta) (m : Meta) : option error :=
  match find (fun a => named (fst a) m) table with
  | None => Some (UnknownAttribute (path_text (mt_path m)))
  | Some (n, s) =>
      match complaint s (mt_kind m) with
      | Some e => Some e
      | None => if existsb (good n s) before then Some (DuplicateAttribute n) else None
      end
  end.

Fixpoint faults (table : list (bytes * shape)) (before : list Meta) (l : list (Meta + error)) : list error :=
  match l with
  | [] => []
  | inr e :: l' => e :: faults table before l'
  | inl m :: l' =>
      match fault table before m with
      | Some e => e :: faults table (before ++ [m]) l'
      | None => faults table (before ++ [m]) l'
      end
  end.

(** ** Fields *)

Fixpoint first_some {A B} (f : A -> option B) (l : list A) : option B :=
  match l with
  | [] => None
  | x :: l' => match f x with Some y => Some y | None => first_some f l' end
  end.

(** The value of an attribute: that of its first well-formed occurrence. *)
Definition word (n : bytes) (ms : list Meta) : bool := existsb (good n AWord) ms.
Definition path_value (n : bytes) (ms : list Meta) : option bytes :=
  first_some (fun m => if named n m then match mt_kind m with MkNameValue (EPath p) => Some p | _ => None end else None) ms.
Definition bool_value (n : bytes) (ms : list Meta) : option bool :=
  first_some (fun m => if named n m then match mt_kind m with MkNameValue (EBool b) => Some b | _ => None end else None) ms.
Definition name_value (n : bytes) (ms : list Meta) : option bytes :=
  first_some (fun m => if named n m then
    match mt_kind m with MkNameValue (EStr s) => if forallb unreserved s then Some s else None | _ => None end else None) ms.

(** The type is written [Option<..>] (possibly through a macro). *)
Inductive option_type : ty -> Prop :=
  | ot_path : option_type (TyPath false [({| id_raw := false; id_text := lit "Option" |}, ArgAngle 1)])
  | ot_group : forall t, option_type t -> option_type (TyGroup t).

(** The parameter name: the new name, or the field's name without [r#]. *)
Definition param_name (sy : syn) (f : syn_field) : bytes :=
  match name_value (lit "rename") (metas sy (sf_attrs f)) with
  | Some n => n
  | None => id_text (sf_ident f)
  end.

Definition skipped (sy : syn) (f : syn_field) : bool := word (lit "skip") (metas sy (sf_attrs f)).

Definition treated_as_option (sy : syn) (f : syn_field) : Prop :=
  bool_value (lit "option") (metas sy (sf_attrs f)) = Some true
  \/ bool_value (lit "option") (metas sy (sf_attrs f)) = None /\ option_type (sf_ty f).

(** ** Values *)

(** The value that [f] contributes: the field's value, or what is in it if it is treated as an
    option.  [None]: an empty option. *)
Inductive contributes {V} (pg : program V) (self : struct_value V) (sy : syn) (f : syn_field) : option V -> Prop :=
  | co_plain : forall v, ~ treated_as_option sy f -> self (id_text (sf_ident f)) = Some v ->
      contributes pg self sy f (Some v)
  | co_some : forall v x, treated_as_option sy f -> self (id_text (sf_ident f)) = Some v ->
      pg_option pg v = Some (Some x) -> contributes pg self sy f (Some x)
  | co_none : forall v, treated_as_option sy f -> self (id_text (sf_ident f)) = Some v ->
      pg_option pg v = Some None -> contributes pg self sy f None.

(** [skip_if] says [b] of the value. *)
Definition skip_if_says {V} (pg : program V) (sy : syn) (f : syn_field) (v : V) (b : bool) : Prop :=
  match path_value (lit "skip_if") (metas sy (sf_attrs f)) with
  | None => b = false
  | Some p => exists g, pg_skip_if pg p = Some g /\ g v = Ok b
  end.

(** How the value is formatted. *)
Definition formatted {V} (pg : program V) (sy : syn) (f : syn_field) (v : V) (d : disp) : Prop :=
  match path_value (lit "fmt") (metas sy (sf_attrs f)) with
  | None => d = pg_display pg v
  | Some p => exists g, pg_fmt pg p = Some g /\ d = g v
  end.

(** The parameters that a field emits. *)
Inductive emits {V} (pg : program V) (self : struct_value V) (sy : syn) (f : syn_field) : list call -> Prop :=
  | em_skip : skipped sy f = true -> emits pg self sy f []
  | em_none : skipped sy f = false -> contributes pg self sy f None -> emits pg self sy f []
  | em_skip_if : forall v d, skipped sy f = false -> contributes pg self sy f (Some v) ->
      skip_if_says pg sy f v true -> formatted pg sy f v d -> emits pg self sy f []
  | em_param : forall v d, skipped sy f = false -> contributes pg self sy f (Some v) ->
      skip_if_says pg sy f v false -> formatted pg sy f v d ->
      emits pg self sy f
        [if word (lit "encoded") (metas sy (sf_attrs f)) then CParamEnc (param_name sy f) d else CParam (param_name sy f) d].

(** The request parameters among calls. *)
Definition is_param (c : call) : bool := match c with CProto _ => false | _ => true end.

(** Strictly ascending keys. *)
Definition strictly_ascending (ks : list bytes) : Prop := StronglySorted (fun a b => bltb a b = true) ks.
