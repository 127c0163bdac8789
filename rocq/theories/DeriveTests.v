(** The tests of the derive crate (oauth1-request-derive/tests), run on the model (tests, not proofs).
    The generated code is run on a [Recorder], as [assert_expand!] does. *)
From Coq Require Import String.
From Verif Require Import Bytes MFmt MPercent MSerializer MRequest MDerive PropsDerive.

(** Tokens: a path or an expression is one token. *)
Definition test_expr (t : bytes) : expr :=
  match t with
  | """"%byte :: s => EStr s
  | "|"%byte :: _ => EOther
  | "0"%byte :: _ => EOther
  | _ => if bseqb t (lit "true") then EBool true else if bseqb t (lit "false") then EBool false else EPath t
  end.
Definition test_syn : syn := {|
  parse_path := fun ts =>
    match ts with
    | TTok (""""%byte :: _) :: _ => None
    | TTok t :: r => Some (if existsb (beqb ":") t then PLong t else PIdent {| id_raw := false; id_text := t |}, r)
    | _ => None
    end;
  parse_expr := fun ts => match ts with TTok t :: r => Some (test_expr t, r) | _ => None end |}.

Definition t (s : string) : tok := TTok (lit s).
Definition q (s : string) : tok := TTok (""""%byte :: lit s).
Definition u8 : ty := TyOther.
Definition oauth1_request := CrateName (lit "oauth1_request").

Definition errors (attrs : list attr) (fs : list syn_field) : option (list error) :=
  match expand test_syn true oauth1_request (decl attrs fs) with
  | Ok (Fallback es _) => Some es
  | _ => None
  end.

(** ui/attrs.rs, with the messages of ui/attrs.stderr. *)
Example attrs_1 : errors [oauth1_attr [t "unknown"]] [] = Some [UnknownAttribute (lit "unknown")].
Proof. reflexivity. Qed.
Example attrs_2 : errors [oauth1_attr [t "unknown::path"]] [] = Some [UnknownAttribute (lit "unknown::path")].
Proof. reflexivity. Qed.
Example attrs_3 : errors [oauth1_attr [t "unknown"; TEq; q ""]] [] = Some [UnknownAttribute (lit "unknown")].
Proof. reflexivity. Qed.
Example attrs_4 : errors [oauth1_attr [t "unknown::path"; TEq; q ""]] [] = Some [UnknownAttribute (lit "unknown::path")].
Proof. reflexivity. Qed.
Example attrs_5 : errors [oauth1_attr [t "unknown::path"; TParen]] [] = Some [UnknownAttribute (lit "unknown::path")].
Proof. reflexivity. Qed.
Example attrs_6 : errors [oauth1_attr [t "crate"]] [] = Some [ExpectedNameValue].
Proof. reflexivity. Qed.
Example attrs_7 : errors [oauth1_attr [t "crate"; TParen]] [] = Some [ExpectedNameValue].
Proof. reflexivity. Qed.
Example attrs_8 :
  errors [oauth1_attr [t "crate"; TEq; t "oauth1_request"]; oauth1_attr [t "crate"; TEq; t "oauth1_request"]] []
  = Some [DuplicateAttribute (lit "crate")].
Proof. reflexivity. Qed.
Example attrs_9 :
  errors [oauth1_attr [t "crate"; TEq; t "oauth1_request"; TComma; t "crate"; TEq; t "oauth1_request"]] []
  = Some [DuplicateAttribute (lit "crate")].
Proof. reflexivity. Qed.

Example attrs_fields :
  errors []
    [field (lit "non_str_lit") [oauth1_attr [t "rename"; TEq; t "0"]] u8;
     field (lit "expected_word_unexpected_name_value") [oauth1_attr [t "skip"; TEq; q ""]] u8;
     field (lit "expected_word_unexpected_list") [oauth1_attr [t "skip"; TParen]] u8;
     field (lit "expected_name_value_unexpected_word") [oauth1_attr [t "skip_if"]] u8;
     field (lit "expected_name_value_unexpected_list") [oauth1_attr [t "skip_if"; TParen]] u8;
     field (lit "unknown_word") [oauth1_attr [t "unknown"]] u8;
     field (lit "unknown_path_word") [oauth1_attr [t "unknown::path"]] u8;
     field (lit "unknown_name_value") [oauth1_attr [t "unknown"; TEq; q ""]] u8;
     field (lit "unknown_path_name") [oauth1_attr [t "unknown::path"; TEq; q ""]] u8;
     field (lit "unknown_list") [oauth1_attr [t "unknown"; TParen]] u8;
     field (lit "unknown_path_list_name") [oauth1_attr [t "unknown::path"; TParen]] u8;
     field (lit "duplicate_word") [oauth1_attr [t "skip"; TComma; t "skip"]] u8;
     field (lit "duplicate_word_2") [oauth1_attr [t "encoded"]; oauth1_attr [t "encoded"]] u8;
     field (lit "duplicate_name_value") [oauth1_attr [t "rename"; TEq; q "a"; TComma; t "rename"; TEq; q "b"]] u8;
     field (lit "duplicate_name_value_2") [oauth1_attr [t "rename"; TEq; q "c"]; oauth1_attr [t "rename"; TEq; q "d"]] u8;
     field (lit "invalid_boolean") [oauth1_attr [t "option"; TEq; t "FALSE"]] u8;
     field (lit "invalid_path") [oauth1_attr [t "fmt"; TEq; t "|_, _| Ok(())"]] u8;
     field (lit "duplicate") [] u8;
     field (lit "duplicate_renamed") [oauth1_attr [t "rename"; TEq; q "duplicate"]] u8;
     field (lit "uri_unsafe") [oauth1_attr [t "rename"; TEq; q "?"]] u8]
  = Some
    [ExpectedStr; ExpectedWord; ExpectedWord; ExpectedNameValue; ExpectedNameValue;
     UnknownAttribute (lit "unknown"); UnknownAttribute (lit "unknown::path");
     UnknownAttribute (lit "unknown"); UnknownAttribute (lit "unknown::path");
     UnknownAttribute (lit "unknown"); UnknownAttribute (lit "unknown::path");
     DuplicateAttribute (lit "skip"); DuplicateAttribute (lit "encoded");
     DuplicateAttribute (lit "rename"); DuplicateAttribute (lit "rename");
     ExpectedBool; ExpectedPath; NotUriSafe; DuplicateParameter (lit "duplicate")].
Proof. vm_compute. reflexivity. Qed.

(** ui/parse.rs: eleven errors, all from syn. *)
Definition args (i : attr_args) : attr :=
  {| at_path := PIdent {| id_raw := false; id_text := lit "oauth1" |}; at_args := i |}.
Example parse_fields :
  errors []
    [field (lit "meta_word") [args ArgsNone] u8;
     field (lit "meta_name_value") [args ArgsEq] u8;
     field (lit "meta_list_lit") [oauth1_attr [q ""]] u8;
     field (lit "redundant_word") [oauth1_attr [t "word"; t "word"]] u8;
     field (lit "redundant_words") [oauth1_attr [t "word"; t "word"; t "word"]] u8;
     field (lit "redundant_value") [oauth1_attr [t "name"; TEq; t "value"; t "value"]] u8;
     field (lit "redundant_values") [oauth1_attr [t "name"; TEq; t "value"; t "value"; t "value"]] u8;
     field (lit "missing_value") [oauth1_attr [t "name"; TEq]] u8;
     field (lit "empty_head") [oauth1_attr [TComma; t "meta"]] u8;
     field (lit "empty_mid") [oauth1_attr [t "meta"; TComma; TComma; t "meta"]] u8;
     field (lit "empty_tail") [oauth1_attr [t "meta"; TComma; TComma]] u8]
  = Some (repeat SynError 11).
Proof. vm_compute. reflexivity. Qed.

(** ui/fallback_impl.rs: the error comes with an implementation. *)
Example fallback_impl :
  expand test_syn true oauth1_request (decl [] [field (lit "_field") [oauth1_attr [t "unknown"]] u8])
  = Ok (Fallback [UnknownAttribute (lit "unknown")] (ExternCrate (lit "oauth1_request"))).
Proof. reflexivity. Qed.

(** pass.rs.  A value is a text, or an [Option] of one. *)
Inductive val := VText (s : bytes) | VOption (o : option bytes).
Definition val_text (v : val) : bytes := match v with VText s => s | VOption _ => [] end.
Definition pass : program val := {|
  pg_display := fun v => dstr (val_text v);
  pg_fmt := fun p =>
    if bseqb p (lit "crate::common::fmt_ignore") then Some (fun _ => dstr [])
    else if bseqb p (lit "super::fmt_option_str") then
      Some (fun v => dstr (match v with VOption (Some s) => s | _ => [] end))
    else if bseqb p (lit "std::fmt::Debug::fmt") then Some (fun v => dstr (lit "{debug}"))
    else if bseqb p (lit "crate::common::fmt_str") then Some (fun v => dstr (val_text v))
    else None;
  pg_skip_if := fun p =>
    if bseqb p (lit "crate::common::always") || bseqb p (lit "<dyn std::any::Any>::is::<&'static str>")
    then Some (fun _ => Ok true)
    else if bseqb p (lit "std::option::Option::is_none") then
      Some (fun v => match v with VOption None => Ok true | _ => Ok false end)
    else if bseqb p (lit "<[u8]>::is_empty") || bseqb p (lit "str::is_empty") then
      Some (fun v => match val_text v with [] => Ok true | _ => Ok false end)
    else None;
  pg_option := fun v => match v with VOption o => Some (option_map VText o) | VText _ => None end |}.

Definition self_of (l : list (string * val)) : struct_value val :=
  fun n => option_map snd (find (fun p => bseqb n (lit (fst p))) l).
Definition records (fs : list syn_field) (self : list (string * val)) : option (res (list (Rec bytes))) :=
  match expand test_syn true oauth1_request (decl [] fs) with
  | Ok (Impl _ body) => exec_body pass (self_of self) body RecorderS Recorder_new
  | _ => None
  end.
Definition plain (n : string) : syn_field := field (lit n) [] u8.
Definition P (k v : string) : Rec bytes := RParameter (lit k) (lit v).

Example OneBeforeOAuth :
  records [plain "foo"] [("foo"%string, VText (lit "0"))] = Some (Ok (P "foo" "0" :: OAUTH_PARAMETERS)).
Proof. vm_compute. reflexivity. Qed.
Example MultipleBeforeOAuth :
  records [plain "foo"; plain "bar"] [("foo"%string, VText (lit "0")); ("bar"%string, VText (lit "false"))]
  = Some (Ok (P "bar" "false" :: P "foo" "0" :: OAUTH_PARAMETERS)).
Proof. vm_compute. reflexivity. Qed.
Example OneBeforeAndAfterOAuth :
  records [plain "baz"; plain "qux"] [("baz"%string, VText [x00]); ("qux"%string, VText (lit "0"))]
  = Some (Ok ([RParameter (lit "baz") [x00]] ++ OAUTH_PARAMETERS ++ [P "qux" "0"])).
Proof. vm_compute. reflexivity. Qed.
Example OneBeforeAndAfterOAuthRev :
  records [plain "qux"; plain "baz"] [("baz"%string, VText [x00]); ("qux"%string, VText (lit "0"))]
  = Some (Ok ([RParameter (lit "baz") [x00]] ++ OAUTH_PARAMETERS ++ [P "qux" "0"])).
Proof. vm_compute. reflexivity. Qed.
Example OAuthPrefix :
  records [plain "oauth_prefix"] [("oauth_prefix"%string, VText (lit "0"))]
  = Some (Ok [RCallback; RConsumerKey; RNonce; P "oauth_prefix" "0"; RSignatureMethod; RTimestamp; RToken; RVerifier; RVersion]).
Proof. vm_compute. reflexivity. Qed.
Example OneAfterOAuth :
  records [plain "qux"] [("qux"%string, VText (lit "0"))] = Some (Ok (OAUTH_PARAMETERS ++ [P "qux" "0"])).
Proof. vm_compute. reflexivity. Qed.
Example MultipleAfterOAuth :
  records [plain "qux"; plain "quux"] [("qux"%string, VText (lit "0")); ("quux"%string, VText (lit "quux"))]
  = Some (Ok (OAUTH_PARAMETERS ++ [P "quux" "quux"; P "qux" "0"])).
Proof. vm_compute. reflexivity. Qed.
Example Empty : records [] [] = Some (Ok OAUTH_PARAMETERS).
Proof. vm_compute. reflexivity. Qed.

Example CratePath :
  expand test_syn true CrateError (decl [oauth1_attr [t "crate"; TEq; t "oauth"]] [])
  = Ok (Impl (UsePath (lit "oauth")) (match expand test_syn true oauth1_request (decl [] []) with
                                      | Ok (Impl _ b) => b | _ => [] end)).
Proof. vm_compute. reflexivity. Qed.

Definition long_option : ty := TyPath false
  [({| id_raw := false; id_text := lit "std" |}, ArgNone); ({| id_raw := false; id_text := lit "option" |}, ArgNone);
   ({| id_raw := false; id_text := lit "Option" |}, ArgAngle 1)].
Example FieldAttrs :
  records
    [field (lit "percent_encoded") [oauth1_attr [t "encoded"]] u8;
     field (lit "flag") [oauth1_attr [t "rename"; TEq; q "FLAG"]] u8;
     field (lit "_marker") [oauth1_attr []; oauth1_attr [t "skip"]] u8;
     field (lit "some") [oauth1_attr [t "skip_if"; TEq; t "std::option::Option::is_none"; TComma;
                                      t "fmt"; TEq; t "super::fmt_option_str"]] long_option;
     field (lit "some_2") [oauth1_attr [t "option"; TEq; t "true"]] long_option;
     field (lit "none") [oauth1_attr [t "option"; TEq; t "true"]] long_option;
     field (lit "option_fmt") [oauth1_attr [t "option"; TEq; t "true"; TComma; t "fmt"; TEq; t "crate::common::fmt_ignore"]] long_option;
     field (lit "option_false") [oauth1_attr [t "option"; TEq; t "false"; TComma; t "fmt"; TEq; t "crate::common::fmt_ignore"]] option_ty;
     field (lit "trait_item") [oauth1_attr [t "skip_if"; TEq; t "<dyn std::any::Any>::is::<&'static str>"];
                               oauth1_attr [t "fmt"; TEq; t "std::fmt::Debug::fmt"]] u8;
     field (lit "qualified_path") [oauth1_attr [t "skip_if"; TEq; t "<[u8]>::is_empty"];
                                   oauth1_attr [t "fmt"; TEq; t "std::fmt::Debug::fmt"]] u8;
     field (lit "ty_param") [oauth1_attr [t "skip_if"; TEq; t "crate::common::always"; TComma;
                                          t "fmt"; TEq; t "crate::common::fmt_ignore"]] u8;
     field (lit "deref_arg") [oauth1_attr [t "skip_if"; TEq; t "str::is_empty"];
                              oauth1_attr [t "fmt"; TEq; t "crate::common::fmt_str"];
                              {| at_path := PIdent {| id_raw := false; id_text := lit "allow" |};
                                 at_args := ArgsList [t "clippy::borrowed_box"] |}] u8]
    [("percent_encoded"%string, VText (lit "%20")); ("flag"%string, VText (lit "false")); ("_marker"%string, VText []);
     ("some"%string, VOption (Some (lit "option"))); ("some_2"%string, VOption (Some (lit "option")));
     ("none"%string, VOption None); ("option_fmt"%string, VOption (Some (lit "option_fmt")));
     ("option_false"%string, VText []); ("trait_item"%string, VText []); ("qualified_path"%string, VText []);
     ("ty_param"%string, VText []); ("deref_arg"%string, VText [])]
  = Some (Ok ([P "FLAG" "false"] ++ OAUTH_PARAMETERS
      ++ [P "option_false" ""; P "option_fmt" ""; RParameterEncoded (lit "percent_encoded") (lit "%20");
          P "some" "option"; P "some_2" "option"])).
Proof. vm_compute. reflexivity. Qed.

(** [WeirdAttrs]: a trailing comma, and an attribute of another tool. *)
Example WeirdAttrs :
  records
    [field (lit "_trailing_comma")
       [{| at_path := PLong (lit "rustfmt::skip"); at_args := ArgsNone |}; oauth1_attr [t "skip"; TComma]] u8]
    [("_trailing_comma"%string, VText [])] = Some (Ok OAUTH_PARAMETERS).
Proof. vm_compute. reflexivity. Qed.

(** pull_3.rs: the type comes from a macro variable, that is, in a group. *)
Example pull_3 :
  records [field (lit "field") [] (TyGroup option_ty)] [("field"%string, VOption (Some (lit "1")))]
  = Some (Ok (P "field" "1" :: OAUTH_PARAMETERS)).
Proof. vm_compute. reflexivity. Qed.
