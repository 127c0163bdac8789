(** Model of oauth-credentials/src/lib.rs. *)
From Coq Require Import String.
From Verif Require Import Bytes MFmt.

(** lib.rs:35-60 / 86-93 (the two cfg variants differ only in the default type parameter). *)
Record Credentials (T : Type) := Cred { cr_identifier : T; cr_secret : T }.
Arguments Cred {T} _ _.
Arguments cr_identifier {T} _.
Arguments cr_secret {T} _.

(** lib.rs:97-115 *)
Record Token (C T : Type) := Tok { tk_client : Credentials C; tk_token : Credentials T }.
Arguments Tok {C T} _ _.
Arguments tk_client {C T} _.
Arguments tk_token {C T} _.

(** lib.rs:119-124 [Credentials::new]. *)
Definition Credentials_new {T} (identifier secret : T) : Credentials T :=
  {| cr_identifier := identifier; cr_secret := secret |}.

(** lib.rs:127-134 [identifier], [secret]; [asref] is [T]'s [AsRef<str>]. *)
Definition Credentials_identifier {T} (asref : T -> bytes) (c : Credentials T) : bytes := asref (cr_identifier c).
Definition Credentials_secret {T} (asref : T -> bytes) (c : Credentials T) : bytes := asref (cr_secret c).

(** lib.rs:137-139 [Credentials::as_ref]. *)
Definition Credentials_as_ref {T} (asref : T -> bytes) (c : Credentials T) : Credentials bytes :=
  Credentials_new (Credentials_identifier asref c) (Credentials_secret asref c).

(** lib.rs:168-172 [From<&Credentials<T>> for Credentials<&str>]. *)
Definition Credentials_from {T} (asref : T -> bytes) (c : Credentials T) : Credentials bytes :=
  Credentials_as_ref asref c.

(** lib.rs:159-165 [Credentials::map].  [F: FnMut(T) -> U] is a function that also updates a
    captured state. *)
Definition Credentials_map {St T U} (f : St -> T -> St * U) (st : St) (c : Credentials T)
  : St * Credentials U :=
  let '(st, i) := f st (cr_identifier c) in
  let '(st, s) := f st (cr_secret c) in
  (st, Credentials_new i s).

(** lib.rs:201-206 [Token::new]. *)
Definition Token_new {C T} (client : Credentials C) (token : Credentials T) : Token C T :=
  {| tk_client := client; tk_token := token |}.

(** lib.rs:209-213 [Token::from_parts]. *)
Definition Token_from_parts {C T} (client_identifier client_secret : C) (token token_secret : T) : Token C T :=
  let client := Credentials_new client_identifier client_secret in
  let token := Credentials_new token token_secret in
  Token_new client token.

(** lib.rs:216-223 [client], [token]. *)
Definition Token_client {C T} (asref : C -> bytes) (t : Token C T) : Credentials bytes :=
  Credentials_as_ref asref (tk_client t).
Definition Token_token {C T} (asref : T -> bytes) (t : Token C T) : Credentials bytes :=
  Credentials_as_ref asref (tk_token t).

(** lib.rs:226-228 [Token::as_ref]; 324-328 [From<&Token<C, T>>]. *)
Definition Token_as_ref {C T} (ac : C -> bytes) (at_ : T -> bytes) (t : Token C T) : Token bytes bytes :=
  Token_new (Token_client ac t) (Token_token at_ t).
Definition Token_from {C T} (ac : C -> bytes) (at_ : T -> bytes) (t : Token C T) : Token bytes bytes :=
  Token_as_ref ac at_ t.

(** lib.rs:249-258 [Token::map_client]. *)
Definition Token_map_client {St C C2 T} (f : St -> C -> St * C2) (st : St) (t : Token C T)
  : St * Token C2 T :=
  let '(st, c) := Credentials_map f st (tk_client t) in
  (st, {| tk_client := c; tk_token := tk_token t |}).

(** lib.rs:277-286 [Token::map_token]. *)
Definition Token_map_token {St C T T2} (f : St -> T -> St * T2) (st : St) (t : Token C T)
  : St * Token C T2 :=
  let '(st, k) := Credentials_map f st (tk_token t) in
  (st, {| tk_client := tk_client t; tk_token := k |}).

(** lib.rs:305-311 [Token::map]. *)
Definition Token_map {St T U} (f : St -> T -> St * U) (st : St) (t : Token T T) : St * Token U U :=
  let '(st, t) := Token_map_client f st t in
  Token_map_token f st t.

(** lib.rs:316-321 [Token::from_ref]. *)
Definition Token_from_ref {C T} (ac : C -> bytes) (at_ : T -> bytes)
    (client : Credentials C) (token : Credentials T) : Token bytes bytes :=
  Token_new (Credentials_as_ref ac client) (Credentials_as_ref at_ token).

(** ** Debug formatting *)

(** [core::fmt::builders::DebugStruct] as used by [#[derive(Debug)]]: a field is its name and its
    own debug text.  [pretty] is [{:#?}], which indents nested lines by four spaces
    ([PadAdapter]: inserts the padding at the start of every non-empty line segment).
    Used by the [derive(Debug)] of oauth-credentials/src/lib.rs:97, 108, 183. *)
Fixpoint pad_lines (at_start : bool) (s : bytes) : bytes :=
  match s with
  | [] => []
  | b :: s' =>
      (if at_start then lit "    " else []) ++ b :: pad_lines (beqb b x0a) s'
  end.

(** As above, for oauth-credentials/src/lib.rs:97, 108, 183. *)
Definition debug_struct (pretty : bool) (name : bytes) (fields : list (bytes * bytes)) : bytes :=
  if pretty then
    name ++ lit " {" ++ [x0a]
    ++ flat_map (fun f => pad_lines true (fst f ++ lit ": " ++ snd f ++ lit "," ++ [x0a])) fields
    ++ lit "}"
  else
    name ++ lit " { " ++ join (lit ", ") (map (fun f => fst f ++ lit ": " ++ snd f) fields) ++ lit " }".

(** lib.rs:174-197 [Debug for Credentials<T>]; [dbg] is [T]'s own [Debug]. *)
Definition Credentials_debug {T} (dbg : bool -> T -> bytes) (pretty : bool) (c : Credentials T) : bytes :=
  debug_struct pretty (lit "Credentials")
    [(lit "identifier", dbg pretty (cr_identifier c)); (lit "secret", lit "<hidden>")].

(** lib.rs:97, 108 [derive(Debug)] for [Token]. *)
Definition Token_debug {C T} (dc : bool -> C -> bytes) (dt : bool -> T -> bytes) (pretty : bool)
    (t : Token C T) : bytes :=
  debug_struct pretty (lit "Token")
    [(lit "client", Credentials_debug dc pretty (tk_client t));
     (lit "token", Credentials_debug dt pretty (tk_token t))].
