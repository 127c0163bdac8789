(** URIs as RFC 3986 reads them.  Nothing here mentions the model of the crate. *)
From Coq Require Import String.
From Verif Require Import Bytes Spec.

(** A component that may be missing, with the character that comes before it. *)
Definition component (mark : byte) (x : option bytes) : bytes :=
  match x with Some s => mark :: s | None => [] end.

(** RFC 3986, sections 3.4 and 3.5 and appendix B: the fragment starts at the first "#", the query at the first "?"
    before that.  [hier] is the rest: scheme, authority and path. *)
Record uri_reads (u hier : bytes) (query fragment : option bytes) : Prop := {
  ur_text : u = hier ++ component "?" query ++ component "#" fragment;
  ur_hier : ~ In "?"%byte hier /\ ~ In "#"%byte hier;
  ur_query : forall q, query = Some q -> ~ In "#"%byte q
}.

(** Section 2.2. *)
Definition sub_delims : bytes := lit "!$&'()*+,;=".

(** Section 3.4: query = *( pchar / "/" / "?" ), where pchar = unreserved / pct-encoded / sub-delims / ":" / "@". *)
Inductive query_syntax : bytes -> Prop :=
  | qs_nil : query_syntax []
  | qs_char : forall b q, unreserved b = true \/ In b sub_delims \/ In b (lit ":@/?") -> query_syntax q -> query_syntax (b :: q)
  | qs_pct : forall x y q, unhex x <> None -> unhex y <> None -> query_syntax q -> query_syntax ("%"%byte :: x :: y :: q).

(** What follows the "://" of a URI with a scheme. *)
Definition after_scheme (uri rest : bytes) : Prop := exists scheme, ~ In ":"%byte scheme /\ uri = scheme ++ lit "://" ++ rest.
