(** Comparing debug builds with release builds. *)
From Coq Require Import String.
From Verif Require Import Bytes Spec MFmt MSerializer MRequest MSign MAuth MBuilder SpecCalls SpecAuth SpecBuild.

(** The same features, built in release mode. *)
Definition release (c : cfg) : cfg :=
  {| cf_debug := false; cf_alloc := cf_alloc c; cf_std := cf_std c |}.

(** Every public function that authorizes a request, as one family: [kind] chooses it, and [run]
    is a call of it, for the given buffer (or URI, for queries). *)
Inductive kind : Type :=
  | KAuthorize (uri : disp)
  | KForm (uri : disp)
  | KAuthorizeBuf (w : Writer) (buf : w) (uri : disp)
  | KFormBuf (w : Writer) (buf : w) (uri : disp)
  | KQuery (w : Writer) (show : w -> disp) (uri : w).

Definition kind_writer (k : kind) : Writer :=
  match k with
  | KAuthorize _ | KForm _ => StringW
  | KAuthorizeBuf w _ _ | KFormBuf w _ _ | KQuery w _ _ => w
  end.

Definition run (c : cfg) (e : env) (b : Builder) (k : kind) (method : bytes) (r : Request) : res (kind_writer k) :=
  match k return res (kind_writer k) with
  | KAuthorize uri => Builder_authorize c e b method uri r
  | KForm uri => Builder_to_form c e b method uri r
  | KAuthorizeBuf w buf uri => Builder_authorize_with_buf c e b buf method uri r
  | KFormBuf w buf uri => Builder_to_form_with_buf c e b buf method uri r
  | KQuery w show uri => Builder_to_query c e show b method uri r
  end.

(** The URI that is signed. *)
Definition kind_uri (k : kind) : disp :=
  match k with
  | KAuthorize uri | KForm uri | KAuthorizeBuf _ _ uri | KFormBuf _ _ uri => uri
  | KQuery _ show uri => show uri
  end.

(** What the buffer holds before the call. *)
Definition kind_buf (k : kind) : kind_writer k :=
  match k return kind_writer k with
  | KAuthorize _ | KForm _ => ([] : bytes)
  | KAuthorizeBuf _ buf _ | KFormBuf _ buf _ => buf
  | KQuery _ _ uri => uri
  end.

(** What a call that returns adds to the buffer, given the fields and the signature. *)
Definition kind_text (k : kind) (fields : list pair) (signature : bytes) : bytes :=
  match k with
  | KAuthorize _ | KAuthorizeBuf _ _ _ => header_text fields signature
  | KForm _ | KFormBuf _ _ _ => form_text (fields ++ [(lit "oauth_signature", signature)])
  | KQuery _ _ _ => lit "?" ++ form_text (fields ++ [(lit "oauth_signature", signature)])
  end.

(** For the variants that write "OAuth " before anything else: the buffer takes it. *)
Definition takes_prefix (k : kind) : Prop :=
  match k with
  | KAuthorizeBuf w buf _ => exists buf', write_unwrap (dstr (lit "OAuth ")) buf = Ok buf'
  | _ => True
  end.
