(** Model of oauth-credentials/src/serde_imp.rs.  The data format (serde's [Deserializer] and
    [Serializer]) is external: it is left open. *)
From Coq Require Import String.
From Verif Require Import Bytes MFmt MCredentials.

(** serde_imp.rs:17-18 *)
Definition IDENTIFIER : bytes := lit "oauth_token".
Definition SECRET : bytes := lit "oauth_token_secret".
(** serde_imp.rs:16 *)
Definition CREDENTIALS : bytes := lit "Credentials".

(** [de::Unexpected], as far as it is reported.
    (serde_imp.rs:102-138) *)
Inductive unexpected := Unsigned (n : N) | Seq.

(** The errors: those of [de::Error] that the code raises (the last of them in provided methods of
    [de::Visitor]; its text is what [expecting] writes), and those of the format ([E]).
    (serde_imp.rs:102-138) *)
Inductive de_error (E : Type) :=
  | DuplicateField (field : bytes)
  | MissingField (field : bytes)
  | InvalidType (u : unexpected) (expected : bytes)
  | FormatError (e : E).
Arguments InvalidType {E} _ _.
Arguments DuplicateField {E} _.
Arguments MissingField {E} _.
Arguments FormatError {E} _.

(** What the format's deserializer does with a key: it calls [visit_str] or [visit_bytes] of the
    visitor (or [visit_borrowed_str] and the like, whose provided methods call these), [visit_u64]
    with the position of the field, or anything else, which fails.
    (serde_imp.rs:240-268) *)
Inductive key_read (E : Type) :=
  | VisitStr (s : bytes)
  | VisitBytes (s : bytes)
  | VisitU64 (n : N)
  | BadKey (e : E).
Arguments VisitStr {E} _.
Arguments VisitBytes {E} _.
Arguments VisitU64 {E} _.
Arguments BadKey {E} _.

(** An entry of a map: its key, what reading the value as [T] gives and what skipping it
    ([IgnoredAny]) gives.
    (serde_imp.rs:102-125) *)
Record entry (E T : Type) := {
  en_key : key_read E;
  en_value : T + E;
  en_ignored : unit + E;
}.
Arguments en_key {E T} _.
Arguments en_value {E T} _.
Arguments en_ignored {E T} _.

(** A [MapAccess]: finitely many entries, then the end or a failure of [next_key].  What
    [deserialize_struct] sees is such a map, a sequence of values, or something else, on which it
    fails ([visit_map] is the only method of the visitor that is not provided by serde).
    (serde_imp.rs:102-138) *)
Record map_access (E T : Type) := {
  ma_entries : list (entry E T);
  ma_end : option E;
}.
Arguments ma_entries {E T} _.
Arguments ma_end {E T} _.

(** What [deserialize_struct] hands to the visitor (serde_imp.rs:138). *)
Inductive input (E T : Type) :=
  | AMap (m : map_access E T)
  | ASeq (l : list (T + E))
  | NotAMap (e : E).
Arguments AMap {E T} _.
Arguments ASeq {E T} _.
Arguments NotAMap {E T} _.

(** serde_imp.rs:10-14 *)
Inductive Field := FIdentifier | FSecret | FOther.

(** serde_imp.rs:242-248 [visit_bytes] (the inner function). *)
Definition field_of (v : bytes) : Field :=
  if bseqb v (lit "oauth_token") then FIdentifier
  else if bseqb v (lit "oauth_token_secret") then FSecret
  else FOther.

(** serde_imp.rs:238-269 [Deserialize for Field]. *)
Definition Field_deserialize {E} (k : key_read E) : Field + de_error E :=
  match k with
  | VisitStr v => inl (field_of v)
  | VisitBytes v => inl (field_of v)
  | VisitU64 n => inr (InvalidType (Unsigned n) (lit "a string"))        (* provided; l.253-255 *)
  | BadKey e => inr (FormatError e)
  end.

(** An error of the format is an error of the result (the [try!]s of serde_imp.rs:102-138). *)
Definition lift {A E} (x : A + E) : A + de_error E :=
  match x with inl a => inl a | inr e => inr (FormatError e) end.

(** serde_imp.rs:106-124, the loop of [visit_map] and 126-133, what follows it. *)
Fixpoint visit_loop {E T} (end_ : option E) (map : list (entry E T)) (identifier secret : option T)
  : Credentials T + de_error E :=
  match map with
  | [] =>
      match end_ with
      | Some e => inr (FormatError e)
      | None =>
          match identifier with
          | None => inr (MissingField IDENTIFIER)
          | Some i =>
              match secret with
              | None => inr (MissingField SECRET)
              | Some s => inl {| cr_identifier := i; cr_secret := s |}
              end
          end
      end
  | en :: map' =>
      match Field_deserialize (en_key en) with
      | inr e => inr e
      | inl FIdentifier =>
          match identifier with
          | Some _ => inr (DuplicateField IDENTIFIER)
          | None => match lift (en_value en) with
                    | inl v => visit_loop end_ map' (Some v) secret
                    | inr e => inr e
                    end
          end
      | inl FSecret =>
          match secret with
          | Some _ => inr (DuplicateField SECRET)
          | None => match lift (en_value en) with
                    | inl v => visit_loop end_ map' identifier (Some v)
                    | inr e => inr e
                    end
          end
      | inl FOther =>
          match lift (en_ignored en) with
          | inl _ => visit_loop end_ map' identifier secret
          | inr e => inr e
          end
      end
  end.

(** serde_imp.rs:90-139 [Deserialize for Credentials<T>]. *)
Definition Credentials_deserialize {E T} (d : input E T) : Credentials T + de_error E :=
  match d with
  | AMap m => visit_loop (ma_end m) (ma_entries m) None None
  | ASeq _ => inr (InvalidType Seq (lit "struct Credentials"))           (* provided; l.98-100 *)
  | NotAMap e => inr (FormatError e)
  end.

(** serde's [Serializer] and [SerializeStruct], as used.
    (serde_imp.rs:229-236) *)
Record Serializer (T Out E : Type) := {
  sr_struct : Type;
  serialize_struct : bytes -> nat -> sr_struct + E;
  serialize_field : sr_struct -> bytes -> T -> sr_struct + E;
  serialize_end : sr_struct -> Out + E;
}.
Arguments sr_struct {T Out E} _.
Arguments serialize_struct {T Out E} _ _ _.
Arguments serialize_field {T Out E} _ _ _ _.
Arguments serialize_end {T Out E} _ _.

(** serde_imp.rs:223-236 [Serialize for Credentials<T>]. *)
Definition Credentials_serialize {T Out E} (s : Serializer T Out E) (c : Credentials T) : Out + E :=
  match serialize_struct s CREDENTIALS 2 with
  | inr e => inr e
  | inl st =>
      match serialize_field s st IDENTIFIER (cr_identifier c) with
      | inr e => inr e
      | inl st =>
          match serialize_field s st SECRET (cr_secret c) with
          | inr e => inr e
          | inl st => serialize_end s st
          end
      end
  end.
