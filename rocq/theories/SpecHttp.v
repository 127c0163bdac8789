(** UTF-8, the grammar of the Authorization header that the example server documents, and the order
    in which it signs parameters.  Nothing here mentions the model of the example. *)
From Coq Require Import String.
From Coq Require Import Sorted.
From Verif Require Import Bytes Crypto Spec SpecForm.

(** ** UTF-8 (RFC 3629 section 4) *)

Definition between (lo hi : N) (b : byte) : Prop := (lo <= bn b <= hi)%N.
Definition utf8_tail (b : byte) : Prop := between 128 191 b.

Inductive utf8_char : bytes -> Prop :=
  | u1 : forall a, between 0 127 a -> utf8_char [a]
  | u2 : forall a b, between 194 223 a -> utf8_tail b -> utf8_char [a; b]
  | u3_e0 : forall a b d, between 224 224 a -> between 160 191 b -> utf8_tail d -> utf8_char [a; b; d]
  | u3_low : forall a b d, between 225 236 a -> utf8_tail b -> utf8_tail d -> utf8_char [a; b; d]
  | u3_ed : forall a b d, between 237 237 a -> between 128 159 b -> utf8_tail d -> utf8_char [a; b; d]
  | u3_high : forall a b d, between 238 239 a -> utf8_tail b -> utf8_tail d -> utf8_char [a; b; d]
  | u4_f0 : forall a b d f, between 240 240 a -> between 144 191 b -> utf8_tail d -> utf8_tail f ->
      utf8_char [a; b; d; f]
  | u4_mid : forall a b d f, between 241 243 a -> utf8_tail b -> utf8_tail d -> utf8_tail f ->
      utf8_char [a; b; d; f]
  | u4_f4 : forall a b d f, between 244 244 a -> between 128 143 b -> utf8_tail d -> utf8_tail f ->
      utf8_char [a; b; d; f].

(** Text: a sequence of characters.  Every Rust [str] is one. *)
Definition utf8 (s : bytes) : Prop := exists chars, Forall utf8_char chars /\ s = concat chars.
Definition utf8_pair (p : pair) : Prop := utf8 (fst p) /\ utf8 (snd p).

(** ** Reading percent-encoded text (WHATWG: URL, Encoding) *)

(** A hexadecimal digit, upper or lower case, and its value. *)
Definition hex_value (b : byte) (n : nat) : Prop :=
  nth_error (lit "0123456789ABCDEF") n = Some b \/ nth_error (lit "0123456789abcdef") n = Some b.

(** "%" and two hexadecimal digits are a byte; every other byte stays, and so does a "%" that is not followed by two
    hexadecimal digits. *)
Definition escape (s : bytes) (n : nat) (rest : bytes) : Prop :=
  exists h l x y, s = "%"%byte :: h :: l :: rest /\ hex_value h x /\ hex_value l y /\ n = 16 * x + y.
Inductive unescaped : bytes -> bytes -> Prop :=
  | us_nil : unescaped [] []
  | us_escape : forall s n b rest t, escape s n rest -> N.of_nat n = bn b -> unescaped rest t -> unescaped s (b :: t)
  | us_byte : forall b s t, (forall n rest, ~ escape (b :: s) n rest) -> unescaped s t -> unescaped (b :: s) (b :: t).

(** Bytes shown as text: characters stay.  Where no character starts, U+FFFD stands for the longest piece that could
    have been continued to a character, or for one byte if there is none. *)
Definition beginning (p : bytes) : Prop := exists more, more <> [] /\ utf8_char (p ++ more).
Definition broken_piece (p rest : bytes) : Prop :=
  (forall c more, p ++ rest = c ++ more -> ~ utf8_char c)
  /\ (length p = 1 \/ p <> [] /\ beginning p)
  /\ (forall q more, p ++ rest = q ++ more -> beginning q -> length q <= length p).
Inductive shown_as : bytes -> bytes -> Prop :=
  | sh_nil : shown_as [] []
  | sh_char : forall c s t, utf8_char c -> shown_as s t -> shown_as (c ++ s) (c ++ t)
  | sh_broken : forall p s t, broken_piece p s -> shown_as s t ->
      shown_as (p ++ s) (["239"; "191"; "189"]%byte ++ t).

Definition decodes_to (s t : bytes) : Prop := exists raw, unescaped s raw /\ shown_as raw t.
Definition pair_decodes_to (p q : pair) : Prop := decodes_to (fst p) (fst q) /\ decodes_to (snd p) (snd q).

(** A form: fields separated by "&", empty ones ignored; the name of a field is what is before the first "=", the value
    what is after it (nothing, if there is none); "+" is a space. *)
Definition field_reads_as (field : bytes) (p : pair) : Prop :=
  exists name value, (field = name ++ lit "=" ++ value \/ field = name /\ value = [])
    /\ ~ In "="%byte name
    /\ decodes_to (plus_to_space name) (fst p) /\ decodes_to (plus_to_space value) (snd p).
Definition form_reads_as (form : bytes) (l : list pair) : Prop :=
  exists fields, fields <> [] /\ form = join (lit "&") fields /\ Forall (fun f => ~ In "&"%byte f) fields
    /\ Forall2 field_reads_as (filter (fun f => negb (bseqb f [])) fields) l.

(** ** The Authorization header (RFC 7235, as quoted in examples/src/server/authorization.rs) *)

Definition alpha (b : byte) : Prop := between 65 90 b \/ between 97 122 b.
Definition digit (b : byte) : Prop := between 48 57 b.
Definition tchar (b : byte) : Prop := In b (lit "!#$%&'*+-.^_`|~") \/ digit b \/ alpha b.
Definition blank (b : byte) : Prop := b = " "%byte \/ b = "009"%byte.
Definition qdtext (b : byte) : Prop :=
  blank b \/ between 33 33 b \/ between 35 91 b \/ between 93 126 b \/ between 128 255 b.
Definition quotable (b : byte) : Prop := blank b \/ between 33 126 b \/ between 128 255 b.

(** [token = 1*tchar], [OWS = *( SP / HTAB )]. *)
Definition token_text (s : bytes) : Prop := s <> [] /\ Forall tchar s.
Definition ows_text (s : bytes) : Prop := Forall blank s.

(** [*( qdtext / quoted-pair )] and its value. *)
Inductive quoted_text : bytes -> bytes -> Prop :=
  | qt_nil : quoted_text [] []
  | qt_char : forall b s v, qdtext b -> quoted_text s v -> quoted_text (b :: s) (b :: v)
  | qt_pair : forall b s v, quotable b -> quoted_text s v -> quoted_text ("\"%byte :: b :: s) (b :: v).

Section Grammar.
  (** Whether the empty quoted string is allowed; it is, in the documented grammar. *)
  Variable empty : bool.

  (** [auth-param = token BWS "=" BWS ( token / quoted-string )] *)
  Inductive auth_param_text : bytes -> pair -> Prop :=
    | ap_token : forall k o1 o2 v, token_text k -> ows_text o1 -> ows_text o2 -> token_text v ->
        auth_param_text (k ++ o1 ++ lit "=" ++ o2 ++ v) (k, v)
    | ap_quoted : forall k o1 o2 s v, token_text k -> ows_text o1 -> ows_text o2 -> quoted_text s v ->
        (s <> [] \/ empty = true) ->
        auth_param_text (k ++ o1 ++ lit "=" ++ o2 ++ lit """" ++ s ++ lit """") (k, v).

  (** [#f => [f *( OWS "," OWS f )]] *)
  Inductive more_params_text : bytes -> list pair -> Prop :=
    | mp_nil : more_params_text [] []
    | mp_cons : forall o1 o2 a p s l, ows_text o1 -> ows_text o2 -> auth_param_text a p ->
        more_params_text s l -> more_params_text (o1 ++ lit "," ++ o2 ++ a ++ s) (p :: l).
  Inductive params_list_text : bytes -> list pair -> Prop :=
    | as_nil : params_list_text [] []
    | as_cons : forall a p s l, auth_param_text a p -> more_params_text s l -> params_list_text (a ++ s) (p :: l).

  (** [Authorization = auth-scheme [ 1*SP #auth-param ]], with at most [n] spaces. *)
  Inductive authorization_text (scheme : bytes) (n : nat) : bytes -> list pair -> Prop :=
    | at_bare : authorization_text scheme n scheme []
    | at_params : forall m s l, 1 <= m <= n -> params_list_text s l ->
        authorization_text scheme n (scheme ++ repeat " "%byte m ++ s) l.
End Grammar.

(** The header [h] uses the scheme: it is the longest token at the start. *)
Definition has_scheme (scheme h : bytes) : Prop :=
  token_text scheme /\ exists rest, h = scheme ++ rest /\ match rest with [] => True | b :: _ => ~ tchar b end.

(** ** The base string that the example server computes

    Like [base_string], but the parameters are sorted before they are encoded.  The two orders
    agree on parameters that need no encoding. *)
Definition raw_normalize (params : list pair) : bytes :=
  join (lit "&") (map (fun p => fst p ++ lit "=" ++ snd p) (map encode_pair (sort_pairs params))).
Definition raw_base_string (method uri : bytes) (params : list pair) : bytes :=
  pct_encode (map to_upper method) ++ lit "&" ++ pct_encode uri ++ lit "&" ++ pct_encode (raw_normalize params).
