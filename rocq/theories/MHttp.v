(** Third-party code used by the example client and server, as contracts: UTF-8 (std), the crates
    [percent-encoding], [form_urlencoded], [serde_urlencoded] and [nom], as far as the examples use
    them.  The examples themselves are in MServer.v and MClient.v. *)
From Coq Require Import String.
From Verif Require Import Bytes Crypto MFmt MPercent.

(** ** UTF-8 *)

(** A byte in an interval (as in examples/src/server/authorization.rs:182-202). *)
Definition in_range (lo hi : N) (b : byte) : bool := ((lo <=? bn b) && (bn b <=? hi))%N.
(** A continuation byte of UTF-8; used by [from_utf8_lossy] at examples/src/server/handler.rs:369-373. *)
Definition is_cont (b : byte) : bool := in_range 128 191 b.

(** What [core::str::lossy] finds at the start of a nonempty text: [inl] the bytes of a character,
    [inr] the bytes of an invalid sequence (the longest start of a character, at least one byte).
    (examples/src/server/handler.rs:369-373) *)
Definition utf8_first (b : byte) (rest : bytes) : bytes + bytes :=
  if (bn b <? 128)%N then inl [b]
  else if in_range 194 223 b then
    match rest with
    | c :: _ => if is_cont c then inl [b; c] else inr [b]
    | [] => inr [b]
    end
  else if in_range 224 239 b then
    match rest with
    | c :: rest' =>
        if (if beqb b "224" then in_range 160 191 c
            else if beqb b "237" then in_range 128 159 c else is_cont c) then
          match rest' with
          | d :: _ => if is_cont d then inl [b; c; d] else inr [b; c]
          | [] => inr [b; c]
          end
        else inr [b]
    | [] => inr [b]
    end
  else if in_range 240 244 b then
    match rest with
    | c :: rest' =>
        if (if beqb b "240" then in_range 144 191 c
            else if beqb b "244" then in_range 128 143 c else is_cont c) then
          match rest' with
          | d :: rest'' =>
              if is_cont d then
                match rest'' with
                | f :: _ => if is_cont f then inl [b; c; d; f] else inr [b; c; d]
                | [] => inr [b; c; d]
                end
              else inr [b; c]
          | [] => inr [b; c]
          end
        else inr [b]
    | [] => inr [b]
    end
  else inr [b].

(** [String::from_utf8_lossy]: invalid sequences become U+FFFD.
    (examples/src/server/handler.rs:369-373) *)
Definition replacement : bytes := ["239"; "191"; "189"]%byte.
(** As above (examples/src/server/handler.rs:369-373). *)
Fixpoint lossy_loop (fuel : nat) (s : bytes) : bytes :=
  match fuel, s with
  | _, [] => []
  | O, _ => []
  | S fuel', b :: rest =>
      match utf8_first b rest with
      | inl c => c ++ lossy_loop fuel' (skipn (length c) s)
      | inr c => replacement ++ lossy_loop fuel' (skipn (length c) s)
      end
  end.
(** As above (examples/src/server/handler.rs:369-373). *)
Definition from_utf8_lossy (s : bytes) : bytes := lossy_loop (length s) s.

(** [str::from_utf8] succeeds.
    (examples/src/server/handler.rs:373, examples/src/client/main.rs:63) *)
Fixpoint utf8_loop (fuel : nat) (s : bytes) : bool :=
  match fuel, s with
  | _, [] => true
  | O, _ => false
  | S fuel', b :: rest =>
      match utf8_first b rest with
      | inl c => utf8_loop fuel' (skipn (length c) s)
      | inr _ => false
      end
  end.
(** As above (examples/src/server/handler.rs:373, examples/src/client/main.rs:63). *)
Definition is_utf8 (s : bytes) : bool := utf8_loop (length s) s.

(** ** percent-encoding *)

(** [char::to_digit(16)]
    (examples/src/server/handler.rs:369-372) *)
Definition hex_digit (b : byte) : option N :=
  if in_range 48 57 b then Some (bn b - 48)%N
  else if in_range 65 70 b then Some (bn b - 55)%N
  else if in_range 97 102 b then Some (bn b - 87)%N
  else None.

(** [percent_decode(..)] as bytes: a "%" that is not followed by two hex digits stays.
    (examples/src/server/handler.rs:369-372) *)
Fixpoint percent_decode (s : bytes) : bytes :=
  match s with
  | [] => []
  | b :: s1 =>
      if beqb b "%" then
        match s1 with
        | h :: s2 =>
            match s2 with
            | l :: s3 =>
                match hex_digit h, hex_digit l with
                | Some x, Some y => n2b (x * 16 + y) :: percent_decode s3
                | _, _ => b :: percent_decode s1
                end
            | [] => b :: percent_decode s1
            end
        | [] => [b]
        end
      else b :: percent_decode s1
  end.

(** [percent_decode(..).decode_utf8_lossy()]
    (examples/src/server/handler.rs:369-372) *)
Definition decode_utf8_lossy (s : bytes) : bytes := from_utf8_lossy (percent_decode s).

(** [percent_encode(.., &RESERVED)], as text (the same crate and set as in MPercent.v).
    (examples/src/server/handler.rs:474-510) *)
Definition percent_encode_text (s : bytes) : bytes := concat (pe_chunks (length s) s).

(** ** form_urlencoded *)

(** Part of [form_urlencoded::parse] (examples/src/server/handler.rs:348). *)
Definition replace_plus (s : bytes) : bytes := map (fun b => if beqb b "+" then " "%byte else b) s.
(** Part of [form_urlencoded::parse] (examples/src/server/handler.rs:348). *)
Definition form_decode (s : bytes) : bytes := decode_utf8_lossy (replace_plus s).

(** [splitn(2, sep)]: what is before the first [sep] and what is after it (empty if there is none).
    Part of [form_urlencoded::parse] (examples/src/server/handler.rs:348). *)
Fixpoint splitn2 (sep : byte) (s : bytes) : bytes * bytes :=
  match s with
  | [] => ([], [])
  | b :: s' => if beqb b sep then ([], s') else let '(x, r) := splitn2 sep s' in (b :: x, r)
  end.

(** [form_urlencoded::parse], collected.  [fuel] bounds the number of iterations; each removes at
    least a byte.
    (examples/src/server/handler.rs:348) *)
Fixpoint form_parse_loop (fuel : nat) (input : bytes) : list (bytes * bytes) :=
  match fuel, input with
  | _, [] => []
  | O, _ => []
  | S fuel', _ =>
      let '(sequence, rest) := splitn2 "&" input in
      match sequence with
      | [] => form_parse_loop fuel' rest
      | _ =>
          let '(name, value) := splitn2 "=" sequence in
          (form_decode name, form_decode value) :: form_parse_loop fuel' rest
      end
  end.
(** As above (examples/src/server/handler.rs:348). *)
Definition form_parse (input : bytes) : list (bytes * bytes) := form_parse_loop (length input) input.

(** [form_urlencoded::byte_serialize]: "*-._" and alphanumerics stay, a space becomes "+".
    (examples/src/server/handler.rs:60, 99, 117) *)
Definition byte_serialize (s : bytes) : bytes :=
  flat_map (fun b =>
    if is_alphanumeric b || beqb b "*" || beqb b "-" || beqb b "." || beqb b "_" then [b]
    else if beqb b " " then ["+"%byte]
    else percent_encode_byte b) s.

(** [serde_urlencoded::to_string] of a sequence of pairs, or of a struct of texts.
    (examples/src/server/handler.rs:60, 99, 117) *)
Definition urlencoded_to_string (l : list (bytes * bytes)) : bytes :=
  join (lit "&") (map (fun p => byte_serialize (fst p) ++ lit "=" ++ byte_serialize (snd p)) l).

(** ** nom (complete parsers on bytes)

    A parser returns the rest and the output, or [None] for [Err::Error].  None of the parsers used
    gives [Err::Failure] or [Err::Incomplete].
    (examples/src/server/authorization.rs:17-25) *)
Definition parser (O : Type) := bytes -> option (bytes * O).

(** [tag] (examples/src/server/authorization.rs:122, 140, 176). *)
Fixpoint nom_tag (t input : bytes) : option (bytes * unit) :=
  match t, input with
  | [], _ => Some (input, tt)
  | a :: t', b :: input' => if beqb a b then nom_tag t' input' else None
  | _ :: _, [] => None
  end.

(** [take_while]: never fails.
    (examples/src/server/authorization.rs:151) *)
Fixpoint take_while (f : byte -> bool) (input : bytes) : bytes * bytes :=
  match input with
  | b :: input' => if f b then let '(rest, o) := take_while f input' in (rest, b :: o) else (input, [])
  | [] => ([], [])
  end.
(** [take_while1] (examples/src/server/authorization.rs:151, 173). *)
Definition take_while1 (f : byte -> bool) : parser bytes := fun input =>
  match take_while f input with
  | (_, []) => None
  | (rest, o) => Some (rest, o)
  end.
(** [take_while_m_n(1, 1, f)]
    [take_while_m_n(1, 1, f)] (examples/src/server/authorization.rs:174). *)
Definition take_one (f : byte -> bool) : parser bytes := fun input =>
  match input with
  | b :: rest => if f b then Some (rest, [b]) else None
  | [] => None
  end.

(** [is_space]: space or tab.
    (examples/src/server/authorization.rs:174, 183) *)
Definition nom_is_space (b : byte) : bool := beqb b " " || beqb b "009".
(** [space0]
    (examples/src/server/authorization.rs:158) *)
Definition space0 (input : bytes) : bytes * bytes := take_while nom_is_space input.

(** [escaped_transform(normal, '\\', transform)] where both parsers consume at least a byte.
    [first] says that nothing has been consumed yet; a first byte that neither parser takes is an
    error in the versions of nom that [empty_ok] is false for.
    (examples/src/server/authorization.rs:175) *)
Fixpoint escaped_transform (empty_ok : bool) (normal transform : parser bytes) (fuel : nat) (first : bool)
    (input : bytes) : option (bytes * bytes) :=
  match fuel, input with
  | _, [] => Some ([], [])
  | O, _ => None
  | S fuel', b :: input' =>
      match normal input with
      | Some (rest, o) =>
          match escaped_transform empty_ok normal transform fuel' false rest with
          | Some (rest, o') => Some (rest, o ++ o')
          | None => None
          end
      | None =>
          if beqb b "\" then
            match transform input' with
            | Some (rest, o) =>
                match escaped_transform empty_ok normal transform fuel' false rest with
                | Some (rest, o') => Some (rest, o ++ o')
                | None => None
                end
            | None => None
            end
          else if first && negb empty_ok then None
          else Some (input, [])
      end
  end.
