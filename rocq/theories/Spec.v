(** Specification, written from RFC 5849 (OAuth 1.0), RFC 3986 and the HTML form encoding rules.
    Nothing here mentions the model of the crate. *)
From Coq Require Import String.
From Verif Require Import Bytes Crypto.

(** ** Percent encoding (RFC 5849 section 3.6) *)

(** ALPHA, DIGIT, "-", ".", "_", "~" (RFC 3986 section 2.3). *)
Definition unreserved (b : byte) : bool :=
  let n := bn b in
  (((65 <=? n) && (n <=? 90)) || ((97 <=? n) && (n <=? 122)) || ((48 <=? n) && (n <=? 57))
   || (n =? 45) || (n =? 46) || (n =? 95) || (n =? 126))%N.

Definition upper_hex (n : N) : byte :=
  nth (N.to_nat n) ["0"; "1"; "2"; "3"; "4"; "5"; "6"; "7"; "8"; "9"; "A"; "B"; "C"; "D"; "E"; "F"]%byte x00.

Definition pct_byte (b : byte) : bytes :=
  if unreserved b then [b] else ["%"%byte; upper_hex (bn b / 16); upper_hex (bn b mod 16)].

Definition pct_encode (s : bytes) : bytes := flat_map pct_byte s.

(** Decoding, accepting both hex cases, rejecting a malformed escape. *)
Definition unhex (b : byte) : option N :=
  let n := bn b in
  (if (48 <=? n) && (n <=? 57) then Some (n - 48)
   else if (65 <=? n) && (n <=? 70) then Some (n - 55)
   else if (97 <=? n) && (n <=? 102) then Some (n - 87)
   else None)%N.

Fixpoint pct_decode (s : bytes) : option bytes :=
  match s with
  | [] => Some []
  | b :: s1 =>
      if beqb b "%" then
        match s1 with
        | h :: l :: s2 =>
            match unhex h, unhex l, pct_decode s2 with
            | Some x, Some y, Some r => Some (n2b (x * 16 + y) :: r)
            | _, _, _ => None
            end
        | _ => None
        end
      else option_map (cons b) (pct_decode s1)
  end.

(** Text in which every byte is unreserved (it encodes to itself). *)
Definition uri_safe (s : bytes) : Prop := forall b, In b s -> unreserved b = true.

(** ** Parameters normalization (RFC 5849 section 3.4.1.3.2) *)

Definition pair := (bytes * bytes)%type.

(** "sorted by name, using ascending byte value ordering; if two or more parameters share the
    same name, they are sorted by their value" *)
Definition pair_leb (p q : pair) : bool :=
  match bcmp (fst p) (fst q) with
  | Lt => true
  | Gt => false
  | Eq => bleb (snd p) (snd q)
  end.

Fixpoint insert_pair (p : pair) (l : list pair) : list pair :=
  match l with
  | [] => [p]
  | q :: l' => if pair_leb p q then p :: l else q :: insert_pair p l'
  end.

Definition sort_pairs (l : list pair) : list pair := fold_right insert_pair [] l.

Definition encode_pair (p : pair) : pair := (pct_encode (fst p), pct_encode (snd p)).

(** Encode names and values, sort, join names to values with "=", join pairs with "&". *)
Definition normalize (params : list pair) : bytes :=
  join (lit "&")
    (map (fun p => fst p ++ lit "=" ++ snd p) (sort_pairs (map encode_pair params))).

(** ** Signature base string (RFC 5849 section 3.4.1.1) *)

Definition to_upper (b : byte) : byte :=
  if ((97 <=? bn b) && (bn b <=? 122))%N then n2b (bn b - 32) else b.

Definition to_lower (b : byte) : byte :=
  if ((65 <=? bn b) && (bn b <=? 90))%N then n2b (bn b + 32) else b.

Fixpoint strip_prefix (p s : bytes) : option bytes :=
  match p, s with
  | [], _ => Some s
  | a :: p', b :: s' => if beqb a b then strip_prefix p' s' else None
  | _ :: _, [] => None
  end.

(** The first occurrence of [pat] in [s]: what is before and after it. *)
Fixpoint split_sub (pat s : bytes) {struct s} : option (bytes * bytes) :=
  match strip_prefix pat s with
  | Some r => Some ([], r)
  | None =>
      match s with
      | [] => None
      | b :: s' => option_map (fun '(a, r) => (b :: a, r)) (split_sub pat s')
      end
  end.

(** The longest prefix without any of the bytes [stop], and the rest. *)
Fixpoint span_until (stop : bytes) (s : bytes) : bytes * bytes :=
  match s with
  | [] => ([], [])
  | b :: s' =>
      if existsb (beqb b) stop then ([], s)
      else let '(a, r) := span_until stop s' in (b :: a, r)
  end.

Definition strip_suffix (p s : bytes) : option bytes :=
  option_map (@rev byte) (strip_prefix (rev p) (rev s)).

(** Base string URI (section 3.4.1.2): scheme and host in lower case, default port removed, no
    query, no fragment, at least "/" as path.  Text without "://" is left alone. *)
Definition base_uri (u : bytes) : bytes :=
  match split_sub (lit "://") u with
  | None => u
  | Some (scheme, rest) =>
      let '(authority, tail) := span_until (lit "/?#") rest in
      let '(path, _) := span_until (lit "?#") tail in
      let scheme := map to_lower scheme in
      let host := map to_lower authority in
      let port := if bseqb scheme (lit "http") then lit ":80"
                  else if bseqb scheme (lit "https") then lit ":443" else lit ":" in
      let host := match strip_suffix port host with Some h => h | None => host end in
      scheme ++ lit "://" ++ host ++ (match path with [] => lit "/" | _ => path end)
  end.

(** [method] in upper case, [uri] the base string URI, [params] all parameters, decoded. *)
Definition base_string (method uri : bytes) (params : list pair) : bytes :=
  pct_encode (map to_upper method) ++ lit "&" ++ pct_encode uri ++ lit "&"
  ++ pct_encode (normalize params).

(** ** Signatures (RFC 5849 sections 3.4.2 and 3.4.4) *)

Definition signing_key (client_secret : bytes) (token_secret : option bytes) : bytes :=
  pct_encode client_secret ++ lit "&"
  ++ pct_encode (match token_secret with Some t => t | None => [] end).

Definition hmac_signature (client_secret : bytes) (token_secret : option bytes) (base : bytes) : bytes :=
  base64 b64_std true (hmac_sha1 (signing_key client_secret token_secret) base).

(** ** Forms and queries (application/x-www-form-urlencoded) *)

Fixpoint split_at (sep : byte) (s : bytes) : bytes * option bytes :=
  match s with
  | [] => ([], None)
  | b :: s' =>
      if beqb b sep then ([], Some s')
      else let '(a, r) := split_at sep s' in (b :: a, r)
  end.

Fixpoint split_all (sep : byte) (s : bytes) : list bytes :=
  match s with
  | [] => [[]]
  | b :: s' =>
      if beqb b sep then [] :: split_all sep s'
      else match split_all sep s' with
           | [] => [[b]]
           | x :: l => (b :: x) :: l
           end
  end.

Definition plus_to_space (s : bytes) : bytes :=
  map (fun b => if beqb b "+" then " "%byte else b) s.

Fixpoint all_some {A} (l : list (option A)) : option (list A) :=
  match l with
  | [] => Some []
  | Some x :: l' => option_map (cons x) (all_some l')
  | None :: _ => None
  end.

Definition form_field (s : bytes) : option pair :=
  let '(k, v) := split_at "=" s in
  match pct_decode (plus_to_space k),
        pct_decode (plus_to_space (match v with Some v => v | None => [] end)) with
  | Some k, Some v => Some (k, v)
  | _, _ => None
  end.

Definition parse_form (s : bytes) : option (list pair) :=
  match s with
  | [] => Some []
  | _ => all_some (map form_field (split_all "&" s))
  end.

(** Split a URI into the part before the first "?" and the query fields. *)
Definition parse_uri (u : bytes) : option (bytes * list pair) :=
  let '(base, q) := split_at "?" u in
  match q with
  | None => Some (base, [])
  | Some q => option_map (fun l => (base, l)) (parse_form q)
  end.

(** ** Authorization header (RFC 5849 section 3.5.1)

    "OAuth", a space, then name="value" pairs separated by "," and optional spaces; names and
    values are percent encoded. *)

Fixpoint skip_spaces (s : bytes) : bytes :=
  match s with
  | b :: s' => if beqb b " " then skip_spaces s' else s
  | [] => []
  end.

(** One name="value" and what follows the closing quote. *)
Definition auth_param (s : bytes) : option (pair * bytes) :=
  match split_at "=" s with
  | (name, Some s1) =>
      match s1 with
      | q :: s2 =>
          if beqb q """" then
            match split_at """" s2 with
            | (value, Some rest) =>
                match pct_decode name, pct_decode value with
                | Some n, Some v => Some ((n, v), rest)
                | _, _ => None
                end
            | (_, None) => None
            end
          else None
      | [] => None
      end
  | (_, None) => None
  end.

Fixpoint auth_params (fuel : nat) (s : bytes) : option (list pair) :=
  match fuel with
  | O => None
  | S fuel' =>
      match auth_param s with
      | None => None
      | Some (p, rest) =>
          match skip_spaces rest with
          | [] => Some [p]
          | c :: rest' =>
              if beqb c "," then option_map (cons p) (auth_params fuel' (skip_spaces rest'))
              else None
          end
      end
  end.

Definition parse_header (h : bytes) : option (list pair) :=
  match strip_prefix (lit "OAuth ") h with
  | None => None
  | Some s => auth_params (length s) (skip_spaces s)
  end.

(** ** A server (RFC 5849 sections 3.2 and 3.4) *)

Definition lookup (k : bytes) (l : list pair) : list bytes :=
  map snd (filter (fun p => bseqb (fst p) k) l).

Definition has_key (k : bytes) (p : pair) : bool := bseqb (fst p) k.

(** The parameters that are signed (section 3.4.1.3.1): query, header without "realm", and body;
    "oauth_signature" is left out wherever it occurs. *)
Definition signed_params (header body query : list pair) : list pair :=
  filter (fun p => negb (has_key (lit "oauth_signature") p))
    (query ++ filter (fun p => negb (has_key (lit "realm") p)) header ++ body).

(** Verification of an HMAC-SHA1 request given what the server sees: the method, the request URI
    (possibly with a query), the Authorization header, the form body, and the two shared secrets.
    If the request is accepted, the result is the list of header parameters and the list of query
    and body parameters. *)
Definition server_verify (client_secret : bytes) (token_secret : option bytes)
    (method uri header body : bytes) : option (list pair * list pair) :=
  match parse_header header, parse_uri uri, parse_form body with
  | Some h, Some (base, q), Some b =>
      match lookup (lit "oauth_signature") h, lookup (lit "oauth_signature_method") h with
      | [sg], [m] =>
          if bseqb m (lit "HMAC-SHA1")
             && bseqb sg (hmac_signature client_secret token_secret
                            (base_string method (base_uri base) (signed_params h b q)))
          then Some (h, q ++ b)
          else None
      | _, _ => None
      end
  | _, _, _ => None
  end.

(** ** Decimal numbers *)

Definition digit_val (b : byte) : option N :=
  if ((48 <=? bn b) && (bn b <=? 57))%N then Some (bn b - 48)%N else None.

Definition read_decimal (s : bytes) : option N :=
  fold_left (fun acc b =>
               match acc, digit_val b with
               | Some a, Some d => Some (a * 10 + d)%N
               | _, _ => None
               end) s (Some 0%N).
