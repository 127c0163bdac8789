(** A server that takes the protocol parameters from wherever RFC 5849 section 3.5 allows (header,
    body or query), for any signature method. *)
From Coq Require Import String.
From Verif Require Import Bytes Crypto Spec.

(** All parameters of a request (section 3.4.1.3.1): those of the header except "realm", then query
    and body. *)
Definition all_params (header query body : list pair) : list pair :=
  filter (fun p => negb (has_key (lit "realm") p)) header ++ query ++ body.

(** [check name signature text] decides about signatures.  There must be exactly one
    "oauth_signature" and one "oauth_signature_method"; the result is the list of all parameters. *)
Definition server_check (check : bytes -> bytes -> bytes -> bool) (method uri : bytes) (header : option bytes)
    (body : bytes) : option (list pair) :=
  match (match header with Some h => parse_header h | None => Some [] end), parse_uri uri, parse_form body with
  | Some h, Some (base, q), Some b =>
      let all := all_params h q b in
      match lookup (lit "oauth_signature") all, lookup (lit "oauth_signature_method") all with
      | [sg], [m] =>
          if check m sg (base_string method (base_uri base)
                           (filter (fun p => negb (has_key (lit "oauth_signature") p)) all))
          then Some all
          else None
      | _, _ => None
      end
  | _, _, _ => None
  end.

(** HMAC-SHA1 (section 3.4.2). *)
Definition hmac_check (client_secret : bytes) (token_secret : option bytes) : bytes -> bytes -> bytes -> bool :=
  fun name signature text =>
    bseqb name (lit "HMAC-SHA1") && bseqb signature (hmac_signature client_secret token_secret text).

(** RSA-SHA1 (section 3.4.3) with a public key and a decoder of base 64. *)
Definition rsa_check (decode : bytes -> option bytes) (verify : bytes -> bytes -> bool) : bytes -> bytes -> bytes -> bool :=
  fun name signature text =>
    bseqb name (lit "RSA-SHA1")
    && match decode signature with Some s => verify (sha1 text) s | None => false end.

(** Two forms sent as one. *)
Definition form_join (a b : bytes) : bytes :=
  match a, b with
  | [], _ => b
  | _, [] => a
  | _, _ => a ++ lit "&" ++ b
  end.

(** A form added to the query of a URI that has one. *)
Definition query_join (u f : bytes) : bytes := match f with [] => u | _ => u ++ lit "&" ++ f end.
