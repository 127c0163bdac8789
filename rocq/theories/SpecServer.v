(** Requests that a conforming server can verify, and inputs in RFC 5849 normal form. *)
From Coq Require Import String.
From Coq Require Import Sorted Permutation.
From Verif Require Import Bytes Crypto Spec MFmt MSerializer MRequest SpecCalls SpecAuth SpecBuild SpecForm.

(** The request [r] carries the parameters [l] (decoded) in the way the documentation asks: every
    protocol parameter once, keys in order, values displayable, keys that need no encoding and are
    not protocol parameters, and repeated keys in RFC 5849 order. *)
Definition honest (r : Request) (l : list pair) : Prop :=
  exists cs, makes_calls r cs /\ call_protos cs = all_protos /\ ascending (map call_key cs)
    /\ Forall displays_ok cs /\ carries cs l /\ safe_keys l /\ no_oauth_keys l /\ rfc_sorted l.

(** A method in upper case that needs no encoding, and a URI that is its own base string URI. *)
Definition normal_method (method : bytes) : Prop := pct_encode (map to_upper method) = method.
Definition normal_uri (uri : bytes) : Prop := base_uri uri = uri /\ ~ has_question uri.
