(** RSASSA-PKCS1-v1_5 with SHA-1 (RFC 8017 section 8.2), which the crate takes from crate [rsa]:
    the contract of [RsaPrivateKey::sign] and of the verification with the public key.
    [RsaKey] of [MSign.v] stands for any signing function; here is the real one. *)
From Coq Require Import String.
From Coq Require Import ZArith Znumtheory Zpow_facts.
From Verif Require Import Bytes Crypto.

(** A key: the modulus and an exponent. *)
Record rsa_key := { rk_n : Z; rk_exp : Z }.

(** The length of the modulus in bytes ([PublicKeyParts::size]). *)
Definition rsa_size (n : Z) : nat := Z.to_nat ((Z.log2 n + 8) / 8).

(** The DER prefix of a [DigestInfo] with SHA-1 (section 9.2, note 1), which is what rsa_sha1_06.rs:11-13 and
    rsa_sha1_09.rs:11-13 ask for. *)
Definition sha1_prefix : bytes :=
  ["048"; "033"; "048"; "009"; "006"; "005"; "043"; "014"; "003"; "002"; "026"; "005"; "000"; "004"; "020"]%byte.

(** EMSA-PKCS1-v1_5-ENCODE of a digest (section 9.2): 00 01 FF .. FF 00 DigestInfo, in [k] bytes. *)
Definition emsa (k : nat) (digest : bytes) : option bytes :=
  if Nat.eqb (length digest) 20 && Nat.leb 46 k then
    Some (["000"; "001"]%byte ++ repeat "255"%byte (k - 38) ++ ["000"%byte] ++ sha1_prefix ++ digest)
  else None.

(** RSASP1 and RSAVP1 (section 5.2). *)
Definition rsa_raw (key : rsa_key) (m : Z) : Z := Zpow_mod m (rk_exp key) (rk_n key).

(** Section 8.2.1. *)
Definition pkcs1_sign (key : rsa_key) (digest : bytes) : option bytes :=
  let k := rsa_size (rk_n key) in
  match emsa k digest with
  | Some em => Some (be_bytes k (Z.to_N (rsa_raw key (Z.of_N (be_val em)))))
  | None => None
  end.

(** Section 8.2.2. *)
Definition pkcs1_verify (key : rsa_key) (digest signature : bytes) : bool :=
  let k := rsa_size (rk_n key) in
  let s := Z.of_N (be_val signature) in
  Nat.eqb (length signature) k && Z.ltb s (rk_n key)
  && match emsa k digest with
     | Some em => bseqb em (be_bytes k (Z.to_N (rsa_raw key s)))
     | None => false
     end.

(** A key pair (section 3): two distinct primes, and exponents that are inverse modulo [p - 1] and
    [q - 1]. *)
Definition key_pair (public private : rsa_key) : Prop :=
  exists p q, prime p /\ prime q /\ p <> q
    /\ rk_n public = (p * q)%Z /\ rk_n private = (p * q)%Z
    /\ (0 < rk_exp public)%Z /\ (0 < rk_exp private)%Z
    /\ (p - 1 | rk_exp public * rk_exp private - 1)%Z
    /\ (q - 1 | rk_exp public * rk_exp private - 1)%Z.
