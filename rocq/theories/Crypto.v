(** Executable definitions of the primitives the crate takes from other crates.

    - SHA-1: RFC 3174 (crate [sha1]).
    - HMAC: RFC 2104 with SHA-1 (crate [hmac]).
    - Base 64: RFC 4648 section 4 with padding (crate [base64], engine [STANDARD]) and
      section 5 without padding (engine [URL_SAFE_NO_PAD]).

    They are the contracts of third-party code; the model and the specification share them.
    The test vectors of the RFCs and of the repository are checked in [CryptoTests.v]. *)
From Coq Require Import String.
From Verif Require Import Bytes.

Local Open Scope N_scope.

Definition n2b (n : N) : byte :=
  match Byte.of_N (n mod 256) with Some b => b | None => x00 end.

(** ** SHA-1 *)

Definition w32 (n : N) : N := N.land n 4294967295.
Definition add32 (a b : N) : N := w32 (a + b).
Definition not32 (a : N) : N := N.lxor a 4294967295.
Definition rotl (k : N) (a : N) : N := N.lor (w32 (N.shiftl a k)) (N.shiftr a (32 - k)).

(** Big-endian bytes to number and back. *)
Definition be_val (l : bytes) : N := fold_left (fun acc b => acc * 256 + bn b) l 0.

Fixpoint be_bytes (k : nat) (n : N) : bytes :=
  match k with
  | O => []
  | S k' => be_bytes k' (n / 256) ++ [n2b n]
  end.

(** Message padding: 0x80, zeros up to 56 mod 64, and the bit length on 64 bits. *)
Definition sha1_pad (m : bytes) : bytes :=
  let l := N.of_nat (length m) in
  let z := (119 - l mod 64) mod 64 in
  m ++ [x80] ++ repeat x00 (N.to_nat z) ++ be_bytes 8 (8 * l).

Fixpoint chunks (k : nat) (fuel : nat) (l : bytes) : list bytes :=
  match fuel with
  | O => []
  | S fuel' =>
      match l with
      | [] => []
      | _ => firstn k l :: chunks k fuel' (skipn k l)
      end
  end.

(** The message schedule, most recent word first. *)
Fixpoint sha1_sched (n : nat) (w : list N) : list N :=
  match n with
  | O => w
  | S n' =>
      let x := N.lxor (N.lxor (nth 2 w 0) (nth 7 w 0)) (N.lxor (nth 13 w 0) (nth 15 w 0)) in
      sha1_sched n' (rotl 1 x :: w)
  end.

Definition sha1_f (t : N) (b c d : N) : N :=
  if t <? 20 then N.lor (N.land b c) (N.land (not32 b) d)
  else if t <? 40 then N.lxor b (N.lxor c d)
  else if t <? 60 then N.lor (N.land b c) (N.lor (N.land b d) (N.land c d))
  else N.lxor b (N.lxor c d).

Definition sha1_k (t : N) : N :=
  if t <? 20 then 0x5A827999
  else if t <? 40 then 0x6ED9EBA1
  else if t <? 60 then 0x8F1BBCDC
  else 0xCA62C1D6.

Fixpoint sha1_rounds (t : N) (ws : list N) (s : N * N * N * N * N) : N * N * N * N * N :=
  match ws with
  | [] => s
  | w :: ws' =>
      let '(a, b, c, d, e) := s in
      let temp := add32 (add32 (rotl 5 a) (sha1_f t b c d)) (add32 (add32 e w) (sha1_k t)) in
      sha1_rounds (t + 1) ws' (temp, a, rotl 30 b, c, d)
  end.

Definition sha1_block (s : N * N * N * N * N) (blk : bytes) : N * N * N * N * N :=
  let ws := map be_val (chunks 4 16 blk) in
  let ws := rev (sha1_sched 64 (rev ws)) in
  let '(a, b, c, d, e) := s in
  let '(a', b', c', d', e') := sha1_rounds 0 ws s in
  (add32 a a', add32 b b', add32 c c', add32 d d', add32 e e').

Definition sha1_init : N * N * N * N * N :=
  (0x67452301, 0xEFCDAB89, 0x98BADCFE, 0x10325476, 0xC3D2E1F0).

Definition sha1 (m : bytes) : bytes :=
  let p := sha1_pad m in
  let '(a, b, c, d, e) := fold_left sha1_block (chunks 64 (length p) p) sha1_init in
  be_bytes 4 a ++ be_bytes 4 b ++ be_bytes 4 c ++ be_bytes 4 d ++ be_bytes 4 e.

(** ** HMAC-SHA1 *)

Definition xorb8 (x : N) (b : byte) : byte := n2b (N.lxor (bn b) x).

(** RFC 2104: keys longer than the block size are hashed first. *)
Definition hmac_block_key (key : bytes) : bytes :=
  let k := if Nat.ltb 64 (length key) then sha1 key else key in
  k ++ repeat x00 (64 - length k).

Definition hmac_sha1 (key msg : bytes) : bytes :=
  let k := hmac_block_key key in
  sha1 (map (xorb8 0x5c) k ++ sha1 (map (xorb8 0x36) k ++ msg)).

(** ** Base 64 *)

Definition b64_std : bytes :=
  lit "ABCDEFGHIJKLMNOPQRSTUVWXYZabcdefghijklmnopqrstuvwxyz0123456789+/".
Definition b64_url : bytes :=
  lit "ABCDEFGHIJKLMNOPQRSTUVWXYZabcdefghijklmnopqrstuvwxyz0123456789-_".

Definition b64_digit (alpha : bytes) (n : N) : byte := nth (N.to_nat n) alpha x00.

(** [pad] selects whether '=' padding is written. *)
Fixpoint base64 (alpha : bytes) (pad : bool) (l : bytes) : bytes :=
  match l with
  | [] => []
  | [a] =>
      [b64_digit alpha (bn a / 4); b64_digit alpha ((bn a mod 4) * 16)]
      ++ (if pad then lit "==" else [])
  | [a; b] =>
      [b64_digit alpha (bn a / 4);
       b64_digit alpha ((bn a mod 4) * 16 + bn b / 16);
       b64_digit alpha ((bn b mod 16) * 4)]
      ++ (if pad then lit "=" else [])
  | a :: b :: c :: r =>
      [b64_digit alpha (bn a / 4);
       b64_digit alpha ((bn a mod 4) * 16 + bn b / 16);
       b64_digit alpha ((bn b mod 16) * 4 + bn c / 64);
       b64_digit alpha (bn c mod 64)]
      ++ base64 alpha pad r
  end.

(** ** Decimal numbers, as [u64]'s [Display] writes them *)

Fixpoint dec_fuel (fuel : nat) (n : N) (acc : bytes) : bytes :=
  match fuel with
  | O => acc
  | S f =>
      let acc' := n2b (48 + n mod 10) :: acc in
      if n <? 10 then acc' else dec_fuel f (n / 10) acc'
  end.

(** One digit per bit is more than enough. *)
Definition decimal (n : N) : bytes := dec_fuel (S (N.to_nat (N.size n))) n [].
