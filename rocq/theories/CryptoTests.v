(** Published test vectors for [Crypto.v] (these are tests, not proofs). *)
From Coq Require Import String.
From Verif Require Import Bytes Crypto.

Definition hex (s : bytes) : bytes :=
  flat_map (fun b => [nth (N.to_nat (bn b / 16)) (lit "0123456789abcdef") x00;
                      nth (N.to_nat (bn b mod 16)) (lit "0123456789abcdef") x00]) s.

Example sha1_empty : hex (sha1 []) = lit "da39a3ee5e6b4b0d3255bfef95601890afd80709".
Proof. vm_compute. reflexivity. Qed.
Example sha1_abc : hex (sha1 (lit "abc")) = lit "a9993e364706816aba3e25717850c26c9cd0d89d".
Proof. vm_compute. reflexivity. Qed.
Example sha1_two_blocks :
  hex (sha1 (lit "abcdbcdecdefdefgefghfghighijhijkijkljklmklmnlmnomnopnopq"))
  = lit "84983e441c3bd26ebaae4aa1f95129e5e54670f1".
Proof. vm_compute. reflexivity. Qed.
(** RFC 2202 case 2 and case 6. *)
Example hmac_2 : hex (hmac_sha1 (lit "Jefe") (lit "what do ya want for nothing?"))
  = lit "effcdf6ae5eb2fa2d27416d5f184df9c259a7c79".
Proof. vm_compute. reflexivity. Qed.
Example hmac_6 :
  hex (hmac_sha1 (repeat xaa 80) (lit "Test Using Larger Than Block-Size Key - Hash Key First"))
  = lit "aa4ae5e15272d00e95705637ce8a3b55ed402112".
Proof. vm_compute. reflexivity. Qed.
Example b64_f : map (fun s => base64 b64_std true (lit s)) ["f"; "fo"; "foo"; "foob"; "fooba"; "foobar"]%string
  = map lit ["Zg=="; "Zm8="; "Zm9v"; "Zm9vYg=="; "Zm9vYmE="; "Zm9vYmFy"]%string.
Proof. vm_compute. reflexivity. Qed.
Example b64_u : base64 b64_url false [xfb; xff; xfe] = lit "-__-".
Proof. vm_compute. reflexivity. Qed.
Example dec_1 : decimal 1234567890 = lit "1234567890".
Proof. vm_compute. reflexivity. Qed.
Example dec_0 : decimal 0 = lit "0".
Proof. vm_compute. reflexivity. Qed.
Example dec_max : decimal 18446744073709551615 = lit "18446744073709551615".
Proof. vm_compute. reflexivity. Qed.
