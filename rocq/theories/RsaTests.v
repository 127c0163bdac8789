(** rsa_sha1.rs:165-207, the test case of <https://wiki.oauth.net/w/page/12238556/TestCases> (a test,
    not a proof).  The numbers are those of the DER text in the test.  The signature is not computed
    but verified; by theorem C68_only only one signature passes. *)
From Coq Require Import String.
From Coq Require Import ZArith Zpow_facts.
From Verif Require Import Bytes Crypto MFmt MPercent MSign ModelTests Rsa.
From Verif Require PropsExample.

Definition t_n : Z := 0xb46230b021f628a6babf1503ba95bddab17af12e5245b82bed8a74c5e69d06c6f406bb93b7818cad52fb42d89958cf2a52463571c31aecb9170fddeeb8d527404b07eb9b3caf2203f4f0de12d08173114464575c29fc8a47ee41f8d44b5b9949ab5d2c1f359b2741113949848e861f8b70adb0c9091d81c32fd759782a806473.
Definition t_public : rsa_key := {| rk_n := t_n; rk_exp := 0x10001 |}.

Definition t_signature : bytes :=
  lit "jvTp/wX1TYtByB1m+Pbyo0lnCOLIsyGCH7wke8AUs3BpnwZJtAuEJkvQL2/9n4s5wUmUl4aCI4BwpraNx4RtEXMe5qg5T1LVTGliMRpKasKsW//e+RinhejgCuzoH26dyF8iY2ZZ/5D1ilgeijhV/vBka5twt399mXwaYdCwFYE=".

(** The calls of the test, with a key that returns the digest instead of a signature. *)
Definition t_calls : res bytes :=
  let sm := RsaSha1_ref (fun h => Some h) in
  s <- sm_sign_with sm [] None ;;
  s <- sg_request_method s (lit "GET") ;;
  s <- sg_uri s (s2d "http%3A%2F%2Fphotos.example.net%2Fphotos") ;;
  s <- sg_parameter s (lit "file") (s2d "vacaction.jpg") ;;
  s <- sg_delimiter s ;;
  s <- sg_consumer_key s (s2d "dpf43f3p2l4k3l03") ;;
  s <- sg_delimiter s ;;
  s <- sg_nonce s (s2d "13917289812797014437") ;;
  s <- sg_delimiter s ;;
  s <- sg_signature_method s ;;
  s <- sg_delimiter s ;;
  s <- sg_timestamp s 1196666512%N ;;
  s <- sg_delimiter s ;;
  s <- sg_version s ;;
  s <- sg_delimiter s ;;
  s <- sg_parameter s (lit "size") (s2d "original") ;;
  Ok (sha1 (rs_fed s)).

(** The public key of the test accepts the signature of the test for these calls. *)
Example rsa_verify :
  match t_calls, PropsExample.base64_decode t_signature with
  | Ok digest, Some s => pkcs1_verify t_public digest s
  | _, _ => false
  end = true.
Proof. vm_compute. reflexivity. Qed.
