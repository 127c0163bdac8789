(** C68-C70: RSA-SHA1 with real keys, and what a signed header is good for. *)
From Coq Require Import String.
From Coq Require Import Lia Arith Sorted Permutation ZArith Znumtheory.
From Verif Require Import Bytes Crypto Spec MFmt MPercent MSerializer MSign MRequest MCredentials MAuth MBuilder ModelTests
  SpecFmt SpecCalls SpecCalls2 SpecAuth SpecBuild SpecForm SpecServer SpecServer2 SpecParams SpecSign SpecPanic
  LBytes LFmt LPercent LCrypto LTrace LAuth LSign LBuild LForm LBase LBase2 LReq LReq2 LPanic LTop LParams LServer
  Rsa LRsa PropsServer PropsHeader PropsSign PropsPanic PropsServer2.
From Verif Require PropsExample LExample.

Local Open Scope nat_scope.

(** The builder signs with this private key, owned or borrowed. *)
Definition signs_with (b : Builder) (private : rsa_key) : Prop :=
  bd_signature_method b = RsaSha1 (pkcs1_sign private) \/ bd_signature_method b = RsaSha1_ref (pkcs1_sign private).

Definition rsa_conf (e : env) (b : Builder) : conf := conf_of (lit "RSA-SHA1") e b.

(** ** C68 The server with the public key accepts the requests signed with the private key *)

Theorem C68_accepted : forall c e b public private decode r l method uri d,
  key_pair public private -> 46 <= rsa_size (rk_n private) -> signs_with b private ->
  (forall x, decode (base64 b64_std true x) = Some x) ->
  timestamp_available c (rsa_conf e b) ->
  honest r l -> normal_method method -> normal_uri uri -> dtext d = uri -> dok d ->
  exists header body s, Builder_authorize c e b method d r = Ok header /\ to_form r = Ok body
    /\ server_check (rsa_check decode (pkcs1_verify public)) method uri (Some header) body
       = Some (protocol_pairs (rsa_conf e b) ++ (lit "oauth_signature", base64 b64_std true s) :: l).
Proof.
  intros c e b public private decode r l method uri d HK HS HB HD HT HR HM HU ED DD.
  destruct (sign_some private (sha1 (base_string method uri (protocol_pairs (rsa_conf e b) ++ l))) (LExample.sha1_length _) HS) as [s ES].
  destruct (C66_accepted c e b (pkcs1_sign private) decode (pkcs1_verify public) r l method uri d s HB HD) as [header [body [H1 [H2 H3]]]]; auto.
  - intros h x E. now apply (sign_verify public private h x HK).
  - exists header, body, s. auto.
Qed.
Print Assumptions C68_accepted.

(** For a given text the server accepts one signature only, the one that the private key makes. *)
Theorem C68_only : forall public private decode text signature, key_pair public private ->
  (rsa_check decode (pkcs1_verify public) (lit "RSA-SHA1") signature text = true
   <-> exists s, decode signature = Some s /\ pkcs1_sign private (sha1 text) = Some s).
Proof.
  intros public private decode text signature HK. unfold rsa_check. rewrite bseqb_refl. cbn [andb].
  destruct (decode signature) as [s|]; [|split; [discriminate|intros [s [E _]]; discriminate]].
  rewrite (sign_verify public private _ s HK). split.
  - intros E. eauto.
  - intros [s' [E1 E2]]. now injection E1 as ->.
Qed.
Print Assumptions C68_only.

(** ** C69 Which keys can be used *)

(** With a modulus of fewer than 46 bytes no call returns, ... *)
Theorem C69_short : forall c e b private k method r cs out,
  signs_with b private -> rsa_size (rk_n private) < 46 ->
  makes_calls r cs -> Permutation (call_protos cs) all_protos ->
  run c e b k method r <> Ok out.
Proof.
  intros c e b private k method r cs out HB HS HM HP H.
  assert (HBI : builtin (bd_signature_method b) (lit "RSA-SHA1") true
    (fun _ _ text => option_map (fun s => pct_encode (base64 b64_std true s)) (pkcs1_sign private (sha1 text)))).
  { destruct HB as [->| ->]; constructor. }
  destruct (C36_complete c e b _ _ _ k method r cs out HBI HM HP H) as [_ [sig [pieces [ES _]]]].
  rewrite (sign_none private _ HS) in ES. discriminate ES.
Qed.
Print Assumptions C69_short.

(** ... and with a longer one every valid use returns. *)
Theorem C69_long : forall c e b private k method r l,
  signs_with b private -> 46 <= rsa_size (rk_n private) ->
  crate_request r l -> infallible (kind_writer k) ->
  cf_std c = true \/ op_timestamp (bd_options b) <> None ->
  dok (kind_uri k) -> ~ has_question (dtext (kind_uri k)) ->
  Forall (fun p => dok (snd p)) l -> ascending (map fst l) ->
  exists out, run c e b k method r = Ok out.
Proof.
  intros c e b private k method r l HB HS. apply (C35_rsa c e b k method r l (pkcs1_sign private) HB).
  intros text E. destruct (sign_some private (sha1 text) (LExample.sha1_length _) HS) as [s ES]. congruence.
Qed.
Print Assumptions C69_long.

(** ** C70 A signed header is good for one request only *)

Lemma lookup_in : forall k v l, In (k, v) l -> In v (lookup k l).
Proof.
  intros k v l I. unfold lookup. apply in_map_iff. exists (k, v). split; [reflexivity|]. apply filter_In. split; [exact I|].
  cbn [fst]. apply bseqb_refl.
Qed.

Lemma filter_all : forall {A} (g : A -> bool) l, (forall x, In x l -> g x = true) -> filter g l = l.
Proof.
  induction l as [|x l IH]; intros H; [reflexivity|]. cbn [filter]. rewrite (H x (or_introl eq_refl)).
  f_equal. apply IH. intros y Hy. apply H. now right.
Qed.

Lemma protocol_key_in : forall cf p, In p (protocol_pairs cf) -> exists q, fst p = proto_key q.
Proof. intros cf p I. rewrite <- raw_all in I. apply raw_in in I as [q [_ [E _]]]. eauto. Qed.

(** What a server that accepts the header has checked. *)
Lemma server_bound : forall check cf sig header method uri body out,
  parse_header header = Some (protocol_pairs cf ++ [(lit "oauth_signature", sig)]) ->
  server_check check method uri (Some header) body = Some out ->
  exists base q b, parse_uri uri = Some (base, q) /\ parse_form body = Some b
    /\ check (cn_name cf) sig (base_string method (base_uri base) (protocol_pairs cf ++ q ++ b)) = true.
Proof.
  intros check cf sig header method uri body out HH H. unfold server_check in H. rewrite HH in H.
  destruct (parse_uri uri) as [[base q]|]; [|discriminate]. destruct (parse_form body) as [b|]; [|discriminate].
  exists base, q, b. split; [reflexivity|]. split; [reflexivity|].
  assert (EA : all_params (protocol_pairs cf ++ [(lit "oauth_signature", sig)]) q b
             = protocol_pairs cf ++ (lit "oauth_signature", sig) :: q ++ b).
  { unfold all_params. rewrite filter_all.
    - now rewrite <- app_assoc.
    - intros p I. apply in_app_iff in I. destruct I as [I|[<-|[]]]; [|reflexivity].
      apply protocol_key_in in I as [x E]. unfold has_key. rewrite E. destruct x; reflexivity. }
  rewrite EA in H.
  assert (L1 : lookup (lit "oauth_signature") (protocol_pairs cf ++ (lit "oauth_signature", sig) :: q ++ b)
             = sig :: lookup (lit "oauth_signature") (q ++ b)).
  { rewrite lookup_app, (lookup_none (lit "oauth_signature") (protocol_pairs cf)); [reflexivity|].
    intros p I E. apply protocol_key_in in I as [x E']. apply (sig_not_proto x). congruence. }
  rewrite L1 in H. destruct (lookup (lit "oauth_signature") (q ++ b)) as [|v vs] eqn:EL; [|discriminate].
  assert (L2 : exists ms, lookup (lit "oauth_signature_method") (protocol_pairs cf ++ (lit "oauth_signature", sig) :: q ++ b) = cn_name cf :: ms).
  { rewrite lookup_app. change (lit "oauth_signature_method") with (proto_key PSignatureMethod).
    rewrite <- raw_all, (lookup_raw cf all_protos PSignatureMethod all_protos_nodup) by (cbn; tauto). cbn [sent app]. eauto. }
  destruct L2 as [ms L2]. rewrite L2 in H. destruct ms as [|m ms]; [|discriminate].
  assert (EF : filter (fun p => negb (has_key (lit "oauth_signature") p)) (protocol_pairs cf ++ (lit "oauth_signature", sig) :: q ++ b)
             = protocol_pairs cf ++ q ++ b).
  { rewrite filter_app. f_equal.
    - apply filter_all. intros p I. apply protocol_key_in in I as [x E]. unfold has_key. rewrite E. destruct x; reflexivity.
    - cbn [filter]. change (has_key (lit "oauth_signature") (lit "oauth_signature", sig)) with true. cbn [negb].
      apply filter_all. intros [k v] I. unfold has_key. cbn [fst]. destruct (bseqb k (lit "oauth_signature")) eqn:EK; [|reflexivity].
      apply bseqb_eq in EK. subst k. apply lookup_in in I. rewrite EL in I. destruct I. }
  rewrite EF in H. destruct (check (cn_name cf) sig (base_string method (base_uri base) (protocol_pairs cf ++ q ++ b))); [reflexivity|discriminate].
Qed.

(** The request that the server sees is the one that was signed. *)
Definition same_request (method uri : bytes) (l : list pair) (method' uri' : bytes) (l' : list pair) : Prop :=
  map to_upper method' = map to_upper method /\ base_uri uri' = uri /\ Permutation l' l.

Lemma same_or_different : forall method uri l method' uri' l' pairs,
  base_string method uri (pairs ++ l) = base_string method' (base_uri uri') (pairs ++ l') -> same_request method uri l method' uri' l'.
Proof.
  intros method uri l method' uri' l' pairs E. apply base_string_inj in E as [E1 [E2 E3]]. split; [congruence|]. split; [congruence|].
  apply Permutation_app_inv_l in E3. now apply Permutation_sym.
Qed.

(** If a server accepts the header with any method, URI and body, the request is the signed one, or
    these two different texts have the same HMAC. *)
Theorem C70_hmac : forall c e b r l method d header method' uri' body' out,
  bd_signature_method b = HMAC_SHA1 -> honest r l -> normal_method method ->
  Builder_authorize c e b method d r = Ok header ->
  server_check (hmac_check (client_secret b) (token_secret b)) method' uri' (Some header) body' = Some out ->
  exists base q body, parse_uri uri' = Some (base, q) /\ parse_form body' = Some body
    /\ (same_request method (dtext d) l method' base (q ++ body)
        \/ let text := base_string method (dtext d) (protocol_pairs (hmac_conf e b) ++ l) in
           let text' := base_string method' (base_uri base) (protocol_pairs (hmac_conf e b) ++ q ++ body) in
           let key := pct_encode (client_secret b) ++ "&"%byte :: pct_encode (match token_secret b with Some s => s | None => [] end) in
           text <> text' /\ hmac_sha1 key text = hmac_sha1 key text').
Proof.
  intros c e b r l method d header method' uri' body' out HB HR HM H1 H2.
  pose proof (C17_read_back c e b r l method d header HB HR HM H1) as HH.
  destruct (server_bound _ _ _ _ _ _ _ _ HH H2) as [base [q [body [E1 [E2 E3]]]]]. exists base, q, body. split; [exact E1|]. split; [exact E2|].
  unfold hmac_check in E3. apply andb_prop in E3 as [_ E3]. apply bseqb_eq in E3. unfold rfc_signature, hmac_signature in E3.
  apply (f_equal PropsExample.unbase64) in E3. rewrite !PropsExample.unbase64_base64 in E3.
  destruct (list_eq_dec Byte.byte_eq_dec (base_string method (dtext d) (protocol_pairs (hmac_conf e b) ++ l))
    (base_string method' (base_uri base) (protocol_pairs (hmac_conf e b) ++ q ++ body))) as [E|N].
  - left. now apply same_or_different in E.
  - right. cbv zeta. split; [exact N|]. exact E3.
Qed.
Print Assumptions C70_hmac.

Lemma rsa_header : forall c e b private r l method d header,
  signs_with b private -> honest r l -> normal_method method -> Builder_authorize c e b method d r = Ok header ->
  exists s, pkcs1_sign private (sha1 (base_string method (dtext d) (protocol_pairs (rsa_conf e b) ++ l))) = Some s
    /\ header = header_text (wire_fields (rsa_conf e b) all_protos) (pct_encode (base64 b64_std true s))
    /\ parse_header header = Some (protocol_pairs (rsa_conf e b) ++ [(lit "oauth_signature", base64 b64_std true s)]).
Proof.
  intros c e b private r l method d header HB HR HM H1.
  assert (HBI : builtin (bd_signature_method b) (lit "RSA-SHA1") true
    (fun _ _ text => option_map (fun s => pct_encode (base64 b64_std true s)) (pkcs1_sign private (sha1 text)))).
  { destruct HB as [->| ->]; constructor. }
  destruct HR as [cs [M [P [A [D [C [S [O R]]]]]]]].
  assert (HP : Permutation (call_protos cs) all_protos) by now rewrite P.
  apply (authorize_exact c e b _ _ _ HBI r cs M HP) in H1 as [HT [HV [sig [ES EO]]]].
  unfold sig_of in ES. rewrite (hashed_is_base _ cs l method _ HM HP A C S O R) in ES. unfold rsa_conf.
  destruct (pkcs1_sign private _) as [s|]; [|discriminate]. exists s. split; [reflexivity|].
  cbn [option_map] in ES. injection ES as <-. rewrite P in EO. split; [exact EO|].
  rewrite EO, <- raw_all. apply parse_header_text.
  - apply wire_reads. now apply safe_name.
  - apply pct_decode_enc_quote.
  - apply pct_decode_encode.
Qed.

(** With RSA-SHA1: or they have the same SHA-1 digest. *)
Theorem C70_rsa : forall c e b public private decode r l method d header method' uri' body' out,
  key_pair public private -> signs_with b private -> (forall x, decode (base64 b64_std true x) = Some x) ->
  honest r l -> normal_method method ->
  Builder_authorize c e b method d r = Ok header ->
  server_check (rsa_check decode (pkcs1_verify public)) method' uri' (Some header) body' = Some out ->
  exists base q body, parse_uri uri' = Some (base, q) /\ parse_form body' = Some body
    /\ (same_request method (dtext d) l method' base (q ++ body)
        \/ let text := base_string method (dtext d) (protocol_pairs (rsa_conf e b) ++ l) in
           let text' := base_string method' (base_uri base) (protocol_pairs (rsa_conf e b) ++ q ++ body) in
           text <> text' /\ sha1 text = sha1 text').
Proof.
  intros c e b public private decode r l method d header method' uri' body' out HK HB HD HR HM H1 H2.
  destruct (rsa_header c e b private r l method d header HB HR HM H1) as [s [ES [EH HH]]].
  destruct (server_bound _ _ _ _ _ _ _ _ HH H2) as [base [q [body [E1 [E2 E3]]]]]. exists base, q, body. split; [exact E1|]. split; [exact E2|].
  unfold rsa_check in E3. apply andb_prop in E3 as [_ E3]. rewrite HD in E3.
  apply (sign_verify public private _ _ HK) in ES. pose proof (verify_inj _ _ _ _ ES E3) as E.
  destruct (list_eq_dec Byte.byte_eq_dec (base_string method (dtext d) (protocol_pairs (rsa_conf e b) ++ l))
    (base_string method' (base_uri base) (protocol_pairs (rsa_conf e b) ++ q ++ body))) as [E4|N].
  - left. now apply same_or_different in E4.
  - right. cbv zeta. split; [exact N|exact E].
Qed.
Print Assumptions C70_rsa.

(** ** C19 for the built-in methods *)

(** Two honest requests with the same base string are the same request, with the same values of all
    protocol parameters. *)
Lemma base_string_request : forall cf cf' r l method uri r' l' method' uri',
  honest r l -> normal_method method -> honest r' l' -> normal_method method' ->
  base_string method uri (protocol_pairs cf ++ l) = base_string method' uri' (protocol_pairs cf' ++ l') ->
  method = method' /\ uri = uri' /\ l = l' /\ wire_fields cf all_protos = wire_fields cf' all_protos.
Proof.
  intros cf cf' r l method uri r' l' method' uri' [cs [M [P [A [D [C [S [O R]]]]]]]] HM [cs' [M' [P' [A' [D' [C' [S' [O' R']]]]]]]] HM' E.
  assert (Q : Permutation (call_protos cs) all_protos) by now rewrite P.
  assert (Q' : Permutation (call_protos cs') all_protos) by now rewrite P'.
  rewrite <- (hashed_is_base cf cs l method uri HM Q A C S O R) in E.
  rewrite <- (hashed_is_base cf' cs' l' method' uri' HM' Q' A' C' S' O' R') in E.
  apply (C19_signed_text _ _ l _ _ _ _ l' _ _ P C S O (normal_method_no_amp _ HM) P' C' S' O' (normal_method_no_amp _ HM')) in E
    as [EM [EU [EL EP]]].
  split; [exact EM|]. split; [exact EU|]. split; [exact EL|]. unfold wire_fields. apply flat_map_ext. intros p. now rewrite EP.
Qed.

(** Two requests (of possibly different builders) signed with HMAC-SHA1 and the same secrets have the same signature only if
    method, URI, parameters and the whole header are the same, or their different base strings have the same HMAC. *)
Theorem C19_hmac : forall c e b r l method d header c' e' b' r' l' method' d' header' sig,
  bd_signature_method b = HMAC_SHA1 -> bd_signature_method b' = HMAC_SHA1 ->
  client_secret b' = client_secret b -> token_secret b' = token_secret b ->
  honest r l -> normal_method method -> honest r' l' -> normal_method method' ->
  Builder_authorize c e b method d r = Ok header -> Builder_authorize c' e' b' method' d' r' = Ok header' ->
  option_map (lookup (lit "oauth_signature")) (parse_header header) = Some [sig] ->
  option_map (lookup (lit "oauth_signature")) (parse_header header') = Some [sig] ->
  (method = method' /\ dtext d = dtext d' /\ l = l' /\ header = header')
  \/ let text := base_string method (dtext d) (protocol_pairs (hmac_conf e b) ++ l) in
     let text' := base_string method' (dtext d') (protocol_pairs (hmac_conf e' b') ++ l') in
     let key := pct_encode (client_secret b) ++ "&"%byte :: pct_encode (match token_secret b with Some s => s | None => [] end) in
     text <> text' /\ hmac_sha1 key text = hmac_sha1 key text'.
Proof.
  intros c e b r l method d header c' e' b' r' l' method' d' header' sig HB HB' EC ET HR HM HR' HM' H H' L L'.
  assert (HL : forall cf s, lookup (lit "oauth_signature") (protocol_pairs cf ++ [(lit "oauth_signature", s)]) = [s]).
  { intros cf s. rewrite lookup_app, (lookup_none (lit "oauth_signature") (protocol_pairs cf)); [reflexivity|].
    intros p I E. apply protocol_key_in in I as [x E']. apply (sig_not_proto x). congruence. }
  rewrite (C17_read_back c e b r l method d header HB HR HM H) in L.
  rewrite (C17_read_back c' e' b' r' l' method' d' header' HB' HR' HM' H') in L'.
  cbn [option_map] in L, L'. rewrite HL in L, L'. injection L as L. injection L' as L'.
  destruct (list_eq_dec Byte.byte_eq_dec (base_string method (dtext d) (protocol_pairs (hmac_conf e b) ++ l))
    (base_string method' (dtext d') (protocol_pairs (hmac_conf e' b') ++ l'))) as [E|N].
  - left. destruct (base_string_request _ _ _ _ _ _ _ _ _ _ HR HM HR' HM' E) as [EM [EU [EL EW]]].
    split; [exact EM|]. split; [exact EU|]. split; [exact EL|].
    rewrite (C17_header c e b r l method d header HB HR HM H), (C17_header c' e' b' r' l' method' d' header' HB' HR' HM' H').
    rewrite EW, L, L'. reflexivity.
  - right. cbv zeta. split; [exact N|]. rewrite <- L' in L. unfold rfc_signature, hmac_signature in L. rewrite EC, ET in L.
    apply (f_equal PropsExample.unbase64) in L. rewrite !PropsExample.unbase64_base64 in L. exact L.
Qed.
Print Assumptions C19_hmac.

(** RSA-SHA1 with the same key: or the different base strings have the same SHA-1 digest. *)
Theorem C19_rsa : forall c e b r l method d header c' e' b' r' l' method' d' header' sig public private,
  key_pair public private -> signs_with b private -> signs_with b' private ->
  honest r l -> normal_method method -> honest r' l' -> normal_method method' ->
  Builder_authorize c e b method d r = Ok header -> Builder_authorize c' e' b' method' d' r' = Ok header' ->
  option_map (lookup (lit "oauth_signature")) (parse_header header) = Some [sig] ->
  option_map (lookup (lit "oauth_signature")) (parse_header header') = Some [sig] ->
  (method = method' /\ dtext d = dtext d' /\ l = l' /\ header = header')
  \/ let text := base_string method (dtext d) (protocol_pairs (rsa_conf e b) ++ l) in
     let text' := base_string method' (dtext d') (protocol_pairs (rsa_conf e' b') ++ l') in
     text <> text' /\ sha1 text = sha1 text'.
Proof.
  intros c e b r l method d header c' e' b' r' l' method' d' header' sig public private HK HB HB' HR HM HR' HM' H H' L L'.
  assert (HL : forall cf s, lookup (lit "oauth_signature") (protocol_pairs cf ++ [(lit "oauth_signature", s)]) = [s]).
  { intros cf s. rewrite lookup_app, (lookup_none (lit "oauth_signature") (protocol_pairs cf)); [reflexivity|].
    intros p I E. apply protocol_key_in in I as [x E']. apply (sig_not_proto x). congruence. }
  destruct (rsa_header c e b private r l method d header HB HR HM H) as [s [ES [EH EP]]].
  destruct (rsa_header c' e' b' private r' l' method' d' header' HB' HR' HM' H') as [s' [ES' [EH' EP']]].
  rewrite EP in L. rewrite EP' in L'. cbn [option_map] in L, L'. rewrite HL in L, L'. injection L as L. injection L' as L'.
  assert (E : s = s') by (rewrite <- L' in L; apply (f_equal PropsExample.unbase64) in L; now rewrite !PropsExample.unbase64_base64 in L).
  subst s'. destruct (list_eq_dec Byte.byte_eq_dec (base_string method (dtext d) (protocol_pairs (rsa_conf e b) ++ l))
    (base_string method' (dtext d') (protocol_pairs (rsa_conf e' b') ++ l'))) as [E|N].
  - left. destruct (base_string_request _ _ _ _ _ _ _ _ _ _ HR HM HR' HM' E) as [EM [EU [EL EW]]].
    split; [exact EM|]. split; [exact EU|]. split; [exact EL|]. rewrite EH, EH', EW. reflexivity.
  - right. cbv zeta. split; [exact N|].
    apply (sign_verify public private _ _ HK) in ES. apply (sign_verify public private _ _ HK) in ES'.
    exact (verify_inj _ _ _ _ ES ES').
Qed.
Print Assumptions C19_rsa.

(** ** Examples: a real key pair *)

Definition ex_g : Z := 0x8ab5b1f8884dc6eabc18bcf5f4ebb4b585e177b0317.
Definition ex_p : Z := 0x46819b16744888bc10dc130c851e4f3ac4ad3af66f210f.
Definition ex_q : Z := 0x57e9a80bc4634b5245b6adc2e27a63480c1a261b6b553d.
Definition ex_d : Z := 0xd67e4901828e432c21b0b5267cf89b6e6253cc934c79c231.
Lemma ex_g_prime : prime ex_g.
Proof.
  refine (pock_prime 0x8ab5b1f8884dc6eabc18bcf5f4ebb4b585e177b0317 0x1e96cf918805e92b891408d8d0a0e77 0x488dc62f28d1a 2 _ _); [|vm_compute; reflexivity].
  refine (pock_prime 0x1e96cf918805e92b891408d8d0a0e77 0x1dd215faf471b80d 0x10698d0e7596c4ce 2 _ _); [|vm_compute; reflexivity].
  refine (pock_prime 0x1dd215faf471b80d 0x1a23593f1 0x124114cc 2 _ _); [|vm_compute; reflexivity].
  refine (pock_prime 0x1a23593f1 0x1842b 0x113d0 2 _ _); [|vm_compute; reflexivity].
  refine (pock_prime 0x1842b 0x20b 0xbe 2 _ _); [|vm_compute; reflexivity].
  refine (pock_prime 0x20b 0x1d 0x12 2 _ _); [|vm_compute; reflexivity].
  refine (pock_prime 0x1d 0x7 0x4 2 _ _); [|vm_compute; reflexivity].
  refine (pock_prime 0x7 0x3 0x2 2 _ _); [|vm_compute; reflexivity].
  exact prime_3.
Qed.
Lemma ex_p_prime : prime ex_p.
Proof.
  refine (pock_prime 0x46819b16744888bc10dc130c851e4f3ac4ad3af66f210f 0x8ab5b1f8884dc6eabc18bcf5f4ebb4b585e177b0317 0x822 2 _ _).
  - exact ex_g_prime.
  - vm_compute; reflexivity.
Qed.
Lemma ex_q_prime : prime ex_q.
Proof.
  refine (pock_prime 0x57e9a80bc4634b5245b6adc2e27a63480c1a261b6b553d 0x8ab5b1f8884dc6eabc18bcf5f4ebb4b585e177b0317 0xa24 2 _ _).
  - exact ex_g_prime.
  - vm_compute; reflexivity.
Qed.
Definition ex_public : rsa_key := {| rk_n := ex_p * ex_q; rk_exp := 5 |}.
Definition ex_private : rsa_key := {| rk_n := ex_p * ex_q; rk_exp := ex_d |}.

Example C68_example_key : key_pair ex_public ex_private.
Proof.
  exists ex_p, ex_q. split; [exact ex_p_prime|]. split; [exact ex_q_prime|].
  assert (B : negb (ex_p =? ex_q)%Z && (0 <? ex_d)%Z && (((5 * ex_d - 1) mod (ex_p - 1) =? 0)%Z)
              && (((5 * ex_d - 1) mod (ex_q - 1) =? 0)%Z) && negb (ex_p - 1 =? 0)%Z && negb (ex_q - 1 =? 0)%Z = true)
    by (vm_compute; reflexivity).
  repeat (apply andb_prop in B as [B ?]).
  repeat match goal with H : negb _ = true |- _ => apply negb_true_iff in H; apply Z.eqb_neq in H
    | H : (_ <? _)%Z = true |- _ => apply Z.ltb_lt in H | H : (_ =? _)%Z = true |- _ => apply Z.eqb_eq in H end.
  split; [assumption|]. split; [reflexivity|]. split; [reflexivity|]. split; [reflexivity|]. split; [assumption|].
  split; apply Z.mod_divide; assumption.
Qed.

Definition ex_builder : Builder :=
  Builder_timestamp (Some 1%N) (Builder_new (Cred (lit "id") (lit "secret")) (RsaSha1 (pkcs1_sign ex_private))).
Definition ex_server : bytes -> bytes -> bytes -> bool := rsa_check PropsExample.base64_decode (pkcs1_verify ex_public).

(** The request is accepted; another method, URI or body is not. *)
Definition ex_header : bytes := lit "OAuth oauth_consumer_key=""id"",oauth_nonce=""AQEBAQEBAQEB"",oauth_signature_method=""RSA-SHA1"",oauth_timestamp=""1"",oauth_signature=""Behm%2BJud2ekDiXQtyIERTPHvz%2BIsTJDLc6Lostn4tWwBn9C%2FZWDp8tRub9H2gg%3D%3D""".
Example C68_C70_example :
  Builder_authorize dbg_std env0 ex_builder (lit "POST") (s2d "http://example.com/x") ex_request = Ok ex_header
  /\ match to_form ex_request with
     | Ok body =>
         let ok method uri b := match server_check ex_server (lit method) (lit uri) (Some ex_header) b with Some _ => true | None => false end in
         ok "POST"%string "http://example.com/x"%string body
         && negb (ok "PUT"%string "http://example.com/x"%string body)
         && negb (ok "POST"%string "http://example.com/y"%string body)
         && negb (ok "POST"%string "http://example.com/x"%string (body ++ lit "&z=1"))
     | _ => false
     end = true.
Proof. split; vm_compute; reflexivity. Qed.

(** The sizes: this modulus has 46 bytes, the least; the product of smaller primes is too short. *)
Example C69_example :
  Nat.eqb (rsa_size (rk_n ex_private)) 46
  && negb (is_ok (Builder_authorize dbg_std env0
        (Builder_timestamp (Some 1%N) (Builder_new (Cred (lit "id") (lit "secret"))
           (RsaSha1 (pkcs1_sign {| rk_n := 0x1dd215faf471b80d * 0x1e96cf918805e92b891408d8d0a0e77; rk_exp := 5 |}))))
        (lit "POST") (s2d "http://example.com/x") ex_request)) = true.
Proof. vm_compute. reflexivity. Qed.
