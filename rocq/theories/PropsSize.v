(** Property C92: how long the outputs are. *)
From Coq Require Import String.
From Coq Require Import Lia Arith Sorted Permutation NArith.
From Verif Require Rsa SpecSign.
From Verif Require Import Bytes Crypto Spec MFmt MPercent MSerializer MSign MRequest MCredentials MAuth MBuilder ModelTests
  SpecFmt SpecCalls SpecCalls2 SpecAuth SpecBuild SpecForm SpecServer SpecParams SpecSign SpecLimit
  LBytes LFmt LPercent LCrypto LTrace LAuth LSign LBuild LForm LBase LBase2 LReq LReq2 LPanic LTop LParams LServer
  LReveal LAny LBuf LHttp MServer SpecHttp LExample PropsHeader PropsForm PropsLimit.

(** An encoded byte is one byte or three. *)
Fixpoint encoded_size (s : bytes) : nat :=
  match s with [] => 0 | b :: s => (if unreserved b then 1 else 3) + encoded_size s end.

(** The size of a list of pairs: names, encoded values, and [extra] bytes of punctuation for each. *)
Fixpoint pairs_size (extra : nat) (l : list pair) : nat :=
  match l with [] => 0 | p :: l => length (fst p) + encoded_size (snd p) + extra + pairs_size extra l end.

Lemma encoded_length : forall s, length (pct_encode s) = encoded_size s.
Proof.
  induction s as [|b s IH]; [reflexivity|]. rewrite pct_encode_cons, app_length, IH. cbn [encoded_size].
  unfold pct_byte. now destruct (unreserved b).
Qed.
Lemma encoded_bound : forall s, encoded_size s <= 3 * length s.
Proof. induction s as [|b s IH]; cbn [encoded_size length]; [lia|]. destruct (unreserved b); lia. Qed.
Lemma encoded_safe_size : forall s, uri_safe s -> encoded_size s = length s.
Proof. intros s H. now rewrite <- encoded_length, pct_encode_safe. Qed.
Lemma pairs_size_app : forall x a b, pairs_size x (a ++ b) = pairs_size x a + pairs_size x b.
Proof. intros x a b. induction a as [|p a IH]; cbn [app pairs_size]; [reflexivity|]. rewrite IH. lia. Qed.

Lemma form_pair_size : forall p, length (form_pair (enc_value p)) = length (fst p) + encoded_size (snd p) + 1.
Proof.
  intros [k v]. unfold form_pair, enc_value. cbn [fst snd]. rewrite !app_length, encoded_length.
  change (length (lit "=")) with 1. lia.
Qed.
Lemma form_text_size : forall l, length (form_text (map enc_value l)) = pairs_size 2 l - 1.
Proof.
  assert (H : forall p l, S (length (form_text (map enc_value (p :: l)))) = pairs_size 2 (p :: l)).
  { intros p l. revert p. induction l as [|q l IH]; intros p.
    - change (form_text (map enc_value [p])) with (form_pair (enc_value p)). rewrite form_pair_size. cbn [pairs_size]. lia.
    - change (form_text (map enc_value (p :: q :: l)))
        with (form_pair (enc_value p) ++ lit "&" ++ form_text (map enc_value (q :: l))).
      rewrite !app_length, form_pair_size. change (length (lit "&")) with 1. specialize (IH q).
      change (pairs_size 2 (p :: q :: l)) with (length (fst p) + encoded_size (snd p) + 2 + pairs_size 2 (q :: l)). lia. }
  intros [|p l]; [reflexivity|]. specialize (H p l). lia.
Qed.

(** ** Forms and queries: exact sizes *)

Theorem C92_form : forall r l out, crate_request r l -> to_form r = Ok out -> length out = pairs_size 2 (texts l) - 1.
Proof.
  intros r l out H HF. apply (C13_exact r l out H) in HF as [_ ->]. rewrite <- form_text_size, <- form_of_texts.
  unfold texts. now rewrite map_map.
Qed.
Print Assumptions C92_form.

Theorem C92_query : forall r l uri out, crate_request r l -> to_query uri r = Ok out ->
  length out = length uri + pairs_size 2 (texts l).
Proof.
  intros r l uri out H HF. apply (C14_exact r l uri out H) in HF as [_ ->]. destruct l as [|p l]; [cbn; lia|].
  rewrite !app_length. change (length (lit "?")) with 1.
  assert (E : length (form_of (texts (p :: l))) = pairs_size 2 (texts (p :: l)) - 1).
  { rewrite <- form_text_size, <- form_of_texts. unfold texts. now rewrite map_map. }
  rewrite E. unfold texts. cbn [map pairs_size]. lia.
Qed.
Print Assumptions C92_query.

(** ** Signed requests: exact sizes, given the signature *)

Lemma header_size : forall l sig, length (header_text (map enc_value l) sig) = pairs_size 4 l + length sig + 24.
Proof.
  intros l sig. unfold header_text. rewrite !app_length.
  change (length (lit "OAuth ")) with 6. change (length (lit "oauth_signature=""")) with 17. change (length (lit """")) with 1.
  assert (E : length (concat (map header_field (map enc_value l))) = pairs_size 4 l); [|lia].
  induction l as [|p l IH]; [reflexivity|]. cbn [map concat pairs_size]. rewrite app_length, IH.
  unfold header_field, enc_value. cbn [fst snd]. rewrite !app_length, encoded_length.
  change (length (lit "=""")) with 2. change (length (lit """,")) with 2. lia.
Qed.

Lemma protocol_wire : forall name e b, uri_safe name ->
  wire_fields (conf_of name e b) all_protos = map enc_value (protocol_pairs (conf_of name e b)).
Proof. intros name e b H. rewrite <- raw_all. now apply wire_enc. Qed.

(** "OAuth ", then name="value" with a comma for each protocol parameter, then the signature. *)
Theorem C92_header : forall c e b name f r cs method uri out,
  builtin (bd_signature_method b) name true f -> makes_calls r cs -> call_protos cs = all_protos ->
  Builder_authorize c e b method uri r = Ok out ->
  exists sig, option_map (lookup (lit "oauth_signature")) (parse_header out) = Some [sig]
    /\ length out = pairs_size 4 (protocol_pairs (conf_of name e b) ++ [(lit "oauth_signature", sig)]) + 5.
Proof.
  intros c e b name f r cs method uri out HB HM HP H.
  destruct (C27_no_injection c e b name true f r cs method uri out HB HM HP H) as [sig HR].
  apply (authorize_exact c e b _ _ _ HB r cs HM (protos_perm cs HP)) in H as [_ [_ [w [ES ->]]]].
  unfold sig_of in ES. destruct (builtin_encoded _ _ _ HB _ _ _ _ ES) as [raw ->].
  pose proof (sa_safe _ _ _ _ (builtin_signs_as _ _ _ _ HB)) as HN. rewrite HP in *.
  assert (HR' : parse_header (header_text (wire_fields (conf_of name e b) all_protos) (pct_encode raw))
    = Some (protocol_pairs (conf_of name e b) ++ [(lit "oauth_signature", raw)])).
  { rewrite <- raw_all. apply parse_header_text; [now apply wire_reads|apply pct_decode_enc_quote|apply pct_decode_encode]. }
  exists raw. split.
  - rewrite HR'. cbn [option_map]. rewrite lookup_app, (lookup_none (lit "oauth_signature") (protocol_pairs _)); [reflexivity|].
    intros q Hq E. rewrite <- raw_all in Hq. apply raw_in in Hq as [p [_ [E' _]]]. apply (sig_not_proto p). congruence.
  - rewrite (protocol_wire name e b HN), header_size, encoded_length, pairs_size_app. cbn [pairs_size fst snd].
    change (length (lit "oauth_signature")) with 15. lia.
Qed.
Print Assumptions C92_header.

(** The same for a form and a query. *)
Theorem C92_signed_form : forall c e b name f r cs method uri out,
  builtin (bd_signature_method b) name true f -> makes_calls r cs -> call_protos cs = all_protos ->
  Builder_to_form c e b method uri r = Ok out ->
  exists sig, option_map (lookup (lit "oauth_signature")) (parse_form out) = Some [sig]
    /\ length out = pairs_size 2 (protocol_pairs (conf_of name e b) ++ [(lit "oauth_signature", sig)]) - 1.
Proof.
  intros c e b name f r cs method uri out HB HM HP H.
  apply (to_form_with_buf_exact c e b _ _ _ HB r cs HM (protos_perm cs HP) []) in H as [_ [_ [w [ES ->]]]].
  unfold sig_of in ES. destruct (builtin_encoded _ _ _ HB _ _ _ _ ES) as [raw ->].
  pose proof (sa_safe _ _ _ _ (builtin_signs_as _ _ _ _ HB)) as HN. rewrite HP in *. cbn [app].
  rewrite (protocol_wire name e b HN).
  assert (E : map enc_value (protocol_pairs (conf_of name e b)) ++ [(lit "oauth_signature", pct_encode raw)]
    = map enc_value (protocol_pairs (conf_of name e b) ++ [(lit "oauth_signature", raw)])) by now rewrite map_app.
  rewrite E. exists raw. split; [|apply form_text_size].
  rewrite parse_form_text.
  - cbn [option_map]. rewrite lookup_app, (lookup_none (lit "oauth_signature") (protocol_pairs _)); [reflexivity|].
    intros q Hq E'. rewrite <- raw_all in Hq. apply raw_in in Hq as [p [_ [E2 _]]]. apply (sig_not_proto p). congruence.
  - apply Forall_app. split; [|constructor; [apply safe_name; reflexivity|constructor]].
    apply Forall_forall. intros q Hq. apply in_flat_map in Hq as [p [_ Hq]].
    destruct (sent (conf_of name e b) 0 0 p); [|destruct Hq]. destruct Hq as [<-|[]]. apply proto_key_safe.
Qed.
Print Assumptions C92_signed_form.

Theorem C92_signed_query : forall c e b name f r cs method uri form out,
  builtin (bd_signature_method b) name true f -> makes_calls r cs -> call_protos cs = all_protos ->
  Builder_to_form c e b method (dstr uri) r = Ok form ->
  Builder_to_query c e (w := StringW) dstr b method uri r = Ok out ->
  length out = length uri + 1 + length form.
Proof.
  intros c e b name f r cs method uri form out HB HM HP H1 H2.
  apply (to_form_with_buf_exact c e b _ _ _ HB r cs HM (protos_perm cs HP) []) in H1 as [_ [_ [w [ES ->]]]].
  apply (to_query_exact' c e b _ _ _ HB r cs HM (protos_perm cs HP) uri) in H2 as [_ [_ [w' [ES' ->]]]].
  rewrite dtext_dstr in ES. rewrite ES in ES'. inversion ES'; subst w'. cbn [app].
  assert (E : forall fs x, query_text uri (fs ++ [x]) = uri ++ lit "?" ++ form_text (fs ++ [x])) by (intros [|? ?] ?; reflexivity).
  rewrite E. rewrite (app_length uri), app_length. change (length (lit "?")) with 1. apply Nat.add_assoc.
Qed.
Print Assumptions C92_signed_query.

(** ** Bounds for HMAC-SHA1 *)

Definition optional_size (o : option bytes) : nat := match o with Some s => length s | None => 0 end.
(** The number of bytes that the user supplies. *)
Definition supplied (b : Builder) : nat :=
  length (cr_identifier (bd_client b)) + optional_size (option_map cr_identifier (bd_token b))
  + optional_size (op_callback (bd_options b)) + optional_size (op_verifier (bd_options b))
  + optional_size (op_nonce (bd_options b)).

Lemma decimal_size : forall k n, (n < 10 ^ N.of_nat (S k))%N -> length (decimal n) <= S k.
Proof.
  intros k n H. unfold decimal.
  assert (G : forall fuel k n acc, (n < 10 ^ N.of_nat (S k))%N -> length (dec_fuel fuel n acc) <= S k + length acc).
  { clear. induction fuel as [|fuel IH]; intros k n acc H; cbn [dec_fuel]; [lia|].
    destruct (N.ltb_spec n 10); [cbn [length]; lia|]. destruct k as [|k].
    - exfalso. change (10 ^ N.of_nat 1)%N with 10%N in H. lia.
    - etransitivity; [apply (IH k)|cbn [length]; lia]. apply N.div_lt_upper_bound; [discriminate|].
      rewrite Nat2N.inj_succ, N.pow_succ_r' in H. exact H. }
  etransitivity; [apply (G _ k); exact H|]. cbn [length]. lia.
Qed.

Lemma hmac_size : forall cs ts text, 30 <= encoded_size (hmac_signature cs ts text) <= 84.
Proof.
  intros cs ts text. unfold hmac_signature. generalize (hmac_length (signing_key cs ts) text).
  generalize (hmac_sha1 (signing_key cs ts) text). intros x H.
  pose proof (base64_20 x H) as HL.
  assert (E : exists a, base64 b64_std true x = a ++ ["="%byte]).
  { do 20 (destruct x as [|? x]; [discriminate|]). destruct x; [|discriminate]. cbn [base64 app].
    match goal with |- exists a, ?s = _ => exists (removelast s) end. reflexivity. }
  destruct E as [a E]. rewrite E in HL |- *. rewrite app_length in HL. cbn [length] in HL.
  assert (EA : encoded_size (a ++ ["="%byte]) = encoded_size a + 3).
  { clear. induction a as [|b a IH]; [reflexivity|]. cbn [app encoded_size]. rewrite IH. lia. }
  assert (HA : length a <= encoded_size a).
  { clear. induction a as [|b a IH]; [cbn; lia|]. cbn [length encoded_size]. destruct (unreserved b); lia. }
  pose proof (encoded_bound a). lia.
Qed.

Lemma optional_pair_size : forall x k o,
  pairs_size x (match o with Some v => [(k, v)] | None => [] end) <= length k + x + 3 * optional_size o.
Proof. intros x k [v|]; cbn; [pose proof (encoded_bound v)|]; lia. Qed.

Lemma protocol_size_gen : forall name x e b, uri_safe name -> (timestamp_value (conf_of name e b) 0 < 2 ^ 64)%N ->
  pairs_size x (protocol_pairs (conf_of name e b)) <= 153 + length name + 8 * x + 3 * supplied b.
Proof.
  intros name x e b HSN HT. unfold protocol_pairs, all_protos. cbn [flat_map]. rewrite !pairs_size_app.
  set (cf := conf_of name e b) in *. cbn [sent].
  change (cn_use_nonce cf) with true. change (cn_use_timestamp cf) with true. cbv iota.
  change (cn_options cf) with (bd_options b). change (cn_client cf) with (cr_identifier (bd_client b)).
  change (cn_token cf) with (option_map cr_identifier (bd_token b)). change (cn_name cf) with name.
  assert (HN : encoded_size (nonce_value cf 0) <= 12 + 3 * optional_size (op_nonce (bd_options b))).
  { unfold nonce_value. change (cn_options cf) with (bd_options b). destruct (op_nonce (bd_options b)) as [n|].
    - cbn [optional_size]. pose proof (encoded_bound n). lia.
    - rewrite nonce_of_bytes_text, encoded_safe_size by apply nonce_text_safe. cbn [optional_size].
      assert (length (nonce_text (random_bytes (cn_env cf) 0)) <= 12); [|lia].
      apply nonce_text_length. unfold random_bytes. now rewrite map_length, seq_length. }
  assert (HD : encoded_size (decimal (timestamp_value cf 0)) <= 20).
  { rewrite encoded_safe_size by apply decimal_safe. apply (decimal_size 19). eapply N.lt_trans; [exact HT|]. reflexivity. }
  pose proof (optional_pair_size x (proto_key PCallback) (op_callback (bd_options b))) as H1.
  pose proof (optional_pair_size x (proto_key PToken) (option_map cr_identifier (bd_token b))) as H2.
  pose proof (optional_pair_size x (proto_key PVerifier) (op_verifier (bd_options b))) as H3.
  pose proof (encoded_bound (cr_identifier (bd_client b))) as H4.
  assert (H5 : pairs_size x (if op_version (bd_options b) then [(proto_key PVersion, lit "1.0")] else []) <= 16 + x)
    by (destruct (op_version (bd_options b)); cbn; lia).
  assert (H6 : forall v, pairs_size x [(proto_key PNonce, v)] = 11 + encoded_size v + x + 0) by reflexivity.
  assert (H7 : forall v, pairs_size x [(proto_key PTimestamp, v)] = 15 + encoded_size v + x + 0) by reflexivity.
  assert (H8 : forall v, pairs_size x [(proto_key PConsumerKey, v)] = 18 + encoded_size v + x + 0) by reflexivity.
  assert (H9 : pairs_size x [(proto_key PSignatureMethod, name)] = 22 + length name + x + 0)
    by (rewrite <- (encoded_safe_size name HSN); reflexivity).
  assert (HV : pairs_size x (match (if op_version (bd_options b) then Some (lit "1.0") else None) with
    | Some v => [(proto_key PVersion, v)] | None => [] end) <= 16 + x) by (destruct (op_version (bd_options b)); exact H5).
  cbn [app]. rewrite H6, H7, H8, H9.
  change (length (proto_key PCallback)) with 14 in H1. change (length (proto_key PToken)) with 11 in H2.
  change (length (proto_key PVerifier)) with 14 in H3. change (pairs_size x []) with 0. unfold supplied. unfold pair in *. lia.
Qed.

Lemma protocol_size : forall x e b, (timestamp_value (conf_of (lit "HMAC-SHA1") e b) 0 < 2 ^ 64)%N ->
  pairs_size x (protocol_pairs (conf_of (lit "HMAC-SHA1") e b)) <= 162 + 8 * x + 3 * supplied b.
Proof. intros x e b. apply (protocol_size_gen (lit "HMAC-SHA1")). now apply safe_name. Qed.

Lemma builder_hmac : forall b, bd_signature_method b = HMAC_SHA1 ->
  builtin (bd_signature_method b) (lit "HMAC-SHA1") true (fun cs ts text => Some (pct_encode (hmac_signature cs ts text))).
Proof. intros b ->. constructor. Qed.

(** At most 302 bytes more than three times what the user supplies (278 in a form, 279 in a query, besides the URI). *)
Theorem C92_hmac_header : forall c e b r cs method uri out,
  bd_signature_method b = HMAC_SHA1 -> (timestamp_value (conf_of (lit "HMAC-SHA1") e b) 0 < 2 ^ 64)%N ->
  makes_calls r cs -> call_protos cs = all_protos ->
  Builder_authorize c e b method uri r = Ok out -> length out <= 302 + 3 * supplied b.
Proof.
  intros c e b r cs method uri out HS HT HM HP H.
  apply (authorize_exact c e b _ _ _ (builder_hmac b HS) r cs HM (protos_perm cs HP)) in H as [_ [_ [w [ES ->]]]].
  unfold sig_of in ES. inversion ES; subst w. rewrite HP, protocol_wire by (apply safe_name; reflexivity).
  rewrite header_size, encoded_length. pose proof (protocol_size 4 e b HT).
  match goal with |- context[encoded_size (hmac_signature ?a ?t ?x)] => pose proof (hmac_size a t x) end. lia.
Qed.
Print Assumptions C92_hmac_header.

Theorem C92_hmac_form : forall c e b r cs method uri out,
  bd_signature_method b = HMAC_SHA1 -> (timestamp_value (conf_of (lit "HMAC-SHA1") e b) 0 < 2 ^ 64)%N ->
  makes_calls r cs -> call_protos cs = all_protos ->
  Builder_to_form c e b method uri r = Ok out -> length out <= 278 + 3 * supplied b.
Proof.
  intros c e b r cs method uri out HS HT HM HP H.
  apply (to_form_with_buf_exact c e b _ _ _ (builder_hmac b HS) r cs HM (protos_perm cs HP) []) in H as [_ [_ [w [ES ->]]]].
  unfold sig_of in ES. inversion ES; subst w. rewrite HP, protocol_wire by (apply safe_name; reflexivity). cbn [app].
  match goal with |- context[hmac_signature ?a ?t ?x] => pose proof (hmac_size a t x) as HH; set (raw := hmac_signature a t x) in * end.
  assert (E : map enc_value (protocol_pairs (conf_of (lit "HMAC-SHA1") e b)) ++ [(lit "oauth_signature", pct_encode raw)]
    = map enc_value (protocol_pairs (conf_of (lit "HMAC-SHA1") e b) ++ [(lit "oauth_signature", raw)])) by now rewrite map_app.
  rewrite E, form_text_size, pairs_size_app. cbn [pairs_size fst snd]. change (length (lit "oauth_signature")) with 15.
  pose proof (protocol_size 2 e b HT). lia.
Qed.
Print Assumptions C92_hmac_form.

Theorem C92_hmac_query : forall c e b r cs method uri out,
  bd_signature_method b = HMAC_SHA1 -> (timestamp_value (conf_of (lit "HMAC-SHA1") e b) 0 < 2 ^ 64)%N ->
  makes_calls r cs -> call_protos cs = all_protos ->
  Builder_to_query c e (w := StringW) dstr b method uri r = Ok out -> length out <= length uri + 279 + 3 * supplied b.
Proof.
  intros c e b r cs method uri out HS HT HM HP H.
  assert (HF : exists form, Builder_to_form c e b method (dstr uri) r = Ok form).
  { apply (to_query_exact' c e b _ _ _ (builder_hmac b HS) r cs HM (protos_perm cs HP) uri) in H as [T [V [w [ES _]]]].
    eexists. apply (to_form_with_buf_exact c e b _ _ _ (builder_hmac b HS) r cs HM (protos_perm cs HP) []).
    split; [exact T|]. split; [exact V|]. exists w. rewrite dtext_dstr. split; [exact ES|reflexivity]. }
  destruct HF as [form HF]. rewrite (C92_signed_query c e b _ _ r cs method uri form out (builder_hmac b HS) HM HP HF H).
  pose proof (C92_hmac_form c e b r cs method (dstr uri) form HS HT HM HP HF). lia.
Qed.
Print Assumptions C92_hmac_query.

(** ** Bounds for RSA-SHA1 *)

Lemma base64_padded_length : forall alpha l, length (base64 alpha true l) = 4 * Nat.div (length l + 2) 3.
Proof.
  intros alpha. induction l as [|a|a b|a b c r IH] using list_ind3; try reflexivity.
  cbn [base64 app length]. rewrite IH. replace (S (S (S (length r))) + 2) with (length r + 2 + 1 * 3) by lia.
  rewrite Nat.div_add by discriminate. lia.
Qed.

(** With signatures of at most [k] bytes (the size of the modulus): four characters for three bytes, each of which may
    have to be encoded. *)
Theorem C92_rsa_header : forall c e b key k r cs method uri out,
  bd_signature_method b = RsaSha1 key \/ bd_signature_method b = RsaSha1_ref key ->
  (forall h s, key h = Some s -> length s <= k) -> (timestamp_value (conf_of (lit "RSA-SHA1") e b) 0 < 2 ^ 64)%N ->
  makes_calls r cs -> call_protos cs = all_protos ->
  Builder_authorize c e b method uri r = Ok out -> length out <= 217 + 12 * Nat.div (k + 2) 3 + 3 * supplied b.
Proof.
  intros c e b key k r cs method uri out HS HK HT HM HP H.
  assert (HB : builtin (bd_signature_method b) (lit "RSA-SHA1") true
      (fun _ _ text => option_map (fun s => pct_encode (base64 b64_std true s)) (key (sha1 text))))
    by (destruct HS as [->| ->]; constructor).
  apply (authorize_exact c e b _ _ _ HB r cs HM (protos_perm cs HP)) in H as [_ [_ [w [ES ->]]]].
  unfold sig_of in ES. destruct (key _) as [s|] eqn:EK; [|discriminate]. inversion ES; subst w. apply HK in EK.
  assert (HN : uri_safe (lit "RSA-SHA1")) by now apply safe_name.
  rewrite HP, protocol_wire by exact HN. rewrite header_size, encoded_length.
  pose proof (protocol_size_gen (lit "RSA-SHA1") 4 e b HN HT) as H1. change (length (lit "RSA-SHA1")) with 8 in H1.
  pose proof (encoded_bound (base64 b64_std true s)) as H2. rewrite base64_padded_length in H2.
  assert (H3 : Nat.div (length s + 2) 3 <= Nat.div (k + 2) 3) by (apply Nat.div_le_mono; lia). lia.
Qed.
Print Assumptions C92_rsa_header.

(** So with a key whose modulus has [k] bytes (256 for the usual 2048 bits: 1249 bytes and what the user supplies). *)
Theorem C92_rsa_key : forall c e b private r cs method uri out,
  bd_signature_method b = RsaSha1 (Rsa.pkcs1_sign private) ->
  (timestamp_value (conf_of (lit "RSA-SHA1") e b) 0 < 2 ^ 64)%N ->
  makes_calls r cs -> call_protos cs = all_protos ->
  Builder_authorize c e b method uri r = Ok out ->
  length out <= 217 + 12 * Nat.div (Rsa.rsa_size (Rsa.rk_n private) + 2) 3 + 3 * supplied b.
Proof.
  intros c e b private r cs method uri out HS HT HM HP H. eapply C92_rsa_header; eauto.
  intros h s E. unfold Rsa.pkcs1_sign in E. destruct (Rsa.emsa _ _) as [em|]; [|discriminate]. injection E as <-.
  now rewrite be_bytes_length.
Qed.
Print Assumptions C92_rsa_key.

(** With PLAINTEXT the signature is as long as the encoded secrets. *)
Definition secrets_size (b : Builder) : nat :=
  encoded_size (client_secret b) + 1 + match token_secret b with Some t => encoded_size t | None => 0 end.

Lemma key_size : forall b, length (signing_key (client_secret b) (token_secret b)) = secrets_size b.
Proof.
  intros b. unfold signing_key, secrets_size. rewrite !app_length, encoded_length. change (length (lit "&")) with 1.
  destruct (token_secret b) as [t|]; [rewrite encoded_length|change (length (pct_encode [])) with 0]; lia.
Qed.

Lemma builder_plain : forall b, bd_signature_method b = PLAINTEXT ->
  builtin (bd_signature_method b) (lit "PLAINTEXT") false (fun cs ts _ => Some (signing_key cs ts)).
Proof. intros b ->. constructor. Qed.

Theorem C92_plaintext_header : forall c e b r cs method uri out,
  bd_signature_method b = PLAINTEXT -> makes_calls r cs -> call_protos cs = all_protos ->
  Builder_authorize c e b method uri r = Ok out ->
  length out = pairs_size 4 (protocol_pairs (conf_of (lit "PLAINTEXT") e b)) + secrets_size b + 24
  /\ ((timestamp_value (conf_of (lit "PLAINTEXT") e b) 0 < 2 ^ 64)%N -> length out <= 218 + secrets_size b + 3 * supplied b).
Proof.
  intros c e b r cs method uri out HS HM HP H.
  apply (authorize_exact c e b _ _ _ (builder_plain b HS) r cs HM (protos_perm cs HP)) in H as [_ [_ [w [ES ->]]]].
  assert (HN : uri_safe (lit "PLAINTEXT")) by now apply safe_name.
  unfold sig_of in ES. inversion ES; subst w. rewrite HP, protocol_wire by exact HN. rewrite header_size, key_size.
  split; [reflexivity|]. intros HT. pose proof (protocol_size_gen (lit "PLAINTEXT") 4 e b HN HT) as X.
  change (length (lit "PLAINTEXT")) with 9 in X. lia.
Qed.
Print Assumptions C92_plaintext_header.

Theorem C92_plaintext_form : forall c e b r cs method uri out,
  bd_signature_method b = PLAINTEXT -> makes_calls r cs -> call_protos cs = all_protos ->
  Builder_to_form c e b method uri r = Ok out ->
  length out = pairs_size 2 (protocol_pairs (conf_of (lit "PLAINTEXT") e b)) + secrets_size b + 16
  /\ ((timestamp_value (conf_of (lit "PLAINTEXT") e b) 0 < 2 ^ 64)%N -> length out <= 194 + secrets_size b + 3 * supplied b).
Proof.
  intros c e b r cs method uri out HS HM HP H.
  apply (to_form_with_buf_exact c e b _ _ _ (builder_plain b HS) r cs HM (protos_perm cs HP) []) in H as [_ [_ [w [ES ->]]]].
  assert (HN : uri_safe (lit "PLAINTEXT")) by now apply safe_name.
  unfold sig_of in ES. inversion ES; subst w. rewrite HP, protocol_wire by exact HN. cbn [app].
  assert (E : forall l sig, length (form_text (map enc_value l ++ [(lit "oauth_signature", sig)])) = pairs_size 2 l + length sig + 16).
  { clear. intros l sig. unfold form_text. induction l as [|p l IH].
    - cbn [map app join]. unfold form_pair. cbn [fst snd]. rewrite !app_length. cbn. lia.
    - cbn [map app pairs_size]. destruct (map form_pair (map enc_value l ++ [(lit "oauth_signature", sig)])) as [|q m] eqn:Q; [now destruct l|].
      cbn [join] in IH |- *. unfold form_pair at 1, enc_value at 1 2. cbn [fst snd]. rewrite !app_length in *. rewrite encoded_length.
      change (length (lit "=")) with 1. change (length (lit "&")) with 1. lia. }
  rewrite E, key_size. split; [reflexivity|]. intros HT. pose proof (protocol_size_gen (lit "PLAINTEXT") 2 e b HN HT) as X.
  change (length (lit "PLAINTEXT")) with 9 in X. lia.
Qed.
Print Assumptions C92_plaintext_form.

(** So much room is enough: with it, a buffer of limited capacity never fails. *)
Theorem C92_room : forall c e b r cs method uri cap (buf header : bytes),
  bd_signature_method b = HMAC_SHA1 -> (timestamp_value (conf_of (lit "HMAC-SHA1") e b) 0 < 2 ^ 64)%N ->
  makes_calls r cs -> call_protos cs = all_protos ->
  Builder_authorize c e b method uri r = Ok header -> length buf + 302 + 3 * supplied b <= cap ->
  Builder_authorize_with_buf c e b (w := BoundedW cap) buf method uri r = Ok (buf ++ header)
  /\ Builder_authorize_with_buf c e b (w := SliceW cap) buf method uri r = Ok (buf ++ header).
Proof.
  intros c e b r cs method uri cap buf header HS HT HM HP H HC.
  pose proof (C92_hmac_header c e b r cs method uri header HS HT HM HP H) as HL.
  destruct (C28_authorize c e b buf method uri r cs HM) as [HA _]. rewrite H in HA. cbn [after rmap] in HA.
  assert (HB : length (buf ++ header) <= cap) by (rewrite app_length; lia).
  assert (HB0 : length buf <= cap) by lia.
  destruct (C89_capacity c e b _ _ _ method uri r cs cap buf (buf ++ header) (builder_hmac b HS) HM HB0) as [C1 [C2 _]].
  split; [apply C1|apply C2]; auto.
Qed.
Print Assumptions C92_room.

(** ** Examples *)
Example C92_example_form : length (lit "a=1%20%26%3D&b=&b=%25") = pairs_size 2 (texts form_pairs) - 1
  /\ pairs_size 2 (texts form_pairs) = 22.
Proof. split; reflexivity. Qed.

Example C92_example_header :
  match Builder_authorize dbg_std env0 doc_builder (lit "GET") (s2d "http://h/") Request_unit with
  | Ok out => Nat.leb (length out) (302 + 3 * supplied doc_builder)
              && Nat.eqb (length out) (pairs_size 4 (protocol_pairs (conf_of (lit "HMAC-SHA1") env0 doc_builder)
                   ++ match parse_header out with Some l => filter (has_key (lit "oauth_signature")) l | None => [] end) + 5)
  | Panic _ => false
  end = true
  /\ bd_signature_method doc_builder = HMAC_SHA1
  /\ (timestamp_value (conf_of (lit "HMAC-SHA1") env0 doc_builder) 0 < 2 ^ 64)%N.
Proof. split; [vm_compute; reflexivity|]. split; reflexivity. Qed.

Example C92_example_rsa :
  let b := SpecSign.with_method (RsaSha1 (fun _ => Some (repeat "251"%byte 256))) doc_builder in
  match Builder_authorize dbg_std env0 b (lit "GET") (s2d "http://h/") Request_unit with
  | Ok out => Nat.leb (length out) (217 + 12 * Nat.div (256 + 2) 3 + 3 * supplied b) && Nat.leb 700 (length out)
  | Panic _ => false
  end = true.
Proof. vm_compute. reflexivity. Qed.

Example C92_example_plaintext :
  let b := SpecSign.with_method PLAINTEXT doc_builder in
  match Builder_authorize dbg_std env0 b (lit "GET") (s2d "http://h/") Request_unit,
        Builder_to_form dbg_std env0 b (lit "GET") (s2d "http://h/") Request_unit with
  | Ok header, Ok form =>
      Nat.eqb (length header) (pairs_size 4 (protocol_pairs (conf_of (lit "PLAINTEXT") env0 b)) + secrets_size b + 24)
      && Nat.leb (length header) (218 + secrets_size b + 3 * supplied b)
      && Nat.eqb (length form) (pairs_size 2 (protocol_pairs (conf_of (lit "PLAINTEXT") env0 b)) + secrets_size b + 16)
  | _, _ => false
  end = true.
Proof. vm_compute. reflexivity. Qed.
