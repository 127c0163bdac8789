(** Properties C16, C26, C27, C28, C32 and C48: what an authorization puts on the wire. *)
From Coq Require Import String.
From Coq Require Import Lia Arith Sorted Permutation.
From Verif Require Import Bytes Crypto Spec MFmt MPercent MSerializer MSign MRequest MCredentials MAuth MBuilder ModelTests
  SpecFmt SpecCalls SpecCalls2 SpecAuth SpecBuild SpecForm SpecServer SpecParams SpecSign
  LBytes LFmt LPercent LCrypto LTrace LAuth LSign LBuild LForm LBase LBase2 LReq LReq2 LPanic LTop LParams LServer
  LReveal LAny LBuf.

(** ** C16 *)

Definition field (k : string) (v : bytes) : bytes := lit k ++ lit "=""" ++ pct_encode v ++ lit """,".
Definition field_if (k : string) (v : option bytes) : bytes :=
  match v with Some v => field k v | None => [] end.

(** The header, spelled out.  Nothing of the request appears in it, except through the signature. *)
Definition header_spelled (e : env) (b : Builder) (name sig : bytes) : bytes :=
  let o := bd_options b in
  lit "OAuth "
  ++ field_if "oauth_callback" (op_callback o)
  ++ field "oauth_consumer_key" (cr_identifier (bd_client b))
  ++ field "oauth_nonce"
       (match op_nonce o with Some n => n | None => nonce_of_bytes (random_bytes e 0) end)
  ++ lit "oauth_signature_method=""" ++ name ++ lit ""","
  ++ field "oauth_timestamp"
       (decimal (match op_timestamp o with Some t => t | None => seconds (env_clock e 0) end))
  ++ field_if "oauth_token" (option_map cr_identifier (bd_token b))
  ++ field_if "oauth_verifier" (op_verifier o)
  ++ (if op_version o then lit "oauth_version=""1.0""," else [])
  ++ lit "oauth_signature=""" ++ sig ++ lit """".

Lemma header_spelled_eq : forall e b name sig,
  header_spelled e b name sig = header_text (wire_fields (conf_of name e b) all_protos) sig.
Proof.
  intros e b name sig. unfold header_spelled, header_text. f_equal.
  unfold all_protos, wire_fields. cbn [flat_map sent on_wire conf_of conf_with cn_options cn_client cn_token
    cn_use_nonce cn_use_timestamp cn_name cn_env].
  unfold nonce_value, timestamp_value. cbn [conf_of conf_with cn_options cn_env].
  destruct (bd_options b) as [cb vf no ts ver]. cbn [op_callback op_nonce op_timestamp op_verifier op_version].
  destruct cb, (option_map cr_identifier (bd_token b)), vf, ver;
    cbn [app map concat field_if]; unfold field, header_field; cbn [fst snd proto_key];
    repeat rewrite <- app_assoc; reflexivity.
Qed.

(** The exact outcome of [authorize], for every built-in method, request and configuration. *)
Theorem C16_header : forall c e b name strict f r cs method uri out,
  builtin (bd_signature_method b) name strict f ->
  makes_calls r cs -> call_protos cs = all_protos ->
  (Builder_authorize c e b method uri r = Ok out <->
   timestamp_available c (conf_of name e b) /\ valid_for strict c (conf_of name e b) uri cs /\
   exists sig,
     f (client_secret b) (token_secret b) (hashed_text method (dtext uri) (signed_fields (conf_of name e b) cs)) = Some sig
     /\ out = header_spelled e b name sig).
Proof.
  intros c e b name strict f r cs method uri out HB HM HP.
  rewrite (authorize_exact c e b name strict f HB r cs HM (protos_perm cs HP) method uri out).
  unfold sig_of. rewrite HP. setoid_rewrite header_spelled_eq. reflexivity.
Qed.
Print Assumptions C16_header.

(** C01 in a header: the values given by the user are encoded. *)
Theorem C01_header_values : forall c e b name strict f r l method uri out callback token verifier,
  builtin (bd_signature_method b) name strict f -> crate_request r l ->
  op_callback (bd_options b) = Some callback -> option_map cr_identifier (bd_token b) = Some token ->
  op_verifier (bd_options b) = Some verifier ->
  Builder_authorize c e b method uri r = Ok out ->
  exists mid rest,
    out = lit "OAuth " ++ field "oauth_callback" callback ++ field "oauth_consumer_key" (cr_identifier (bd_client b))
          ++ mid ++ field "oauth_token" token ++ field "oauth_verifier" verifier ++ rest.
Proof.
  intros c e b name strict f r l method uri out callback token verifier HB HR HC HT HV H.
  pose proof (crate_request_calls r l HR) as HM.
  apply (C16_header c e b name strict f r _ method uri out HB HM (call_protos_calls_of l)) in H as [_ [_ [sig [_ ->]]]].
  unfold header_spelled. cbv zeta. rewrite HC, HT, HV. cbn [field_if].
  repeat match goal with |- context [field ?a ?b] => let x := fresh in generalize (field a b); intro x end.
  match goal with |- context [lit "oauth_signature_method=""" ++ name ++ ?x ++ ?y ++ ?z] =>
    generalize (lit "oauth_signature_method=""") x; intros k k' end.
  match goal with |- exists _ _, _ ++ _ ++ _ ++ ?n ++ _ ++ _ ++ _ ++ ?t ++ _ ++ _ ++ ?z = _ =>
    exists (n ++ k ++ name ++ k' ++ t), z end.
  now rewrite <- !app_assoc.
Qed.
Print Assumptions C01_header_values.

(** For every signature method, user-defined ones included, whose answers about nonce, timestamp and
    name do not change over time; the calls it receives are those documented. *)
Theorem C16_any_method : forall c e b un ut name r cs method uri out,
  constant_flags (bd_signature_method b) un ut name ->
  makes_calls r cs -> Permutation (call_protos cs) all_protos ->
  (Builder_authorize c e b method uri r = Ok out <->
   timestamp_available c (conf_with un ut name e b)
   /\ (cf_debug c = true -> ~ has_question (dtext uri) /\ dok uri)
   /\ (cf_alloc c = true -> cf_debug c = true -> ascending (map fst (signed_fields (conf_with un ut name e b) cs)))
   /\ exists s0 sf d,
        sm_sign_with (bd_signature_method b) (client_secret b) (token_secret b) = Ok s0
        /\ run_scalls s0 (documented_calls (conf_with un ut name e b) method uri cs) = Ok sf
        /\ sg_end sf = Ok d /\ dok d
        /\ out = header_text (wire_fields (conf_with un ut name e b) (call_protos cs)) (dtext d)).
Proof.
  intros c e b un ut name r cs method uri out HF HM HP. rewrite authorize_go.
  rewrite (any_exact c e b un ut name HF r cs HM HP _ method uri out). cbn [data_buf added_text].
  split; intros [T [Q [O X]]]; (split; [exact T|split; [exact Q|split; [exact O|]]]).
  - destruct X as [d [[s0 [sf [S0 [S1 S2]]]] [D ->]]]. exists s0, sf, d. auto 8.
  - destruct X as [s0 [sf [d [S0 [S1 [S2 [D ->]]]]]]]. exists d. split; [exists s0, sf; auto|auto].
Qed.
Print Assumptions C16_any_method.

(** Two requests, one builder: the headers agree except for the signature. *)
Theorem C16_request_not_in_header : forall c e b name strict f, builtin (bd_signature_method b) name strict f ->
  exists before, forall r l method uri out, crate_request r l ->
    Builder_authorize c e b method uri r = Ok out ->
    exists sig, out = before ++ lit "oauth_signature=""" ++ sig ++ lit """".
Proof.
  intros c e b name strict f HB.
  exists (lit "OAuth " ++ concat (map header_field (wire_fields (conf_of name e b) all_protos))).
  intros r l method uri out HR H. pose proof (crate_request_calls r l HR) as HM.
  apply (C16_header c e b name strict f r _ method uri out HB HM) in H as [_ [_ [sig [_ ->]]]].
  - exists sig. rewrite header_spelled_eq. unfold header_text. now rewrite <- app_assoc.
  - apply call_protos_calls_of.
Qed.
Print Assumptions C16_request_not_in_header.

(** A concrete case: two requests, a builder with everything set. *)
Definition full_builder (sm : SignatureMethod) : Builder :=
  Builder_callback (Some (lit "http://cb/?x=1")) (Builder_verifier (Some (lit "v v"))
    (Builder_nonce (Some (lit "n""once")) (Builder_timestamp (Some 9%N)
      (Builder_version true
        (Builder_with_token (Tok (Cred (lit "c,id") (lit "cs")) (Cred (lit "tok") (lit "t&s"))) sm))))).

Example C16_example :
  match Builder_authorize dbg_std env0 (full_builder PLAINTEXT) (lit "GET") (s2d "http://h/") (AssertSorted true [kvs "a" "1"]) with
  | Ok out => bseqb out (lit ("OAuth oauth_callback=""http%3A%2F%2Fcb%2F%3Fx%3D1"",oauth_consumer_key=""c%2Cid"","
      ++ "oauth_nonce=""n%22once"",oauth_signature_method=""PLAINTEXT"",oauth_timestamp=""9"",oauth_token=""tok"","
      ++ "oauth_verifier=""v%20v"",oauth_version=""1.0"",oauth_signature=""cs&t%26s"""))
  | Panic _ => false
  end = true.
Proof. vm_compute. reflexivity. Qed.

Example C16_example_hypotheses :
  constant_flags (bd_signature_method (full_builder HMAC_SHA1)) true true (lit "HMAC-SHA1")
  /\ constant_flags (bd_signature_method (full_builder (TraceMethod false true (lit "X") (fun _ => dstr [])))) false true (lit "X")
  /\ makes_calls (AssertSorted true [kvs "a" "1"]) (calls_of [kvs "a" "1"])
  /\ call_protos (calls_of [kvs "a" "1"]) = all_protos.
Proof.
  split; [eapply constant_builtin; apply bi_hmac|]. split; [apply constant_trace|].
  split; [apply AssertSorted_calls|reflexivity].
Qed.

(** ** C26 *)

(** The form, and the query, carry the fields of the header and the same signature. *)
Theorem C26_form_as_header : forall c e b un ut name r cs method uri sig,
  constant_flags (bd_signature_method b) un ut name ->
  makes_calls r cs -> Permutation (call_protos cs) all_protos ->
  let fields := wire_fields (conf_with un ut name e b) (call_protos cs) in
  (Builder_to_form c e b method uri r = Ok (form_text (fields ++ [(lit "oauth_signature", sig)]))
   <-> Builder_authorize c e b method uri r = Ok (header_text fields sig)).
Proof.
  intros c e b un ut name r cs method uri sig HF HM HP fields. rewrite to_form_go, authorize_go.
  rewrite !(any_exact c e b un ut name HF r cs HM HP). fold fields. cbn [data_buf added_text].
  setoid_rewrite added_form.
  split; intros [T [Q [O [d [S [D E]]]]]]; (split; [exact T|split; [exact Q|split; [exact O|exists d; split; [exact S|split; [exact D|]]]]]).
  - cbn [app] in E. unfold form_text in E. rewrite !map_app in E. cbn [map] in E.
    assert (HS : sig = dtext d).
    { revert E. generalize (map form_pair fields). intros l E.
      assert (HX : forall l x y, join (lit "&") (l ++ [x]) = join (lit "&") (l ++ [y]) -> x = y).
      { clear. induction l as [|a l IH]; intros x y H; [exact H|].
        assert (G : forall z, join (lit "&") ((a :: l) ++ [z]) = a ++ lit "&" ++ join (lit "&") (l ++ [z]))
          by (intros z; destruct l; reflexivity).
        rewrite !G in H. apply app_inv_head, app_inv_head in H. auto. }
      apply HX in E. unfold form_pair in E. cbn [fst snd] in E. now apply app_inv_head, app_inv_head in E. }
    now rewrite HS.
  - unfold header_text in E. apply app_inv_head, app_inv_head, app_inv_head, app_inv_tail in E. now rewrite E.
Qed.
Print Assumptions C26_form_as_header.

Theorem C26_query_as_form : forall c e b un ut name r cs method (uri : bytes) sig,
  constant_flags (bd_signature_method b) un ut name ->
  makes_calls r cs -> Permutation (call_protos cs) all_protos ->
  let fields := wire_fields (conf_with un ut name e b) (call_protos cs) in
  (Builder_to_query c e (w := StringW) dstr b method uri r = Ok (query_text uri (fields ++ [(lit "oauth_signature", sig)]))
   <-> Builder_to_form c e b method (dstr uri) r = Ok (form_text (fields ++ [(lit "oauth_signature", sig)]))).
Proof.
  intros c e b un ut name r cs method uri sig HF HM HP fields. rewrite to_form_go, to_query_go.
  rewrite !(any_exact c e b un ut name HF r cs HM HP). fold fields. cbn [data_buf added_text ue_query ue_data].
  setoid_rewrite added_form. setoid_rewrite added_query.
  assert (G : forall x, query_text uri (fields ++ [x]) = uri ++ lit "?" ++ form_text (fields ++ [x]))
    by (intros x; destruct fields; reflexivity).
  setoid_rewrite G.
  split; intros [T [Q [O [d [S [D E]]]]]]; (split; [exact T|split; [exact Q|split; [exact O|exists d; split; [exact S|split; [exact D|]]]]]).
  - now apply app_inv_head, app_inv_head in E.
  - exact (f_equal (fun z => uri ++ lit "?" ++ z) E).
Qed.
Print Assumptions C26_query_as_form.

(** Every result is of this shape, so the three functions return in exactly the same cases. *)
Theorem C26_shapes : forall c e b un ut name r cs method uri,
  constant_flags (bd_signature_method b) un ut name ->
  makes_calls r cs -> Permutation (call_protos cs) all_protos ->
  let fields := wire_fields (conf_with un ut name e b) (call_protos cs) in
  (forall out, Builder_authorize c e b method (dstr uri) r = Ok out -> exists sig, out = header_text fields sig)
  /\ (forall out, Builder_to_form c e b method (dstr uri) r = Ok out ->
        exists sig, out = form_text (fields ++ [(lit "oauth_signature", sig)]))
  /\ (forall out, Builder_to_query c e (w := StringW) dstr b method uri r = Ok out ->
        exists sig, out = query_text uri (fields ++ [(lit "oauth_signature", sig)])).
Proof.
  intros c e b un ut name r cs method uri HF HM HP fields. split; [|split]; intros out H.
  - rewrite authorize_go in H. apply (any_exact c e b un ut name HF r cs HM HP) in H as [_ [_ [_ [d [_ [_ ->]]]]]].
    exists (dtext d). reflexivity.
  - rewrite to_form_go in H. apply (any_exact c e b un ut name HF r cs HM HP) in H as [_ [_ [_ [d [_ [_ ->]]]]]].
    exists (dtext d). cbn [data_buf added_text]. rewrite added_form. reflexivity.
  - rewrite to_query_go in H. apply (any_exact c e b un ut name HF r cs HM HP) in H as [_ [_ [_ [d [_ [_ ->]]]]]].
    exists (dtext d). cbn [data_buf added_text]. apply added_query.
Qed.
Print Assumptions C26_shapes.

(** With the methods of the crate other than PLAINTEXT, the form and the query parse back to the
    same parameters as the header. *)
Definition encoded_signature (f : bytes -> option bytes -> bytes -> option bytes) : Prop :=
  forall cs ts text sig, f cs ts text = Some sig -> exists raw, sig = pct_encode raw.

Lemma builtin_encoded : forall sm name f, builtin sm name true f -> encoded_signature f.
Proof.
  intros sm name f H cs ts text sig E. remember true as strict eqn:HS.
  destruct H; try discriminate HS; cbn beta in E.
  - inversion E. eexists; reflexivity.
  - destruct (key (sha1 text)); inversion E. eexists; reflexivity.
  - destruct (key (sha1 text)); inversion E. eexists; reflexivity.
Qed.

Theorem C26_parse : forall c e b name f r cs method uri header body uri',
  builtin (bd_signature_method b) name true f ->
  makes_calls r cs -> call_protos cs = all_protos -> ~ In "?"%byte uri ->
  Builder_authorize c e b method (dstr uri) r = Ok header ->
  Builder_to_form c e b method (dstr uri) r = Ok body ->
  Builder_to_query c e (w := StringW) dstr b method uri r = Ok uri' ->
  exists sig, parse_header header = Some (protocol_pairs (conf_of name e b) ++ [(lit "oauth_signature", sig)])
    /\ parse_form body = Some (protocol_pairs (conf_of name e b) ++ [(lit "oauth_signature", sig)])
    /\ parse_uri uri' = Some (uri, protocol_pairs (conf_of name e b) ++ [(lit "oauth_signature", sig)]).
Proof.
  intros c e b name f r cs method uri header body uri' HB HM HP HQ H1 H2 H3.
  pose proof (protos_perm cs HP) as HPP.
  apply (authorize_exact c e b _ _ _ HB r cs HM HPP) in H1 as [_ [_ [sig [ES ->]]]].
  apply (to_form_with_buf_exact c e b _ _ _ HB r cs HM HPP []) in H2 as [_ [_ [sig2 [ES2 E2]]]].
  apply (to_query_exact' c e b _ _ _ HB r cs HM HPP uri) in H3 as [_ [_ [sig3 [ES3 ->]]]].
  rewrite dtext_dstr in *. rewrite ES in ES2, ES3. inversion ES2; inversion ES3; subst sig2 sig3. subst body.
  unfold sig_of in ES. apply (builtin_encoded _ _ _ HB) in ES as [raw ->]. exists raw. rewrite HP.
  pose proof (builtin_signs_as _ _ _ _ HB) as HSA.
  assert (HN : uri_safe (cn_name (conf_of name e b))) by exact (sa_safe _ _ _ _ HSA).
  rewrite <- raw_all.
  assert (HE : wire_fields (conf_of name e b) all_protos ++ [(lit "oauth_signature", pct_encode raw)]
    = map enc_value (raw_fields (conf_of name e b) all_protos ++ [(lit "oauth_signature", raw)])).
  { rewrite map_app. f_equal. now apply wire_enc. }
  assert (HSK : safe_keys (raw_fields (conf_of name e b) all_protos ++ [(lit "oauth_signature", raw)])).
  { apply Forall_app. split; [apply raw_safe|]. repeat constructor. now apply safe_name. }
  split; [|split].
  - apply parse_header_text; [now apply wire_reads|apply pct_decode_enc_quote|apply pct_decode_encode].
  - rewrite HE. now apply parse_form_text.
  - rewrite HE. now apply parse_query_text.
Qed.
Print Assumptions C26_parse.

Example C26_example :
  match Builder_to_form dbg_std env0 (full_builder HMAC_SHA1) (lit "GET") (s2d "http://h/") (AssertSorted true [kvs "a" "1"]),
        Builder_to_query dbg_std env0 (w := StringW) dstr (full_builder HMAC_SHA1) (lit "GET") (lit "http://h/") (AssertSorted true [kvs "a" "1"]),
        Builder_authorize dbg_std env0 (full_builder HMAC_SHA1) (lit "GET") (s2d "http://h/") (AssertSorted true [kvs "a" "1"]) with
  | Ok body, Ok uri, Ok header =>
      bseqb uri (lit "http://h/?" ++ body)
      && match parse_form body, parse_header header with
         | Some l, Some l' => bseqb (concat (map (fun p => fst p ++ snd p) l)) (concat (map (fun p => fst p ++ snd p) l'))
                              && Nat.eqb (length l) 9
         | _, _ => false
         end
  | _, _, _ => false
  end = true.
Proof. vm_compute. reflexivity. Qed.

(** ** C27 *)

(** The bytes that may occur in a header; "&" only with PLAINTEXT. *)
Definition header_byte (amp : bool) (x : byte) : Prop :=
  unreserved x = true \/ In x (lit "%=,"" ") \/ (amp = true /\ x = "&"%byte).

Theorem C27_alphabet : forall c e b name strict f r cs method uri out,
  builtin (bd_signature_method b) name strict f ->
  makes_calls r cs -> call_protos cs = all_protos ->
  Builder_authorize c e b method uri r = Ok out ->
  Forall (header_byte (negb strict)) out.
Proof.
  intros c e b name strict f r cs method uri out HB HM HP H.
  apply (authorize_exact c e b _ _ _ HB r cs HM (protos_perm cs HP)) in H as [_ [_ [sig [ES ->]]]].
  pose proof (builtin_signs_as _ _ _ _ HB) as HSA. pose proof (sa_safe _ _ _ _ HSA) as HN.
  assert (HU : forall s, uri_safe s -> Forall (header_byte (negb strict)) s).
  { intros s Hs. apply Forall_forall. intros x Hx. left. auto. }
  assert (HX : forall v, Forall (header_byte (negb strict)) (pct_encode v)).
  { intros v. apply Forall_forall. intros x Hx. destruct (pct_encode_chars v x Hx) as [K|K]; [now left|].
    right. left. subst x. now left. }
  assert (HL : forall s, forallb (fun x => existsb (beqb x) (lit "%=,"" ")) s = true -> Forall (header_byte (negb strict)) s).
  { intros s Hs. apply Forall_forall. intros x Hx. rewrite forallb_forall in Hs. specialize (Hs x Hx).
    apply existsb_exists in Hs as [y [Hy E]]. apply beqb_eq in E. subst y. right. now left. }
  unfold header_text. repeat rewrite Forall_app. split; [|split; [|split; [|split]]].
  - change (lit "OAuth ") with (lit "OAuth" ++ lit " "). apply Forall_app.
    split; [apply HU, safe_name; reflexivity|apply HL; reflexivity].
  - apply Forall_concat, Forall_map, Forall_forall. intros [k v] Hf. unfold header_field. cbn [fst snd].
    rewrite HP in Hf. unfold wire_fields in Hf. apply in_flat_map in Hf as [p [_ Hf]].
    destruct (sent (conf_of name e b) 0 0 p) as [v0|] eqn:E; [|destruct Hf]. destruct Hf as [Hf|[]]. inversion Hf; subst k v.
    repeat rewrite Forall_app. split; [apply HU, proto_key_safe|]. split; [apply HL; reflexivity|].
    split; [|apply HL; reflexivity].
    destruct p; cbn [on_wire]; try apply HX. cbn [sent] in E. inversion E; subst v0. apply HU, HN.
  - change (lit "oauth_signature=""") with (lit "oauth_signature" ++ lit "="""). apply Forall_app.
    split; [apply HU, safe_name; reflexivity|apply HL; reflexivity].
  - unfold sig_of in ES. destruct HB; cbn beta in ES; cbn [negb].
    + inversion ES. apply HX.
    + inversion ES. unfold signing_key. repeat rewrite Forall_app. split; [apply HX|]. split; [|apply HX].
      constructor; [|constructor]. right. right. split; reflexivity.
    + destruct (key _); inversion ES. apply HX.
    + destruct (key _); inversion ES. apply HX.
  - apply HL. reflexivity.
Qed.
Print Assumptions C27_alphabet.

(** The header parses to exactly the parameters configured, whatever bytes the credentials, callback,
    verifier and nonce contain. *)
Lemma builtin_decodes : forall sm name strict f cs ts text sig, builtin sm name strict f ->
  f cs ts text = Some sig -> ~ In """"%byte sig /\ exists raw, pct_decode sig = Some raw.
Proof.
  intros sm name strict f cs ts text sig H E. destruct H; cbn beta in E.
  - inversion E. split; [apply pct_decode_enc_quote|]. eexists. apply pct_decode_encode.
  - inversion E. unfold signing_key. split.
    + rewrite !in_app_iff. intros [K|[K|K]]; [now apply pct_decode_enc_quote in K| |now apply pct_decode_enc_quote in K].
      vm_compute in K. intuition discriminate.
    + rewrite pct_decode_encode_app. change (lit "&" ++ ?x) with ("&"%byte :: x). cbn [pct_decode beqb].
      change (beqb "&" "%") with false. cbv iota. rewrite pct_decode_encode. eexists. reflexivity.
  - destruct (key _); inversion E. split; [apply pct_decode_enc_quote|]. eexists. apply pct_decode_encode.
  - destruct (key _); inversion E. split; [apply pct_decode_enc_quote|]. eexists. apply pct_decode_encode.
Qed.

Theorem C27_no_injection : forall c e b name strict f r cs method uri out,
  builtin (bd_signature_method b) name strict f ->
  makes_calls r cs -> call_protos cs = all_protos ->
  Builder_authorize c e b method uri r = Ok out ->
  exists sig, parse_header out = Some (protocol_pairs (conf_of name e b) ++ [(lit "oauth_signature", sig)]).
Proof.
  intros c e b name strict f r cs method uri out HB HM HP H.
  apply (authorize_exact c e b _ _ _ HB r cs HM (protos_perm cs HP)) in H as [_ [_ [sig [ES ->]]]].
  pose proof (builtin_signs_as _ _ _ _ HB) as HSA. pose proof (sa_safe _ _ _ _ HSA) as HN.
  destruct (builtin_decodes _ _ _ _ _ _ _ _ HB ES) as [HQ [raw HD]]. exists raw.
  rewrite HP, <- raw_all. apply parse_header_text; auto. now apply wire_reads.
Qed.
Print Assumptions C27_no_injection.

Definition evil : bytes := lit "a"", oauth_token=""x"",""" ++ [x0d; x0a; x00; xff] ++ lit "Set-Cookie: a=b".
Example C27_example :
  match Builder_authorize dbg_std env0
          (Builder_callback (Some evil) (Builder_nonce (Some evil) (Builder_new (Cred evil evil) HMAC_SHA1)))
          (lit "GET") (s2d "http://h/") (AssertSorted true []) with
  | Ok out => match parse_header out with
              | Some l => Nat.eqb (length l) 6 && bseqb (concat (lookup (lit "oauth_callback") l)) evil
                          && Nat.eqb (length (lookup (lit "oauth_token") l)) 0
                          && forallb (fun x => unreserved x || existsb (beqb x) (lit "%=,"" ")) out
              | None => false
              end
  | Panic _ => false
  end = true.
Proof. vm_compute. reflexivity. Qed.

(** ** C28 *)

(** For every signature method and request: the result, or the panic, of the buffer variants is that
    of the plain ones, after the text that was in the buffer. *)
Definition after (buf : bytes) (r : res bytes) : res bytes :=
  match r with Ok out => Ok (buf ++ out) | Panic p => Panic p end.

Theorem C28_authorize : forall c e b (buf : bytes) method uri r cs, makes_calls r cs ->
  Builder_authorize_with_buf c e b (w := StringW) buf method uri r = after buf (Builder_authorize c e b method uri r)
  /\ Builder_into_authorization_with_buf c e b (w := StringW) buf method uri r
     = after buf (Builder_into_authorization c e b method uri r).
Proof.
  intros c e b buf method uri r cs HM. assert (HX :
    Builder_authorize_with_buf c e b (w := StringW) buf method uri r = after buf (Builder_authorize c e b method uri r)).
  { rewrite authorize_with_buf_go, authorize_go. rewrite write_unwrap_string by apply dok_dstr. cbn [rbind].
    rewrite dtext_dstr. exact (go_prefix c e b buf (Authorization (w := StringW) (lit "OAuth ")) method uri r cs HM). }
  split; exact HX.
Qed.
Print Assumptions C28_authorize.

Theorem C28_to_form : forall c e b (buf : bytes) method uri r cs, makes_calls r cs ->
  Builder_to_form_with_buf c e b (w := StringW) buf method uri r = after buf (Builder_to_form c e b method uri r)
  /\ Builder_into_form_with_buf c e b (w := StringW) buf method uri r = after buf (Builder_into_form c e b method uri r).
Proof.
  intros c e b buf method uri r cs HM. assert (HX :
    Builder_to_form_with_buf c e b (w := StringW) buf method uri r = after buf (Builder_to_form c e b method uri r)).
  { rewrite to_form_with_buf_go, to_form_go.
    pose proof (go_prefix c e b buf (Urlencode (ue_form_with_buf (w := StringW) ([] : bytes))) method uri r cs HM) as HG.
    assert (HD : pred buf (Urlencode (ue_form_with_buf (w := StringW) ([] : bytes))) = Urlencode (ue_form_with_buf (w := StringW) buf))
      by (cbn [pred]; unfold preu; cbn [ue_form_with_buf ue_data]; now rewrite app_nil_r).
    rewrite HD in HG. exact HG. }
  split; exact HX.
Qed.
Print Assumptions C28_to_form.

(** The same for a [Urlencoder] used directly. *)
Theorem C28_urlencoder : forall (buf : bytes) r cs, makes_calls r cs ->
  r (UrlencoderS StringW) (ue_form_with_buf (w := StringW) buf) = after buf (to_form r).
Proof.
  intros buf r cs HM. unfold to_form. rewrite !(HM (UrlencoderS StringW)).
  change (ue_form_with_buf (w := StringW) buf) with (Build_Urlencoder (w := StringW) buf ANone).
  pose proof (ue_calls_prefix buf cs ue_form) as HG.
  assert (HD : preu buf ue_form = Build_Urlencoder (w := StringW) buf ANone)
    by (unfold preu; cbn [ue_form ue_data]; now rewrite app_nil_r).
  rewrite HD in HG. rewrite HG.
  destruct (run_calls (S := UrlencoderS StringW) cs ue_form) as [u|]; reflexivity.
Qed.
Print Assumptions C28_urlencoder.

Example C28_example :
  match Builder_authorize_with_buf dbg_std env0 doc_builder (w := StringW) (lit "Authorization: ") (lit "GET") (s2d "http://h/") Request_unit,
        Builder_authorize dbg_std env0 doc_builder (lit "GET") (s2d "http://h/") Request_unit with
  | Ok x, Ok y => bseqb x (lit "Authorization: " ++ y)
  | _, _ => false
  end = true.
Proof. vm_compute. reflexivity. Qed.
Example C28_example_calls : makes_calls Request_unit (calls_of []).
Proof. exact (crate_request_calls _ _ cq_unit). Qed.

(** ** C32 *)

(** What a header must contain for each protocol parameter. *)
Definition expected (e : env) (b : Builder) (un ut : bool) (name : bytes) (p : proto) : option bytes :=
  let o := bd_options b in
  match p with
  | PCallback => op_callback o
  | PConsumerKey => Some (cr_identifier (bd_client b))
  | PNonce => if un then Some (match op_nonce o with
                               | Some n => n
                               | None => nonce_of_bytes (random_bytes e 0) end) else None
  | PSignatureMethod => Some name
  | PTimestamp => if ut then Some (decimal (match op_timestamp o with
                                            | Some t => t
                                            | None => seconds (env_clock e 0) end)) else None
  | PToken => match bd_token b with Some t => Some (cr_identifier t) | None => None end
  | PVerifier => op_verifier o
  | PVersion => if op_version o then Some (lit "1.0") else None
  end.

Lemma expected_sent : forall e b un ut name p, expected e b un ut name p = sent (conf_with un ut name e b) 0 0 p.
Proof.
  intros e b un ut name p. destruct p; reflexivity.
Qed.

Theorem C32_header : forall c e b name strict f r cs method uri out,
  builtin (bd_signature_method b) name strict f ->
  makes_calls r cs -> call_protos cs = all_protos ->
  Builder_authorize c e b method uri r = Ok out ->
  exists params, parse_header out = Some params
    /\ (forall p, lookup (proto_key p) params = match expected e b true true name p with Some v => [v] | None => [] end)
    /\ (forall k, lookup k params <> [] -> k = lit "oauth_signature" \/ exists p, k = proto_key p).
Proof.
  intros c e b name strict f r cs method uri out HB HM HP H.
  destruct (C27_no_injection c e b name strict f r cs method uri out HB HM HP H) as [sig HS].
  eexists. split; [exact HS|]. split.
  - intros p. rewrite lookup_app, <- raw_all, lookup_raw.
    + rewrite expected_sent. unfold conf_of. unfold lookup. cbn [filter fst].
      destruct (bseqb (lit "oauth_signature") (proto_key p)) eqn:E; [|apply app_nil_r].
      apply bseqb_eq in E. now apply sig_not_proto in E.
    + apply all_protos_nodup.
    + destruct p; cbn; tauto.
  - intros k Hk. destruct (bseqb k (lit "oauth_signature")) eqn:E; [left; now apply bseqb_eq|right].
    destruct (existsb (fun p => bseqb k (proto_key p)) all_protos) eqn:X.
    + apply existsb_exists in X as [p [_ X]]. apply bseqb_eq in X. eauto.
    + exfalso. apply Hk. rewrite lookup_app. rewrite !lookup_none; auto.
      * intros g [<-|[]] K. cbn [fst] in K. subst k. now rewrite bseqb_refl in E.
      * intros g Hg K. rewrite <- raw_all in Hg. apply raw_in in Hg as [p [Hp [K2 _]]].
        assert (existsb (fun p => bseqb k (proto_key p)) all_protos = true); [|congruence].
        apply existsb_exists. exists p. split; auto. rewrite <- K2, K. apply bseqb_refl.
Qed.
Print Assumptions C32_header.

(** For any signature method: a parameter is written iff it is expected. *)
Theorem C32_any_method : forall c e b un ut name r cs method uri out,
  constant_flags (bd_signature_method b) un ut name ->
  makes_calls r cs -> Permutation (call_protos cs) all_protos ->
  Builder_authorize c e b method uri r = Ok out ->
  exists fields sig, out = header_text fields sig
    /\ (forall p v, In (proto_key p, v) fields <-> option_map (on_wire p) (expected e b un ut name p) = Some v)
    /\ (forall f, In f fields -> exists p, fst f = proto_key p)
    /\ NoDup (map fst fields).
Proof.
  intros c e b un ut name r cs method uri out HF HM HP H.
  apply (C16_any_method c e b un ut name r cs method uri out HF HM HP) in H as [_ [_ [_ [s0 [sf [d [_ [_ [_ [_ ->]]]]]]]]]].
  eexists _, _. split; [reflexivity|]. set (ps := call_protos cs) in *.
  assert (HI : forall p, In p ps) by (intros p; rewrite HP; destruct p; cbn; tauto).
  assert (HN : NoDup ps) by (eapply Permutation_NoDup; [apply Permutation_sym, HP|apply all_protos_nodup]).
  clear HM HP. split; [|split].
  - intros p v. rewrite expected_sent. unfold wire_fields. rewrite in_flat_map. split.
    + intros [q [_ K]]. destruct (sent (conf_with un ut name e b) 0 0 q) as [v0|] eqn:E; [|destruct K].
      destruct K as [K|[]]. injection K as K1 K2. apply proto_key_inj in K1. subst q. rewrite E, <- K2. reflexivity.
    + intros K. exists p. split; auto. destruct (sent (conf_with un ut name e b) 0 0 p) as [v0|]; [|discriminate].
      cbn [option_map] in K. inversion K. now left.
  - intros g Hg. unfold wire_fields in Hg. apply in_flat_map in Hg as [p [_ Hg]]. exists p.
    destruct (sent (conf_with un ut name e b) 0 0 p); [|destruct Hg]. destruct Hg as [<-|[]]. reflexivity.
  - clear HI. unfold wire_fields. induction ps as [|p ps IH]; [constructor|]. inversion HN as [|? ? N1 N2]; subst.
    cbn [flat_map]. rewrite map_app. destruct (sent (conf_with un ut name e b) 0 0 p); cbn [map app fst]; auto.
    constructor; auto. intros K. apply in_map_iff in K as [g [K1 K2]]. apply in_flat_map in K2 as [q [Hq K2]].
    destruct (sent (conf_with un ut name e b) 0 0 q); [|destruct K2]. destruct K2 as [<-|[]]. cbn [fst] in K1.
    apply proto_key_inj in K1. subst q. auto.
Qed.
Print Assumptions C32_any_method.

(** Everything in the header but the signature is signed, with the same value: the text signed is the
    base string of the header's parameters and those of the request.  The method [Reveal] makes
    the signed text visible; for HMAC-SHA1 see C17. *)
Theorem C32_all_signed : forall c e b name r l method uri out params,
  bd_signature_method b = Reveal name -> uri_safe name -> honest r l -> normal_method method ->
  Builder_authorize c e b method uri r = Ok out -> parse_header out = Some params ->
  lookup (lit "oauth_signature") params
  = [base_string method (dtext uri) (filter (fun p => negb (has_key (lit "oauth_signature") p)) params ++ l)].
Proof.
  intros c e b name r l method uri out params HB HN HR HM H HPA. destruct HR as [cs [M [P [A [D [C [S [O R]]]]]]]].
  assert (HP : Permutation (call_protos cs) all_protos) by now rewrite P.
  apply (reveal_authorize c e b name r cs method uri out HB HN M HP) in H as [_ [_ ->]].
  rewrite (hashed_is_base _ cs l method _ HM HP A C S O R) in HPA. rewrite P in HPA.
  rewrite (parse_header_text _ (raw_fields (conf_of name e b) all_protos) _
            (base_string method (dtext uri) (protocol_pairs (conf_of name e b) ++ l))) in HPA.
  2: now apply wire_reads. 2: apply pct_decode_enc_quote. 2: apply pct_decode_encode.
  rewrite raw_all in HPA. injection HPA as <-.
  assert (HF : filter (fun p => negb (has_key (lit "oauth_signature") p)) (protocol_pairs (conf_of name e b)) = protocol_pairs (conf_of name e b)).
  { apply filter_all. intros g Hg. rewrite <- raw_all in Hg. apply raw_in in Hg as [p [_ [K _]]].
    unfold has_key. rewrite K. destruct (bseqb (proto_key p) (lit "oauth_signature")) eqn:E; auto.
    apply bseqb_eq in E. symmetry in E. now apply sig_not_proto in E. }
  rewrite filter_app, HF. cbn [filter has_key fst]. unfold has_key. cbn [fst]. rewrite bseqb_refl. cbn [negb].
  rewrite app_nil_r, lookup_app, lookup_none.
  - unfold lookup. cbn [filter fst map app]. rewrite bseqb_refl. reflexivity.
  - intros g Hg K. rewrite <- raw_all in Hg. apply raw_in in Hg as [p [_ [K2 _]]]. apply (sig_not_proto p). congruence.
Qed.
Print Assumptions C32_all_signed.

Example C32_example :
  match Builder_authorize dbg_std env0 (full_builder (TraceMethod false true (lit "X") (fun _ => dstr (lit "s"))))
          (lit "GET") (s2d "http://h/") Request_unit,
        Builder_authorize dbg_std env0 (Builder_new (Cred (lit "id") []) HMAC_SHA1) (lit "GET") (s2d "http://h/") Request_unit with
  | Ok x, Ok y =>
      match parse_header x, parse_header y with
      | Some l, Some l' =>
          bseqb (concat (map (fun p => fst p ++ lit " ") l))
            (lit "oauth_callback oauth_consumer_key oauth_signature_method oauth_timestamp oauth_token oauth_verifier oauth_version oauth_signature ")
          && bseqb (concat (map (fun p => fst p ++ lit " ") l'))
            (lit "oauth_consumer_key oauth_nonce oauth_signature_method oauth_timestamp oauth_signature ")
      | _, _ => false
      end
  | _, _ => false
  end = true.
Proof. vm_compute. reflexivity. Qed.

(** ** C48 *)

(** The time sent: configured, or the clock's, or 1 before the epoch. *)
Definition time_sent (e : env) (b : Builder) : N :=
  match op_timestamp (bd_options b) with
  | Some t => t
  | None => match env_clock e 0 with Some s => s | None => 1%N end
  end.

Theorem C48_timestamp : forall c e b name strict f r cs method uri out,
  builtin (bd_signature_method b) name strict f ->
  makes_calls r cs -> call_protos cs = all_protos ->
  Builder_authorize c e b method uri r = Ok out ->
  exists params digits, parse_header out = Some params /\ lookup (lit "oauth_timestamp") params = [digits]
    /\ read_decimal digits = Some (time_sent e b)
    /\ digits <> [] /\ Forall (fun x => is_digit x = true) digits
    /\ (time_sent e b <> 0%N -> hd x00 digits <> "0"%byte) /\ (time_sent e b = 0%N -> digits = lit "0")
    /\ pct_encode digits = digits
    /\ exists before behind, out = before ++ lit "oauth_timestamp=""" ++ digits ++ lit """," ++ behind.
Proof.
  intros c e b name strict f r cs method uri out HB HM HP H.
  destruct (C32_header c e b name strict f r cs method uri out HB HM HP H) as [params [HPA [HL _]]].
  exists params, (decimal (time_sent e b)). split; auto. split; [exact (HL PTimestamp)|].
  destruct (decimal_spec (time_sent e b)) as [D1 [D2 [D3 [D4 D5]]]].
  split; auto. split; auto. split; [now apply Forall_forall, forallb_forall|]. split; auto. split; auto.
  split; [apply pct_encode_safe, decimal_safe|].
  apply (C16_header c e b name strict f r cs method uri out HB HM HP) in H as [_ [_ [sig [_ ->]]]].
  rewrite header_spelled_eq. unfold header_text.
  assert (HI : In (lit "oauth_timestamp", decimal (time_sent e b)) (wire_fields (conf_of name e b) all_protos)).
  { unfold wire_fields. apply in_flat_map. exists PTimestamp. split; [cbn; tauto|]. left.
    cbn [on_wire]. rewrite pct_encode_safe by apply decimal_safe. reflexivity. }
  apply in_split in HI as [l1 [l2 ->]]. rewrite map_app, concat_app. cbn [map concat].
  exists (lit "OAuth " ++ concat (map header_field l1)).
  exists (concat (map header_field l2) ++ lit "oauth_signature=""" ++ sig ++ lit """").
  unfold header_field at 2. cbn [fst snd]. rewrite <- !app_assoc. reflexivity.
Qed.
Print Assumptions C48_timestamp.

(** The number signed is the one sent: see [C32_all_signed]; for any signature method, it is given
    the number itself. *)
Theorem C48_signed : forall cf cs, cn_use_timestamp cf = true -> In PTimestamp (call_protos cs) ->
  In (STimestamp (match op_timestamp (cn_options cf) with Some t => t | None => seconds (env_clock (cn_env cf) 0) end))
    (param_feeds cf cs)
  /\ forall t, In (STimestamp t) (param_feeds cf cs) -> sent cf 0 0 PTimestamp = Some (decimal t).
Proof.
  intros cf cs HU HI. split.
  - unfold call_protos in HI. apply in_flat_map in HI as [x [Hx HI]]. destruct x as [| |p]; [destruct HI..|].
    destruct HI as [->|[]]. apply in_flat_map. exists (CProto PTimestamp). split; auto. cbn [sent]. rewrite HU.
    left. reflexivity.
  - intros t Ht. apply in_flat_map in Ht as [x [Hx Ht]]. destruct x as [k v|k v|p].
    + destruct Ht as [Ht|[]]. discriminate.
    + destruct Ht as [Ht|[]]. discriminate.
    + destruct (sent cf 0 0 p) as [v|] eqn:E; [|destruct Ht]. destruct Ht as [Ht|[]].
      destruct p; try discriminate. cbn [proto_feed] in Ht. injection Ht as <-. cbn [sent]. now rewrite HU.
Qed.
Print Assumptions C48_signed.

Example C48_example :
  match Builder_authorize dbg_std {| env_clock := fun _ => None; env_rng := fun _ _ => x02 |}
          (Builder_new (Cred (lit "id") []) HMAC_SHA1) (lit "GET") (s2d "http://h/") Request_unit,
        Builder_authorize dbg_std env0 (Builder_timestamp (Some 18446744073709551615%N) (Builder_new (Cred (lit "id") []) PLAINTEXT))
          (lit "GET") (s2d "http://h/") Request_unit with
  | Ok x, Ok y =>
      match parse_header x, parse_header y with
      | Some l, Some l' => bseqb (concat (lookup (lit "oauth_timestamp") l)) (lit "1")
          && bseqb (concat (lookup (lit "oauth_timestamp") l')) (lit "18446744073709551615")
      | _, _ => false
      end
  | _, _ => false
  end = true.
Proof. vm_compute. reflexivity. Qed.
