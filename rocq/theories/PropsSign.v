(** Properties C21-C24 and C49: signature methods. *)
From Coq Require Import String.
From Coq Require Import Lia Arith Sorted Permutation.
From Verif Require Import Bytes Crypto Spec MFmt MPercent MSerializer MSign MRequest MCredentials MAuth MBuilder ModelTests
  SpecFmt SpecCalls SpecCalls2 SpecAuth SpecBuild SpecForm SpecServer SpecParams SpecSign
  LBytes LFmt LPercent LCrypto LTrace LAuth LSign LBuild LForm LBase LBase2 LReq LReq2 LPanic LTop LParams LServer
  LReveal LAny LBuf LSim.

(** A builder for the examples. *)
Definition full (sm : SignatureMethod) (cs ts : bytes) : Builder :=
  Builder_nonce (Some (lit "n")) (Builder_timestamp (Some 5%N)
    (Builder_with_token (Tok (Cred (lit "id") cs) (Cred (lit "tok") ts)) sm)).

(** ** C21 *)

(** [pieces] written one after the other into a fresh signing key: none of the writes fails, and the
    MAC of every message is that under the whole key. *)
Theorem C21_chunks : forall pieces, exists key st,
  writes_ok (w := SigningKeyW) SigningKey_new pieces key /\ into_hmac key = Ok st /\ hm_fed st = []
  /\ forall m, hmac_sha1 (hm_key st) m = hmac_sha1 (concat pieces) m.
Proof.
  intros pieces. destruct (sk_writes pieces SigningKey_new [] sk_new_rel) as [k [W R]].
  destruct (into_hmac_spec k _ R) as [st [H1 [H2 H3]]]. exists k, st. auto.
Qed.
Print Assumptions C21_chunks.

(** The split does not matter. *)
Theorem C21_split_irrelevant : forall p1 p2 k1 k2 s1 s2 m, concat p1 = concat p2 ->
  writes_ok (w := SigningKeyW) SigningKey_new p1 k1 -> into_hmac k1 = Ok s1 ->
  writes_ok (w := SigningKeyW) SigningKey_new p2 k2 -> into_hmac k2 = Ok s2 ->
  hmac_sha1 (hm_key s1) m = hmac_sha1 (hm_key s2) m.
Proof.
  intros p1 p2 k1 k2 s1 s2 m E W1 I1 W2 I2.
  assert (HD : forall p k k', writes_ok (w := SigningKeyW) SigningKey_new p k -> writes_ok (w := SigningKeyW) SigningKey_new p k' -> k = k').
  { intros p. generalize SigningKey_new. induction p as [|x p IH]; intros k0 k k' H H'; inversion H; inversion H'; subst; auto.
    eapply IH; eauto. congruence. }
  destruct (C21_chunks p1) as [k1' [s1' [A1 [B1 [_ D1]]]]]. rewrite (HD _ _ _ W1 A1) in I1. rewrite B1 in I1. inversion I1; subst s1.
  destruct (C21_chunks p2) as [k2' [s2' [A2 [B2 [_ D2]]]]]. rewrite (HD _ _ _ W2 A2) in I2. rewrite B2 in I2. inversion I2; subst s2.
  now rewrite D1, D2, E.
Qed.
Print Assumptions C21_split_irrelevant.

(** The signature method as a whole: fed [xs] (method, URI, parameters, ...), it emits the encoded
    base 64 of RFC 2104 HMAC-SHA1 under [signing_key], of the concatenated texts. *)
Theorem C21_method : forall cs ts xs, Forall scall_ok xs -> exists s0 sf d,
  sm_sign_with HMAC_SHA1 cs ts = Ok s0 /\ run_scalls s0 xs = Ok sf /\ sg_end sf = Ok d /\ dok d
  /\ dtext d = pct_encode (base64 b64_std true
       (hmac_sha1 (signing_key cs ts) (concat (map (scall_text (lit "HMAC-SHA1")) xs)))).
Proof.
  intros cs ts xs HX. pose proof (builtin_signs_as _ _ _ _ bi_hmac) as HS.
  destruct (sa_start _ _ _ _ HS cs ts) as [s0 [H0 [H1 _]]]. destruct (H1 xs (fun _ => HX)) as [sf [R [d [E [D [_ T]]]]]].
  exists s0, sf, d. auto.
Qed.
Print Assumptions C21_method.

(** 63, 64, 65 and 130 bytes, in pieces across the block boundary. *)
Example C21_example :
  forallb (fun sizes =>
    let pieces := map (fun n => repeat "k"%byte n) sizes in
    match write_unwrap (w := SigningKeyW) (fold_right (fun p d => dseq (dstr p) d) (dstr []) pieces) SigningKey_new with
    | Ok k => match into_hmac k with
              | Ok st => bseqb (hmac_sha1 (hm_key st) (lit "m")) (hmac_sha1 (concat pieces) (lit "m"))
              | Panic _ => false
              end
    | Panic _ => false
    end) [[]; [3]; [60; 3]; [60; 4]; [60; 5]; [64; 1]; [65]; [1; 63; 1; 65]]%nat = true.
Proof. vm_compute. reflexivity. Qed.

(** ** C22 *)

(** The signature a header carries, read as every other header value is read. *)
Definition header_signature (r : res bytes) : option bytes :=
  match r with
  | Ok out => match parse_header out with
              | Some params => match lookup (lit "oauth_signature") params with [s] => Some s | _ => None end
              | None => None
              end
  | Panic _ => None
  end.

(** False in the header: with client secret "a b" and no token, the value decodes to "a b&" and not
    to "a%20b&". *)
Theorem C22_refuted : exists b method uri,
  bd_signature_method b = PLAINTEXT
  /\ header_signature (Builder_authorize dbg_std env0 b method uri Request_unit) = Some (lit "a b&")
  /\ signing_key (client_secret b) (token_secret b) = lit "a%20b&".
Proof.
  exists (Builder_new (Cred (lit "id") (lit "a b")) PLAINTEXT), (lit "GET"), (s2d "http://h/").
  split; [reflexivity|]. split; vm_compute; reflexivity.
Qed.
Print Assumptions C22_refuted.

(** Ambiguous, too: different secrets, the same decoded value. *)
Theorem C22_ambiguous_refuted : exists b b' method uri s,
  bd_signature_method b = PLAINTEXT /\ bd_signature_method b' = PLAINTEXT
  /\ header_signature (Builder_authorize dbg_std env0 b method uri Request_unit) = Some s
  /\ header_signature (Builder_authorize dbg_std env0 b' method uri Request_unit) = Some s
  /\ signing_key (client_secret b) (token_secret b) <> signing_key (client_secret b') (token_secret b').
Proof.
  exists (Builder_token (Some (Cred (lit "t") (lit "c"))) (Builder_new (Cred (lit "id") (lit "a&b")) PLAINTEXT)),
    (Builder_token (Some (Cred (lit "t") (lit "b&c"))) (Builder_new (Cred (lit "id") (lit "a")) PLAINTEXT)),
    (lit "GET"), (s2d "http://h/"), (lit "a&b&c").
  split; [reflexivity|]. split; [reflexivity|]. split; [vm_compute; reflexivity|]. split; [vm_compute; reflexivity|].
  vm_compute. discriminate.
Qed.
Print Assumptions C22_ambiguous_refuted.

(** False in a form, for every pair of secrets: the "&" of the key cuts the form in two, so a server
    reads the client secret as the signature and one parameter too many. *)
Theorem C22_form_refuted : forall c e b r cs method uri body,
  bd_signature_method b = PLAINTEXT -> makes_calls r cs -> call_protos cs = all_protos ->
  Builder_to_form c e b method uri r = Ok body ->
  exists params, parse_form body = Some params
    /\ params = protocol_pairs (conf_of (lit "PLAINTEXT") e b)
        ++ [(lit "oauth_signature", client_secret b); (match token_secret b with Some t => t | None => [] end, [])]
    /\ lookup (lit "oauth_signature") params <> [signing_key (client_secret b) (token_secret b)].
Proof.
  intros c e b r cs method uri body HB HM HP H.
  assert (HBI : builtin (bd_signature_method b) (lit "PLAINTEXT") false (fun cs ts _ => Some (signing_key cs ts)))
    by (rewrite HB; constructor).
  apply (to_form_with_buf_exact c e b _ _ _ HBI r cs HM (protos_perm cs HP) []) in H as [_ [_ [sig [ES ->]]]].
  unfold sig_of in ES. inversion ES; subst sig. clear ES. rewrite HP. cbn [app].
  set (t := match token_secret b with Some t => t | None => [] end).
  assert (HN : uri_safe (cn_name (conf_of (lit "PLAINTEXT") e b))) by (apply safe_name; reflexivity).
  set (l := raw_fields (conf_of (lit "PLAINTEXT") e b) all_protos ++ [(lit "oauth_signature", client_secret b)]).
  assert (HE : form_text (wire_fields (conf_of (lit "PLAINTEXT") e b) all_protos
                 ++ [(lit "oauth_signature", signing_key (client_secret b) (token_secret b))])
               = form_text (map enc_value l) ++ "&"%byte :: pct_encode t).
  { unfold l. rewrite map_app, <- wire_enc by auto. unfold form_text. rewrite !map_app. cbn [map enc_value fst snd].
    assert (HJ : forall p x y, join (lit "&") (p ++ [x ++ y]) = join (lit "&") (p ++ [x]) ++ y).
    { induction p as [|a p IH]; intros x y; [reflexivity|].
      assert (G : forall z, join (lit "&") ((a :: p) ++ [z]) = a ++ lit "&" ++ join (lit "&") (p ++ [z]))
        by (intros z; destruct p; reflexivity).
      rewrite !G, IH, <- !app_assoc. reflexivity. }
    rewrite <- HJ. do 3 f_equal. }
  exists (l ++ [(t, [])]). split; [|split].
  - rewrite HE. apply parse_form_stray.
    + unfold l. destruct (raw_fields _ _); discriminate.
    + unfold l. apply Forall_app. split; [apply raw_safe|]. repeat constructor. now apply safe_name.
  - unfold l. rewrite raw_all, <- app_assoc. reflexivity.
  - unfold l. rewrite <- app_assoc, lookup_app, lookup_none.
    + unfold lookup. cbn [app filter fst]. rewrite bseqb_refl. cbn [map snd]. intros K.
      assert (KL : client_secret b = signing_key (client_secret b) (token_secret b)).
      { destruct (bseqb t (lit "oauth_signature")); cbn [map] in K; [discriminate|]. now inversion K. }
      pose proof (proj1 (pct_encode_longer (client_secret b))) as L1.
      apply (f_equal (@length _)) in KL. unfold signing_key in KL. rewrite !app_length in KL. cbn [length lit list_byte_of_string] in KL.
      change (length (lit "&")) with 1 in KL. lia.
    + intros g Hg K. apply raw_in in Hg as [p [_ [K2 _]]]. apply (sig_not_proto p). congruence.
Qed.
Print Assumptions C22_form_refuted.

(** What does hold: the text emitted is the signing key; it is read back correctly from a header
    when, and only when, neither secret needs encoding. *)
Theorem C22_header_partial : forall c e b r cs method uri out,
  bd_signature_method b = PLAINTEXT -> makes_calls r cs -> call_protos cs = all_protos ->
  Builder_authorize c e b method uri r = Ok out ->
  out = header_text (wire_fields (conf_of (lit "PLAINTEXT") e b) all_protos) (signing_key (client_secret b) (token_secret b))
  /\ (header_signature (Ok out) = Some (signing_key (client_secret b) (token_secret b)) <->
      uri_safe (client_secret b) /\ match token_secret b with Some t => uri_safe t | None => True end).
Proof.
  intros c e b r cs method uri out HB HM HP H.
  assert (HBI : builtin (bd_signature_method b) (lit "PLAINTEXT") false (fun cs ts _ => Some (signing_key cs ts)))
    by (rewrite HB; constructor).
  apply (authorize_exact c e b _ _ _ HBI r cs HM (protos_perm cs HP)) in H as [_ [_ [sig [ES ->]]]].
  unfold sig_of in ES. inversion ES; subst sig. clear ES. rewrite HP. split; [reflexivity|].
  set (t := match token_secret b with Some t => t | None => [] end).
  assert (HD : pct_decode (signing_key (client_secret b) (token_secret b)) = Some (client_secret b ++ lit "&" ++ t)).
  { unfold signing_key. rewrite pct_decode_encode_app. change (lit "&" ++ ?x) with ("&"%byte :: x). cbn [pct_decode].
    change (beqb "&" "%") with false. cbv iota. fold t. rewrite pct_decode_encode. reflexivity. }
  assert (HQ : ~ In """"%byte (signing_key (client_secret b) (token_secret b))).
  { unfold signing_key. rewrite !in_app_iff. intros [K|[K|K]]; [now apply pct_decode_enc_quote in K| |now apply pct_decode_enc_quote in K].
    vm_compute in K. intuition discriminate. }
  unfold header_signature. rewrite (parse_header_text _ (raw_fields (conf_of (lit "PLAINTEXT") e b) all_protos) _ _
    (wire_reads (conf_of (lit "PLAINTEXT") e b) all_protos (safe_name (lit "PLAINTEXT") eq_refl)) HQ HD).
  rewrite lookup_app, lookup_none.
  2:{ intros g Hg K. apply raw_in in Hg as [p [_ [K2 _]]]. apply (sig_not_proto p). congruence. }
  unfold lookup. cbn [app filter fst]. rewrite bseqb_refl. cbn [map snd].
  assert (HT : match token_secret b with Some t => uri_safe t | None => True end <-> uri_safe t).
  { unfold t. destruct (token_secret b); split; auto. intros _ x []. }
  rewrite HT. split.
  - intros K. injection K as K. unfold signing_key in K. fold t in K.
    destruct (pct_encode_longer (client_secret b)) as [L1 L2]. destruct (pct_encode_longer t) as [L3 L4].
    apply (f_equal (@length _)) in K. rewrite !app_length in K. change (length (lit "&")) with 1 in K. cbn [length] in K. split; [apply L2|apply L4]; lia.
  - intros [K1 K2]. unfold signing_key. fold t. now rewrite !pct_encode_safe.
Qed.
Print Assumptions C22_header_partial.

Example C22_example :
  match Builder_to_form dbg_std env0 (full PLAINTEXT (lit "cs") (lit "t s")) (lit "GET") (s2d "http://h/") Request_unit with
  | Ok body => match parse_form body with
               | Some l => bseqb (concat (lookup (lit "oauth_signature") l)) (lit "cs") && Nat.eqb (length (lookup (lit "t s") l)) 1
               | None => false
               end
  | Panic _ => false
  end = true.
Proof. vm_compute. reflexivity. Qed.

(** ** C23 *)

Theorem C23_signature : forall c e b key r l method uri out,
  bd_signature_method b = RsaSha1 key -> honest r l -> normal_method method ->
  (Builder_authorize c e b method uri r = Ok out <->
   timestamp_available c (conf_of (lit "RSA-SHA1") e b) /\ dok uri /\ (cf_debug c = true -> ~ has_question (dtext uri)) /\
   exists signature,
     key (sha1 (base_string method (dtext uri) (protocol_pairs (conf_of (lit "RSA-SHA1") e b) ++ l))) = Some signature
     /\ out = header_text (wire_fields (conf_of (lit "RSA-SHA1") e b) all_protos) (pct_encode (base64 b64_std true signature))).
Proof.
  intros c e b key r l method uri out HB HR HM. destruct HR as [cs [M [P [A [D [C [S [O R]]]]]]]].
  assert (HP : Permutation (call_protos cs) all_protos) by now rewrite P.
  pose proof (bi_rsa key) as HBI. rewrite <- HB in HBI.
  rewrite (authorize_exact c e b _ _ _ HBI r cs M HP method uri out). unfold sig_of.
  rewrite (hashed_is_base _ cs l method _ HM HP A C S O R), P.
  split.
  - intros [T [V [sig [ES ->]]]]. split; auto. split; [apply V; auto|]. split; [apply V|].
    destruct (key _) as [sg|]; [|discriminate]. inversion ES. exists sg. auto.
  - intros [T [V1 [V2 [sg [ES ->]]]]]. split; auto. split; [constructor; auto|].
    + intros _ _. now apply signed_keys_ascending.
    + rewrite ES. eexists. split; reflexivity.
Qed.
Print Assumptions C23_signature.

(** The secrets are not used: builders that differ only in secrets give the same results, and the
    same panics, for every request. *)
Theorem C23_secrets_unused : forall c e b b' key method r,
  bd_signature_method b = RsaSha1 key -> bd_signature_method b' = RsaSha1 key ->
  cr_identifier (bd_client b) = cr_identifier (bd_client b') ->
  option_map cr_identifier (bd_token b) = option_map cr_identifier (bd_token b') ->
  bd_options b = bd_options b' ->
  (forall uri, Builder_authorize c e b method uri r = Builder_authorize c e b' method uri r)
  /\ (forall uri, Builder_to_form c e b method uri r = Builder_to_form c e b' method uri r)
  /\ (forall (w : Writer) show (uri : w), Builder_to_query c e show b method uri r = Builder_to_query c e show b' method uri r).
Proof.
  intros c e [sm cl tk op] [sm' cl' tk' op'] key method r. cbn [bd_signature_method bd_client bd_token bd_options].
  intros -> -> HC HT ->.
  assert (H : forall (w : Writer) (data : Data w) uri,
    go c e {| bd_signature_method := RsaSha1 key; bd_client := cl; bd_token := tk; bd_options := op' |} data method uri r
    = go c e {| bd_signature_method := RsaSha1 key; bd_client := cl'; bd_token := tk'; bd_options := op' |} data method uri r).
  { intros w data uri. unfold go, make_sign, au_new. cbn [bd_signature_method bd_client bd_token bd_options RsaSha1 sm_sign_with].
    rewrite HC, HT. reflexivity. }
  split; [|split]; intros.
  - rewrite !authorize_go. exact (H StringW _ _).
  - rewrite !to_form_go. exact (H StringW _ _).
  - rewrite !to_query_go. apply H.
Qed.
Print Assumptions C23_secrets_unused.

(** An owned and a borrowed key cannot be told apart. *)
Theorem C23_owned_borrowed : forall key, same_outputs (RsaSha1 key) (RsaSha1_ref key).
Proof.
  intros key. apply (morphism_outputs (RsaSha1 key) (RsaSha1_ref key) (fun s => s)); [|reflexivity].
  split; [constructor|]; try reflexivity.
  - intros s x. assert (HR : forall r : res (rsa_sign rsa_end_owned), r = rmap (fun s => s) r) by (intros []; reflexivity).
    exact (HR (run_scall (sg := rsa_sign rsa_end_owned) s x)).
Qed.
Print Assumptions C23_owned_borrowed.

(** A key that "signs" with the digest itself. *)
Example C23_example :
  match Builder_authorize dbg_std env0 (full (RsaSha1 (fun d => Some (lit "sig" ++ d))) (lit "cs") (lit "t s")) (lit "GET") (s2d "http://h/") (AssertSorted true [kvs "a" "1"]),
        Builder_authorize dbg_std env0 (full (RsaSha1_ref (fun d => Some (lit "sig" ++ d))) (lit "x") (lit "y")) (lit "GET") (s2d "http://h/") (AssertSorted true [kvs "a" "1"]) with
  | Ok x, Ok y => bseqb x y
  | _, _ => false
  end = true.
Proof. vm_compute. reflexivity. Qed.

(** ** C24 *)

(** Exactly: [Either] behaves like the chosen method with its [consumer_key] method forgotten, for
    all methods, requests and writers, panics included. *)
Theorem C24_left_exact : forall l R, same_outputs (without_consumer_key l) (Either_Left l R).
Proof.
  intros l R. apply (morphism_outputs (without_consumer_key l) (Either_Left l R) (fun s => inl s)); [|].
  - split; [constructor|]; try reflexivity. intros s x. destruct x; cbn; unfold rmap, rbind;
      match goal with |- context [match ?r with Ok _ => _ | Panic _ => _ end] => destruct r end; reflexivity.
  - intros cs ts. cbn. destruct (sm_sign_with l cs ts); reflexivity.
Qed.
Print Assumptions C24_left_exact.

Theorem C24_right_exact : forall L r, same_outputs (without_consumer_key r) (Either_Right L r).
Proof.
  intros L r. apply (morphism_outputs (without_consumer_key r) (Either_Right L r) (fun s => inr s)); [|].
  - split; [constructor|]; try reflexivity. intros s x. destruct x; cbn; unfold rmap, rbind;
      match goal with |- context [match ?r with Ok _ => _ | Panic _ => _ end] => destruct r end; reflexivity.
  - intros cs ts. cbn. destruct (sm_sign_with r cs ts); reflexivity.
Qed.
Print Assumptions C24_right_exact.

(** So it behaves like the chosen method when that does not override [consumer_key]: in particular
    for the methods of the crate. *)
Definition plain_consumer_key (m : SignatureMethod) : Prop :=
  forall (s : sm_sign m) v, sg_consumer_key s v = sg_parameter s (lit "oauth_consumer_key") v.

Theorem C24_partial : forall m X, plain_consumer_key m ->
  same_outputs m (Either_Left m X) /\ same_outputs m (Either_Right X m).
Proof.
  assert (HT : forall m1 m2 m3, same_outputs m1 m2 -> same_outputs m2 m3 -> same_outputs m1 m3).
  { intros m1 m2 m3 H1 H2 c e b method r cs HM.
    destruct (H1 c e b method r cs HM) as [A1 [A2 [A3 [A4 A5]]]]. destruct (H2 c e b method r cs HM) as [B1 [B2 [B3 [B4 B5]]]].
    repeat split; intros; [now rewrite A1|now rewrite A2|now rewrite A3|now rewrite A4|now rewrite A5]. }
  intros m X HP. assert (HW : same_outputs m (without_consumer_key m)).
  { apply (morphism_outputs m (without_consumer_key m) (fun s => s)).
    - assert (HR : forall r : res (sm_sign m), r = rmap (fun s => s) r) by (intros []; reflexivity).
      split; [constructor|]; try reflexivity. intros s x. destruct x; try (exact (HR _)).
      cbn [run_scall without_consumer_key sm_sign provided_consumer_key sg_consumer_key]. rewrite HP. exact (HR _).
    - intros cs ts. cbn. destruct (sm_sign_with m cs ts); reflexivity. }
  split; (eapply HT; [exact HW|]); [apply C24_left_exact|apply C24_right_exact].
Qed.
Print Assumptions C24_partial.

Theorem C24_builtin_partial : forall m name strict f X, builtin m name strict f ->
  same_outputs m (Either_Left m X) /\ same_outputs m (Either_Right X m).
Proof. intros m name strict f X H. apply C24_partial. destruct H; intros s v; reflexivity. Qed.
Print Assumptions C24_builtin_partial.

(** In general it does not: a method that overrides [consumer_key] signs differently inside an
    [Either], because the latter does not delegate that method. *)
Definition key_only : SignatureMethod :=
  TraceMethod true true (lit "X")
    (fun t => dstr (if existsb (fun x => match x with SConsumerKey _ => true | _ => false end) (tr_calls t)
                    then lit "keyed" else lit "not-keyed")).
Theorem C24_refuted : exists m X b method uri out out',
  Builder_authorize dbg_std env0 (with_method m b) method uri Request_unit = Ok out
  /\ Builder_authorize dbg_std env0 (with_method (Either_Left m X) b) method uri Request_unit = Ok out'
  /\ parse_header out <> parse_header out'.
Proof.
  exists key_only, (sm_sign HMAC_SHA1), doc_builder, (lit "GET"), (s2d "http://h/").
  eexists. eexists. split; [vm_compute; reflexivity|]. split; [vm_compute; reflexivity|].
  intros H. assert (HB : bseqb (lit "keyed") (lit "not-keyed") = true); [|vm_compute in HB; discriminate].
  apply bseqb_eq. pose proof (f_equal (option_map (lookup (lit "oauth_signature"))) H) as K.
  vm_compute in K. discriminate K.
Qed.
Print Assumptions C24_refuted.

(** The two cases of the theorems: HMAC-SHA1 does not override the method, [key_only] does. *)
Example C24_example : plain_consumer_key HMAC_SHA1 /\ ~ plain_consumer_key key_only
  /\ match Builder_authorize dbg_std env0 (with_method HMAC_SHA1 doc_builder) (lit "GET") (s2d "http://h/") (AssertSorted true [kvs "a" "1"]),
           Builder_authorize dbg_std env0 (with_method (Either_Right (sm_sign PLAINTEXT) HMAC_SHA1) doc_builder) (lit "GET") (s2d "http://h/") (AssertSorted true [kvs "a" "1"]) with
     | Ok x, Ok y => bseqb x y
     | _, _ => false
     end = true.
Proof.
  split; [intros s v; reflexivity|]. split; [|vm_compute; reflexivity].
  intros H. specialize (H {| tr_client := []; tr_token := None; tr_calls := [] |} (dstr [])). vm_compute in H. discriminate H.
Qed.

(** ** C49 *)

(** A signature method that keeps every call it receives: the calls are those documented, whatever
    its flags and name and whatever it computes from them; [sign_with] received the secrets. *)
Lemma trace_calls : forall un ut name fin xs (s : TraceSign un ut name fin), run_scalls s xs
  = Ok ({| tr_client := tr_client s; tr_token := tr_token s; tr_calls := tr_calls s ++ xs |} : TraceSign un ut name fin).
Proof.
  intros un ut name fin. induction xs as [|x xs IH]; intros s.
  - cbn. rewrite app_nil_r. destruct s; reflexivity.
  - cbn [run_scalls]. assert (HX : run_scall s x = Ok ({| tr_client := tr_client s; tr_token := tr_token s;
      tr_calls := tr_calls s ++ [x] |} : TraceSign un ut name fin)) by (destruct x; reflexivity).
    rewrite HX. cbn [rbind]. rewrite IH. cbn [tr_client tr_token tr_calls]. now rewrite <- app_assoc.
Qed.

Theorem C49_calls : forall c e b un ut name fin r cs method uri out,
  bd_signature_method b = TraceMethod un ut name fin ->
  makes_calls r cs -> Permutation (call_protos cs) all_protos ->
  let received := {| tr_client := client_secret b; tr_token := token_secret b;
                     tr_calls := documented_calls (conf_with un ut name e b) method uri cs |} in
  (Builder_authorize c e b method uri r = Ok out <->
   timestamp_available c (conf_with un ut name e b)
   /\ (cf_debug c = true -> ~ has_question (dtext uri) /\ dok uri)
   /\ (cf_alloc c = true -> cf_debug c = true -> ascending (map fst (signed_fields (conf_with un ut name e b) cs)))
   /\ dok (fin received)
   /\ out = header_text (wire_fields (conf_with un ut name e b) (call_protos cs)) (dtext (fin received))).
Proof.
  intros c e b un ut name fin r cs method uri out HB HM HP received. rewrite authorize_go.
  assert (HF : constant_flags (bd_signature_method b) un ut name) by (rewrite HB; apply constant_trace).
  rewrite (any_exact c e b un ut name HF r cs HM HP _ method uri out). cbn [data_buf added_text].
  assert (HD : forall d, signs_to e b un ut name cs method uri d <-> d = fin received).
  { intros d. unfold signs_to, received. clear HF HM HP received. destruct b as [sm cl tk op]. cbn [bd_signature_method] in *. subst sm.
    cbn [TraceMethod sm_sign_with]. split.
    - intros [s0 [sf [S0 [S1 S2]]]]. injection S0 as <-.
      pose proof (eq_trans (eq_sym S1) (trace_calls un ut name fin _ _)) as S3. injection S3 as ->. cbn in S2. injection S2 as <-. reflexivity.
    - intros ->. eexists _, _. split; [reflexivity|]. split; [exact (trace_calls un ut name fin _ _)|reflexivity]. }
  split; intros [T [Q [O X]]]; (split; [exact T|split; [exact Q|split; [exact O|]]]).
  - destruct X as [d [S [D ->]]]. apply HD in S. subst d. auto.
  - destruct X as [D ->]. exists (fin received). split; [now apply HD|auto].
Qed.
Print Assumptions C49_calls.

(** The documented calls have delimiters between parameters only. *)
Theorem C49_delimiters : forall cf method uri cs,
  exists xs, documented_calls cf method uri cs = SMethod method :: SUri (PercentEncode uri) :: xs
    /\ filter (fun x => match x with SDelim => false | _ => true end) xs = param_feeds cf cs
    /\ (forall i, nth_error xs i = Some SDelim <-> i < length xs /\ Nat.odd i = true).
Proof.
  intros cf method uri cs. exists (delimited (param_feeds cf cs)). split; [reflexivity|].
  assert (HP : Forall (fun x => x <> SDelim) (param_feeds cf cs)).
  { apply Forall_forall. intros x Hx. unfold param_feeds in Hx. apply in_flat_map in Hx as [y [_ Hx]].
    destruct y as [k v|k v|p]; [destruct Hx as [<-|[]]; discriminate..|].
    destruct (sent cf 0 0 p); [|destruct Hx]. destruct Hx as [<-|[]]. destruct p; discriminate. }
  split.
  - induction (param_feeds cf cs) as [|x l IH]; [reflexivity|]. inversion HP as [|? ? H1 H2]; subst.
    assert (HF : (match x with SDelim => false | _ => true end) = true) by (destruct x; auto; congruence).
    destruct l as [|y l].
    + cbn [delimited filter]. now rewrite HF.
    + change (delimited (x :: y :: l)) with (x :: SDelim :: delimited (y :: l)). cbn [filter]. rewrite HF. f_equal. apply IH, H2.
  - induction (param_feeds cf cs) as [|x l IH]; intros i.
    + cbn. destruct i; split; try discriminate; intros [H _]; cbn in H; lia.
    + inversion HP as [|? ? H1 H2]; subst. destruct l as [|y l].
      * destruct i as [|i]; cbn [delimited nth_error length].
        -- split; [congruence|]. intros [_ H]. discriminate.
        -- destruct i; split; try discriminate; intros [H _]; cbn in H; lia.
      * change (delimited (x :: y :: l)) with (x :: SDelim :: delimited (y :: l)).
        destruct i as [|[|i]]; cbn [nth_error length].
        -- split; [congruence|]. intros [_ H]. discriminate.
        -- split; [intros _; split; [lia|reflexivity]|reflexivity].
        -- rewrite (IH H2 i). rewrite Nat.odd_succ, Nat.even_succ. split; intros [K1 K2]; split; auto; lia.
Qed.
Print Assumptions C49_delimiters.

(** Which parameter is fed with which method, and its text: the method named after a protocol
    parameter gets its value, encoded twice. *)
Theorem C49_feeds : forall cf p v, uri_safe (cn_name cf) -> sent cf 0 0 p = Some v ->
  match p, proto_feed cf p v with
  | PCallback, SCallback d | PConsumerKey, SConsumerKey d | PNonce, SNonce d | PToken, SToken d
  | PVerifier, SVerifier d => dok d /\ dtext d = pct_encode (pct_encode v)
  | PSignatureMethod, SSignatureMethod => v = cn_name cf
  | PTimestamp, STimestamp t => v = decimal t
  | PVersion, SVersion => v = lit "1.0"
  | _, _ => False
  end.
Proof.
  intros cf p v HN H. assert (HD : forall v, dok (DoublePercentEncode (dstr v)) /\ dtext (DoublePercentEncode (dstr v)) = pct_encode (pct_encode v)).
  { intros x. split; [apply dok_DoublePercentEncode, dok_dstr|]. now rewrite dtext_DoublePercentEncode, dtext_dstr. }
  destruct p; cbn [proto_feed]; auto.
  - cbn [sent] in H. destruct (cn_use_nonce cf); [|discriminate]. unfold nonce_value in H.
    destruct (op_nonce (cn_options cf)) as [n|]; [auto|]. injection H as <-. split; [apply dok_dstr|].
    rewrite dtext_dstr. pose proof (nonce_text_safe (random_bytes (cn_env cf) 0)) as HS.
    symmetry. rewrite !pct_encode_safe; try reflexivity; rewrite ?pct_encode_safe; exact HS.
  - cbn [sent] in H. now injection H as <-.
  - cbn [sent] in H. destruct (cn_use_timestamp cf); [|discriminate]. now injection H as <-.
  - cbn [sent] in H. destruct (op_version (cn_options cf)); [|discriminate]. now injection H as <-.
Qed.
Print Assumptions C49_feeds.

(** Put together as the documentation of [Sign] says, the calls give the RFC 5849 base string. *)
Theorem C49_base_string : forall c e b name r l method uri out,
  bd_signature_method b = Reveal name -> uri_safe name -> honest r l -> normal_method method ->
  Builder_authorize c e b method uri r = Ok out ->
  header_signature (Ok out) = Some (base_string method (dtext uri) (protocol_pairs (conf_of name e b) ++ l)).
Proof.
  intros c e b name r l method uri out HB HN HR HM H. destruct HR as [cs [M [P [A [D [C [S [O R]]]]]]]].
  assert (HP : Permutation (call_protos cs) all_protos) by now rewrite P.
  apply (reveal_authorize c e b name r cs method uri out HB HN M HP) in H as [_ [_ ->]].
  rewrite (hashed_is_base _ cs l method _ HM HP A C S O R), P. unfold header_signature.
  rewrite (parse_header_text _ (raw_fields (conf_of name e b) all_protos) _
            (base_string method (dtext uri) (protocol_pairs (conf_of name e b) ++ l))).
  2: now apply wire_reads. 2: apply pct_decode_enc_quote. 2: apply pct_decode_encode.
  rewrite lookup_app, lookup_none.
  - unfold lookup. cbn [filter fst map app]. rewrite bseqb_refl. reflexivity.
  - intros g Hg K. apply raw_in in Hg as [p [_ [K2 _]]]. apply (sig_not_proto p). congruence.
Qed.
Print Assumptions C49_base_string.

Example C49_example :
  header_signature (Builder_authorize dbg_std env0 (full (Reveal (lit "R")) (lit "cs") (lit "ts")) (lit "GET") (s2d "http://h/") (AssertSorted true [kvs "a" "1 &"]))
  = Some (lit "GET&http%3A%2F%2Fh%2F&a%3D1%2520%2526%26oauth_consumer_key%3Did%26oauth_nonce%3Dn%26oauth_signature_method%3DR%26oauth_timestamp%3D5%26oauth_token%3Dtok").
Proof. vm_compute. reflexivity. Qed.
