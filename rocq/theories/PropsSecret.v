(** C85: the secrets have no influence on anything but the signature. *)
From Coq Require Import String.
From Coq Require Import Lia Arith.
From Verif Require Import Bytes Crypto Spec MFmt MPercent MSerializer MSign MRequest MCredentials MAuth MBuilder ModelTests
  SpecFmt SpecCalls SpecAuth SpecBuild SpecForm SpecParams SpecSign SpecPanic
  LBytes LFmt LPercent LCrypto LTrace LSign LBuild LReq LReq2 LBuf LSim LCheck PropsRequest.

(** ** Specification *)

Definition set_secret (s : bytes) (c : Credentials bytes) : Credentials bytes := Cred (cr_identifier c) s.

(** The same builder with other secrets: that of the client, and that of the token if it has one. *)
Definition with_secrets (client token : bytes) (b : Builder) : Builder :=
  {| bd_signature_method := bd_signature_method b; bd_client := set_secret client (bd_client b);
     bd_token := option_map (set_secret token) (bd_token b); bd_options := bd_options b |}.

(** The key of RFC 5849 section 3.4.2 that the builder then has. *)
Definition key_with (b : Builder) (client token : bytes) : bytes :=
  signing_key client (match bd_token b with Some _ => Some token | None => None end).

(** Whatever the secrets are, the same panic; or the same text but for one place, where [signature] of the secrets and
    of a text that does not depend on them stands, after [label] and before [rest]. *)
Definition only_in_signature (label rest : bytes) (signature : bytes -> bytes -> bytes -> bytes)
    (f : bytes -> bytes -> res bytes) : Prop :=
  (exists p, forall client token, f client token = Panic p)
  \/ (exists before signed, forall client token,
        f client token = Ok (before ++ label ++ signature client token signed ++ rest)).

(** ** Proof *)

Lemma secret_of : forall client token b,
  cr_secret (bd_client (with_secrets client token b)) = client
  /\ option_map cr_secret (bd_token (with_secrets client token b)) = match bd_token b with Some _ => Some token | None => None end.
Proof. intros client token b. split; [reflexivity|]. cbn. now destruct (bd_token b). Qed.

(** Headers stay headers. *)
Definition is_header {w : Writer} (d : Data w) : bool := match d with Authorization _ => true | Urlencode _ => false end.

Section Kind.
  Variables (sg : Sign) (w : Writer) (c : cfg) (e : env).
  Let A := Authorizer sg w.
  Definition stays (a : A) (r : res A) : Prop :=
    match r with Ok a' => is_header (au_data a') = is_header (au_data a) | Panic _ => True end.

  Lemma stays_bind : forall (a : A) r f, stays a r -> (forall x, stays x (f x)) -> stays a (rbind r f).
  Proof.
    intros a [x|p] f H HF; [|exact I]. cbn [rbind stays] in *. specialize (HF x). destruct (f x); cbn [stays] in *; congruence.
  Qed.

  Lemma check_stays : forall (a : A) k, stays a (check_dictionary_order c a k).
  Proof.
    intros a k. unfold check_dictionary_order. destruct (cf_alloc c && cf_debug c); [|reflexivity].
    destruct (bleb (au_prev_key a) k); [reflexivity|exact I].
  Qed.
  Lemma delim_stays : forall a : A, stays a (sign_delimiter a).
  Proof.
    intros a. unfold sign_delimiter. destruct (au_append_delim a); [|reflexivity].
    destruct (sg_delimiter (au_sign a)); [reflexivity|exact I].
  Qed.
  Lemma sign_stays : forall (a : A) f, stays a (sign_step a f).
  Proof. intros a f. unfold sign_step. destruct (f (au_sign a)); [reflexivity|exact I]. Qed.
  Lemma append_stays : forall (a : A) k v, stays a (append_to_header_encoded c a k v).
  Proof.
    intros a k v. unfold append_to_header_encoded. apply stays_bind; [apply check_stays|intros x].
    apply stays_bind; [|intros y; apply delim_stays]. destruct (au_data x) as [h|u] eqn:E.
    - destruct (write_unwrap _ h); [|exact I]. cbn. now rewrite E.
    - destruct (ue_parameter_encoded u k v); [|exact I]. cbn. now rewrite E.
  Qed.

  Lemma header_stays : forall (a : A) k f v, stays a (append_to_header c a k f v).
  Proof. intros a k f v. unfold append_to_header. apply stays_bind; [apply append_stays|intros x; apply sign_stays]. Qed.
  Lemma both_stay : forall (a : A) k v f, stays a (x <- append_to_header_encoded c a k v ;; sign_step x f).
  Proof. intros a k v f. apply stays_bind; [apply append_stays|intros x; apply sign_stays]. Qed.

  Lemma call_stays : forall x (a : A), stays a (run_call (S := AuthorizerS sg w c e) x a).
  Proof.
    assert (P : forall (a : A) k f, stays a (x <- check_dictionary_order c a k ;; x <- sign_delimiter x ;; sign_step x f)).
    { intros a k f. apply stays_bind; [apply check_stays|intros y]. apply stays_bind; [apply delim_stays|intros z; apply sign_stays]. }
    intros x a. destruct x as [k v|k v|[]]; cbn [run_call AuthorizerS sr_parameter sr_parameter_encoded sr_oauth_callback
      sr_oauth_consumer_key sr_oauth_nonce sr_oauth_signature_method sr_oauth_timestamp sr_oauth_token sr_oauth_verifier
      sr_oauth_version].
    - apply P.
    - apply P.
    - unfold au_oauth_callback. destruct (op_callback (au_options a)); [apply header_stays|reflexivity].
    - apply header_stays.
    - unfold au_oauth_nonce. destruct (sg_use_nonce (au_sign a)); [|reflexivity].
      destruct (op_nonce (au_options a)); [apply header_stays|].
      destruct (gen_nonce (draw e (au_draws a))) as [n|]; [cbn [rbind]|exact I].
      exact (both_stay (with_draw a) _ _ _).
    - apply both_stay.
    - unfold au_oauth_timestamp. destruct (sg_use_timestamp (au_sign a)); [|reflexivity].
      destruct (op_timestamp (au_options a)) as [t|]; [cbn [rbind]; apply both_stay|].
      destruct (get_current_timestamp c _) as [t|]; [cbn [rbind]|exact I].
      exact (both_stay (with_tick a) _ _ _).
    - unfold au_oauth_token. destruct (au_token a); [apply header_stays|reflexivity].
    - unfold au_oauth_verifier. destruct (op_verifier (au_options a)); [apply header_stays|reflexivity].
    - unfold au_oauth_version. destruct (op_version (au_options a)); [apply both_stay|reflexivity].
  Qed.

  Lemma calls_stay : forall cs (a : A), stays a (run_calls (S := AuthorizerS sg w c e) cs a).
  Proof.
    induction cs as [|x cs IH]; intros a; cbn [run_calls]; [reflexivity|]. apply stays_bind; [apply call_stays|exact IH].
  Qed.
End Kind.

(** If all that the secrets do is to choose a map [g] of signature states that commutes with the calls, then they matter
    at the end only. *)
Lemma go_factor : forall (sm : SignatureMethod) (K : Type) (g : K -> sm_sign sm -> sm_sign sm) (s0 : sm_sign sm)
    (b : Builder) (key : bytes -> bytes -> K),
  (forall k, sign_steps _ _ (g k)) ->
  (forall client token,
     sm_sign_with sm client (match bd_token b with Some _ => Some token | None => None end) = Ok (g (key client token) s0)) ->
  forall c e (w : Writer) (data : Data w) method uri r cs, makes_calls r cs ->
  exists R : res (Authorizer (sm_sign sm) w), (forall a, R = Ok a -> is_header (au_data a) = is_header data)
    /\ forall client token,
    go c e (with_secrets client token (with_method sm b)) data method uri r
    = (a <- R ;; au_end (lift _ _ w (g (key client token)) a)).
Proof.
  intros sm K g s0 b key HG HS c e w data method uri r cs HM.
  exists (s <- (_ <- (if cf_debug c then write_unwrap (w := AssertNotContainQuestion) uri tt else Ok tt) ;;
                s <- sg_request_method s0 method ;; sg_uri s (PercentEncode uri)) ;;
          run_calls (S := AuthorizerS (sm_sign sm) w c e) cs
            (au_new data s (bd_client b) (bd_token b) (bd_options b))).
  split.
  { intros a H. apply rbind_ok in H as [s [_ H]].
    pose proof (calls_stay _ _ c e cs (au_new data s (bd_client b) (bd_token b) (bd_options b))) as HK.
    rewrite H in HK. exact HK. }
  intros client token. unfold go.
  cbn [with_secrets with_method bd_signature_method bd_client bd_token bd_options].
  unfold make_sign. destruct (if cf_debug c then _ else _); [|reflexivity]. cbn [rbind].
  change (cr_secret (set_secret client (bd_client b))) with client.
  assert (E : option_map cr_secret (option_map (set_secret token) (bd_token b))
              = match bd_token b with Some _ => Some token | None => None end) by now destruct (bd_token b).
  rewrite E, HS. cbn [rbind]. set (h := g (key client token)).
  pose proof (HG (key client token) : sign_steps _ _ h) as HH.
  assert (E1 : sg_request_method (h s0) method = rmap h (sg_request_method s0 method)) by exact (sm_step _ _ _ HH s0 (SMethod method)).
  rewrite E1. destruct (sg_request_method s0 method) as [s1|]; [|reflexivity]. cbn [rmap rbind].
  assert (E2 : sg_uri (h s1) (PercentEncode uri) = rmap h (sg_uri s1 (PercentEncode uri))) by exact (sm_step _ _ _ HH s1 (SUri _)).
  rewrite E2. destruct (sg_uri s1 (PercentEncode uri)) as [s2|]; [|reflexivity]. cbn [rmap rbind].
  rewrite (HM (AuthorizerS (sm_sign sm) w c e)).
  assert (EN : au_new data (h s2) (set_secret client (bd_client b)) (option_map (set_secret token) (bd_token b)) (bd_options b)
               = lift _ _ w h (au_new data s2 (bd_client b) (bd_token b) (bd_options b))).
  { unfold au_new, lift. cbn. now destruct (bd_token b). }
  rewrite EN, (calls_lift _ _ w c e h HH). cbn [sr_end AuthorizerS].
  destruct (run_calls (S := AuthorizerS (sm_sign sm) w c e) cs _); reflexivity.
Qed.

(** What [au_end] does with the signature. *)
Definition end_with {w : Writer} (d : Data w) (s : disp) : res w :=
  match d with
  | Authorization header =>
      h <- write_unwrap (dstr (lit "oauth_signature=")) header ;;
      write_unwrap (dseq (dstr (lit """")) (dseq s (dstr (lit """")))) h
  | Urlencode encoder =>
      u <- ue_parameter_encoded encoder (lit "oauth_signature") s ;;
      Ok (ue_data u)
  end.

Lemma au_end_with : forall (sg : Sign) (w : Writer) (a : Authorizer sg w) s,
  sg_end (au_sign a) = Ok s -> au_end a = end_with (au_data a) s.
Proof.
  intros sg w a s H. unfold au_end, end_with. destruct (au_data a) as [h|u].
  - destruct (write_unwrap (dstr (lit "oauth_signature=")) h); [|reflexivity]. cbn [rbind]. now rewrite H.
  - now rewrite H.
Qed.

Definition label_of (header : bool) : bytes := if header then lit "oauth_signature=""" else lit "oauth_signature=".
Definition rest_of (header : bool) : bytes := if header then lit """" else [].

Lemma end_with_string : forall (d : Data StringW), exists before, forall s, dok s ->
  end_with d s = Ok (before ++ label_of (is_header d) ++ dtext s ++ rest_of (is_header d)).
Proof.
  intros [h|[u next]]; unfold end_with; cbn [is_header label_of rest_of].
  - exists h. intros s HS.
    rewrite !write_unwrap_string by (repeat apply dok_dseq; auto using dok_dstr). cbn [rbind].
    rewrite write_unwrap_string by (repeat apply dok_dseq; auto using dok_dstr).
    rewrite !dtext_dseq, !dtext_dstr by auto using dok_dstr. now rewrite <- !app_assoc.
  - exists (u ++ match next with ANone => [] | AQuestion => lit "?" | AAmpersand => lit "&" end : bytes).
    intros s HS. unfold ue_parameter_encoded, ue_append_delim. destruct next; cbn [ue_next_append rbind ue_data];
      rewrite ?write_unwrap_string by auto using dok_dstr; cbn [rbind ue_data];
      rewrite ?write_unwrap_string by (repeat apply dok_dseq; auto using dok_dstr); cbn [rbind ue_data];
      rewrite !dtext_dseq, !dtext_dstr by auto using dok_dstr; now rewrite <- !app_assoc, ?app_nil_r.
Qed.

Definition kind_header (k : kind) : bool :=
  match k with KAuthorize _ | KAuthorizeBuf _ _ _ => true | KForm _ | KFormBuf _ _ _ | KQuery _ _ _ => false end.

Lemma kind_data_header : forall k d, kind_data k = Ok d -> is_header d = kind_header k.
Proof.
  intros [] d H; cbn [kind_data] in H; try (inversion H; reflexivity).
  apply rbind_ok in H as [h [_ H]]. inversion H. reflexivity.
Qed.

(** For every kind of output, with any buffer: a function of the signature only. *)
Lemma run_factor : forall (sm : SignatureMethod) (K : Type) (g : K -> sm_sign sm -> sm_sign sm) (s0 : sm_sign sm)
    (b : Builder) (key : bytes -> bytes -> K),
  (forall k, sign_steps _ _ (g k)) ->
  (forall client token,
     sm_sign_with sm client (match bd_token b with Some _ => Some token | None => None end) = Ok (g (key client token) s0)) ->
  forall c e k method r cs, makes_calls r cs ->
  (exists p, forall client token, run c e (with_secrets client token (with_method sm b)) k method r = Panic p)
  \/ exists (s : sm_sign sm) (d : Data (kind_writer k)), is_header d = kind_header k /\ forall client token,
       run c e (with_secrets client token (with_method sm b)) k method r
       = (x <- sg_end (g (key client token) s) ;; end_with d x)
       \/ exists p, sg_end (g (key client token) s) = Panic p.
Proof.
  intros sm K g s0 b key HG HS c e k method r cs HM.
  destruct (kind_data k) as [d|p] eqn:EK.
  2:{ left. exists p. intros client token. rewrite run_go, EK. reflexivity. }
  destruct (go_factor sm K g s0 b key HG HS c e _ d method (kind_uri k) r cs HM) as [[a|p] [HH H]].
  2:{ left. exists p. intros client token. rewrite run_go, EK. cbn [rbind]. rewrite H. reflexivity. }
  right. exists (au_sign a), (au_data a). split.
  { rewrite (HH a eq_refl). exact (kind_data_header k d EK). }
  intros client token. rewrite run_go, EK. cbn [rbind]. rewrite H. cbn [rbind].
  destruct (sg_end (g (key client token) (au_sign a))) as [x|p] eqn:EE; [left|right; now exists p].
  cbn [rbind]. exact (au_end_with _ _ (lift _ _ _ _ a) x EE).
Qed.

Definition hm_set (key : bytes) (s : HmacSha1Sign) : HmacSha1Sign := {| hm_key := key; hm_fed := hm_fed s |}.

Lemma hm_set_steps : forall key, sign_steps _ _ (hm_set key).
Proof.
  intros key. split; try reflexivity.
  intros s x. destruct x; cbn; try reflexivity;
  match goal with |- (_ <- ?f ;; _) = _ => destruct f; reflexivity | |- _ = _ => idtac end.
Qed.

Definition hm_made (client : bytes) (token : option bytes) : bytes :=
  match sm_sign_with HMAC_SHA1 client token with Ok s => hm_key s | Panic _ => [] end.

Lemma hm_made_ok : forall client token,
  sm_sign_with HMAC_SHA1 client token = Ok (hm_set (hm_made client token) {| hm_key := []; hm_fed := [] |})
  /\ forall m, hmac_sha1 (hm_made client token) m = hmac_sha1 (signing_key client token) m.
Proof.
  intros client token. unfold hm_made. destruct (HMAC_sign_with client token) as [st [E [F H]]].
  rewrite E. split; [|exact H]. unfold hm_set. cbn. rewrite <- F. now destruct st.
Qed.

Lemma with_same_method : forall b sm, bd_signature_method b = sm -> with_method sm b = b.
Proof. intros [] sm H. cbn in H. now subst. Qed.

Lemma text_case : forall header (d : Data StringW) (HH : is_header d = header) signature signed (x : bytes -> bytes -> disp) (f : bytes -> bytes -> res bytes),
  (forall client token, f client token = end_with d (x client token)) ->
  (forall client token, dok (x client token) /\ dtext (x client token) = signature client token signed) ->
  only_in_signature (label_of header) (rest_of header) signature f.
Proof.
  intros header d HH signature signed x f HF HX. right. destruct (end_with_string d) as [before H]. rewrite HH in H.
  exists before, signed. intros client token. destruct (HX client token) as [HO HT].
  rewrite HF, H by exact HO. now rewrite HT.
Qed.

Lemma hmac_factor : forall c e b k method r cs, bd_signature_method b = HMAC_SHA1 -> makes_calls r cs ->
  (exists p, forall client token, run c e (with_secrets client token b) k method r = Panic p)
  \/ exists signed (d : Data (kind_writer k)), is_header d = kind_header k /\ forall client token,
       run c e (with_secrets client token b) k method r
       = end_with d (Base64PercentEncodeDisplay (hmac_sha1 (key_with b client token) signed)).
Proof.
  intros c e b k method r cs HB HM. rewrite <- (with_same_method b _ HB).
  destruct (run_factor HMAC_SHA1 bytes hm_set {| hm_key := []; hm_fed := [] |} b
    (fun client token => hm_made client (match bd_token b with Some _ => Some token | None => None end))
    hm_set_steps (fun client token => proj1 (hm_made_ok _ _)) c e k method r cs HM) as [H|[s [d [HH H]]]]; [now left|right].
  exists (hm_fed s), d. split; [exact HH|]. intros client token.
  destruct (H client token) as [E|[p E]]; [|discriminate E]. rewrite E.
  cbn [sg_end HMAC_SHA1 sm_sign HmacSha1Sign default_sign hm_set hm_key hm_fed].
  unfold key_with. rewrite <- (proj2 (hm_made_ok _ _)). reflexivity.
Qed.

Lemma plaintext_steps : forall key : bytes, sign_steps (PlaintextSign StringB) (PlaintextSign StringB) (fun _ => key).
Proof. intros key. split; try reflexivity. intros s x. destruct x; reflexivity. Qed.

Lemma plaintext_made : forall client token, sm_sign_with PLAINTEXT client token = Ok (signing_key client token).
Proof.
  intros client token. cbn [sm_sign_with PLAINTEXT Plaintext].
  rewrite <- dtext_signing_key. exact (write_unwrap_string _ [] (dok_signing_key client token)).
Qed.

Lemma plaintext_factor : forall c e b k method r cs, bd_signature_method b = PLAINTEXT -> makes_calls r cs ->
  (exists p, forall client token, run c e (with_secrets client token b) k method r = Panic p)
  \/ exists d : Data (kind_writer k), is_header d = kind_header k /\ forall client token,
       run c e (with_secrets client token b) k method r = end_with d (dstr (key_with b client token)).
Proof.
  intros c e b k method r cs HB HM. rewrite <- (with_same_method b _ HB).
  destruct (run_factor PLAINTEXT bytes (fun key _ => key) ([] : bytes) b (key_with b)
    plaintext_steps (fun client token => plaintext_made _ _) c e k method r cs HM) as [H|[s [d [HH H]]]]; [now left|right].
  exists d. split; [exact HH|]. intros client token. destruct (H client token) as [E|[p E]]; [|discriminate E]. rewrite E. reflexivity.
Qed.

(** ** C85 *)

(** HMAC-SHA1, every kind of output into every buffer, panics included: one function of the HMAC of one text. *)
Theorem C85_hmac : forall c e b k method r cs,
  bd_signature_method b = HMAC_SHA1 -> makes_calls r cs ->
  exists (signed : bytes) (finish : bytes -> res (kind_writer k)), forall client token,
    run c e (with_secrets client token b) k method r = finish (hmac_sha1 (key_with b client token) signed).
Proof.
  intros c e b k method r cs HB HM. destruct (hmac_factor c e b k method r cs HB HM) as [[p H]|[signed [d [_ H]]]].
  - exists [], (fun _ => Panic p). exact H.
  - exists signed, (fun h => end_with d (Base64PercentEncodeDisplay h)). exact H.
Qed.
Print Assumptions C85_hmac.

(** PLAINTEXT likewise: one function of the key. *)
Theorem C85_plaintext : forall c e b k method r cs,
  bd_signature_method b = PLAINTEXT -> makes_calls r cs ->
  exists finish : bytes -> res (kind_writer k), forall client token,
    run c e (with_secrets client token b) k method r = finish (key_with b client token).
Proof.
  intros c e b k method r cs HB HM. destruct (plaintext_factor c e b k method r cs HB HM) as [[p H]|[d [_ H]]].
  - exists (fun _ => Panic p). exact H.
  - exists (fun key => end_with d (dstr key)). exact H.
Qed.
Print Assumptions C85_plaintext.

(** RSA-SHA1: no influence at all. *)
Theorem C85_rsa : forall c e b key k method r client token,
  bd_signature_method b = RsaSha1 key \/ bd_signature_method b = RsaSha1_ref key ->
  run c e (with_secrets client token b) k method r = run c e b k method r.
Proof.
  intros c e b key k method r client token HB. rewrite !run_go.
  destruct (kind_data k) as [d|p]; [cbn [rbind]|reflexivity].
  destruct b as [sm cl tk op]. cbn [bd_signature_method] in HB.
  destruct HB as [-> | ->]; unfold go, with_secrets, make_sign;
    cbn [bd_signature_method bd_client bd_token bd_options RsaSha1 RsaSha1_ref sm_sign_with sm_sign rbind];
    (destruct (if cf_debug c then _ else _); [cbn [rbind]|reflexivity]);
    apply rbind_ext; intros s; unfold au_new; destruct tk; reflexivity.
Qed.
Print Assumptions C85_rsa.

(** For the outputs that are text: where the signature stands, and which text stands there. *)
Definition texts_only_in_signature (signature : bytes -> bytes -> bytes -> bytes) (c : cfg) (e : env) (b : Builder)
    (method : bytes) (r : Request) : Prop :=
  (forall uri, only_in_signature (lit "oauth_signature=""") (lit """") signature
     (fun client token => Builder_authorize c e (with_secrets client token b) method uri r))
  /\ (forall uri, only_in_signature (lit "oauth_signature=") [] signature
     (fun client token => Builder_to_form c e (with_secrets client token b) method uri r))
  /\ (forall (show : bytes -> disp) uri, only_in_signature (lit "oauth_signature=") [] signature
     (fun client token => Builder_to_query c e (w := StringW) show (with_secrets client token b) method uri r)).

Theorem C85_text_hmac : forall c e b method r cs, bd_signature_method b = HMAC_SHA1 -> makes_calls r cs ->
  texts_only_in_signature
    (fun client token signed => pct_encode (base64 b64_std true (hmac_sha1 (key_with b client token) signed)))
    c e b method r.
Proof.
  intros c e b method r cs HB HM.
  assert (HX : forall signed client token,
    dok (Base64PercentEncodeDisplay (hmac_sha1 (key_with b client token) signed))
    /\ dtext (Base64PercentEncodeDisplay (hmac_sha1 (key_with b client token) signed))
       = pct_encode (base64 b64_std true (hmac_sha1 (key_with b client token) signed))).
  { intros signed client token. pose proof (b64_display_ok (hmac_sha1 (key_with b client token) signed)). tauto. }
  split; [|split].
  - intros uri. destruct (hmac_factor c e b (KAuthorize uri) method r cs HB HM) as [H|[signed [d [HH H]]]]; [now left|].
    exact (text_case _ d HH (fun client token signed => pct_encode (base64 b64_std true (hmac_sha1 (key_with b client token) signed)))
      signed _ _ H (HX signed)).
  - intros uri. destruct (hmac_factor c e b (KForm uri) method r cs HB HM) as [H|[signed [d [HH H]]]]; [now left|].
    exact (text_case _ d HH (fun client token signed => pct_encode (base64 b64_std true (hmac_sha1 (key_with b client token) signed)))
      signed _ _ H (HX signed)).
  - intros show uri. destruct (hmac_factor c e b (KQuery StringW show uri) method r cs HB HM) as [H|[signed [d [HH H]]]]; [now left|].
    exact (text_case _ d HH (fun client token signed => pct_encode (base64 b64_std true (hmac_sha1 (key_with b client token) signed)))
      signed _ _ H (HX signed)).
Qed.
Print Assumptions C85_text_hmac.

Theorem C85_text_plaintext : forall c e b method r cs, bd_signature_method b = PLAINTEXT -> makes_calls r cs ->
  texts_only_in_signature (fun client token _ => key_with b client token) c e b method r.
Proof.
  intros c e b method r cs HB HM.
  assert (HX : forall client token,
    dok (dstr (key_with b client token)) /\ dtext (dstr (key_with b client token)) = key_with b client token).
  { intros. split; [apply dok_dstr|apply dtext_dstr]. }
  split; [|split].
  - intros uri. destruct (plaintext_factor c e b (KAuthorize uri) method r cs HB HM) as [H|[d [HH H]]]; [now left|].
    exact (text_case _ d HH (fun client token _ => key_with b client token) [] _ _ H HX).
  - intros uri. destruct (plaintext_factor c e b (KForm uri) method r cs HB HM) as [H|[d [HH H]]]; [now left|].
    exact (text_case _ d HH (fun client token _ => key_with b client token) [] _ _ H HX).
  - intros show uri. destruct (plaintext_factor c e b (KQuery StringW show uri) method r cs HB HM) as [H|[d [HH H]]]; [now left|].
    exact (text_case _ d HH (fun client token _ => key_with b client token) [] _ _ H HX).
Qed.
Print Assumptions C85_text_plaintext.

(** Two runs with different secrets: neither panics, and they do differ, in the signature. *)
Definition texts_of (sm : SignatureMethod) (client token : string) : res bytes :=
  Builder_authorize dbg_std env0 (with_secrets (lit client) (lit token) (with_method sm doc_builder)) (lit "GET")
    (s2d "https://example.com/") some_request.

Example C85_example :
  (exists cs, makes_calls some_request cs)
  /\ texts_of PLAINTEXT "a" "b&"
     = Ok (lit "OAuth oauth_consumer_key=""consumer_key"",oauth_nonce=""Dk-OGluFEQ4f"",oauth_signature_method=""PLAINTEXT"",oauth_timestamp=""1234567890"",oauth_token=""token"",oauth_signature=""a&b%26""")
  /\ texts_of PLAINTEXT "" "c"
     = Ok (lit "OAuth oauth_consumer_key=""consumer_key"",oauth_nonce=""Dk-OGluFEQ4f"",oauth_signature_method=""PLAINTEXT"",oauth_timestamp=""1234567890"",oauth_token=""token"",oauth_signature=""&c""")
  /\ (exists t u, texts_of HMAC_SHA1 "a" "b" = Ok t /\ texts_of HMAC_SHA1 "a" "c" = Ok u /\ bseqb t u = false)
  /\ (exists t, texts_of (RsaSha1 (fun d => Some d)) "a" "b" = Ok t /\ texts_of (RsaSha1 (fun d => Some d)) "" "c" = Ok t).
Proof.
  split; [eexists; exact (crate_request_calls _ _ (proj1 some_request_ok))|].
  split; [vm_compute; reflexivity|]. split; [vm_compute; reflexivity|]. split.
  - eexists. eexists. split; [vm_compute; reflexivity|]. split; [vm_compute; reflexivity|]. vm_compute. reflexivity.
  - eexists. split; vm_compute; reflexivity.
Qed.
