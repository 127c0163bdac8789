(** Whole authorizations. *)
From Coq Require Import String.
From Coq Require Import Lia Arith Sorted.
From Verif Require Import Bytes Crypto Spec MFmt MPercent MSign MSerializer MRequest MCredentials MAuth
  MBuilder SpecCalls SpecAuth SpecBuild LBytes LFmt LPercent LCrypto LTrace LAuth LSign.

Lemma Credentials_as_ref_id : forall c, Credentials_as_ref as_ref_id c = c.
Proof. intros []; reflexivity. Qed.
Lemma Credentials_as_ref_id_opt : forall c, option_map (Credentials_as_ref as_ref_id) c = c.
Proof. intros [[]|]; reflexivity. Qed.

(** ** The check for a query in the URI *)

Lemma contains_question_app : forall a b,
  contains_question (a ++ b) = contains_question a || contains_question b.
Proof. intros. apply existsb_app. Qed.

Lemma contains_question_in : forall s, contains_question s = true <-> has_question s.
Proof.
  intros s. unfold contains_question, has_question. rewrite existsb_exists. split.
  - intros [x [Hx E]]. apply beqb_eq in E. now subst.
  - intros H. eexists. split; [exact H|]. apply beqb_refl.
Qed.

Lemma question_run : forall d,
  run_disp (w := AssertNotContainQuestion) d tt
  = if contains_question (dtext d) then Panic PUriQuery
    else match dfinal d with Ok b => Ok (tt, b) | Panic p => Panic p end.
Proof.
  induction d as [b|p|ch k IH]; cbn [run_disp dtext dfinal]; auto.
  cbn [write_str AssertNotContainQuestion]. rewrite contains_question_app.
  destruct (contains_question ch); cbn [orb rbind]; auto.
Qed.

Lemma question_check : forall d,
  write_unwrap (w := AssertNotContainQuestion) d tt = Ok tt
  <-> ~ has_question (dtext d) /\ dok d.
Proof.
  intros d. unfold write_unwrap. rewrite question_run, <- contains_question_in.
  unfold dok. destruct (contains_question (dtext d)); cbn [rbind].
  - split; [discriminate|]. intros [H _]. congruence.
  - destruct (dfinal d) as [[|]|]; cbn [rbind]; split; try discriminate; intuition congruence.
Qed.

Definition start_calls (method : bytes) (uri : disp) : list scall :=
  [SMethod method; SUri (PercentEncode uri)].

Lemma make_sign_spec : forall c sm method uri client token s,
  make_sign c sm method uri client token = Ok s <->
  (cf_debug c = true -> ~ has_question (dtext uri) /\ dok uri) /\
  exists s0, sm_sign_with sm (cr_secret client) (option_map cr_secret token) = Ok s0
             /\ run_scalls s0 (start_calls method uri) = Ok s.
Proof.
  intros c sm method uri client token s. unfold make_sign.
  assert (HB : forall s0 s, ((ret <- sg_request_method s0 method ;; sg_uri ret (PercentEncode uri)) = Ok s
               <-> run_scalls (sg := sm_sign sm) s0 (start_calls method uri) = Ok s)).
  { clear s. intros s0 s. cbn [run_scalls start_calls run_scall].
    destruct (sg_request_method s0 method) as [s1|]; cbn [rbind]; [|tauto].
    destruct (sg_uri s1 (PercentEncode uri)); cbn [rbind]; tauto. }
  assert (HC : forall (x : res (sm_sign sm)) s,
     (ret <- x ;; ret <- sg_request_method ret method ;; sg_uri ret (PercentEncode uri)) = Ok s
     <-> exists s0, x = Ok s0 /\ run_scalls s0 (start_calls method uri) = Ok s).
  { clear s. intros x s. destruct x as [s0|]; cbn [rbind].
    - rewrite HB. split; [eauto|]. intros [s1 [E H]]. inversion E; subst; auto.
    - split; [discriminate|]. intros [s1 [E _]]. discriminate. }
  destruct (cf_debug c).
  - split.
    + intros H. apply rbind_ok in H as [[] [H1 H2]]. apply question_check in H1. split; auto. now apply HC.
    + intros [H1 H2]. apply HC in H2.
      destruct (question_check uri) as [_ HQ]. rewrite (HQ (H1 eq_refl)). exact H2.
  - cbn [rbind]. rewrite HC. split; [|tauto]. intros H. split; auto. discriminate.
Qed.

(** ** From the constructor to the end *)

Lemma ascending_nil_cons : forall ks, ascending ([] :: ks) <-> ascending ks.
Proof.
  intros ks. split; intros H; [now inversion H|]. constructor; auto.
  apply Forall_forall. intros x _. apply bleb_nil.
Qed.

Lemma steps0_keys : forall cf cs,
  map st_key (flat_map (steps0 cf) cs) = map fst (signed_fields cf cs).
Proof.
  intros cf. induction cs as [|x cs IH]; [reflexivity|].
  unfold signed_fields in *. cbn [flat_map]. rewrite !map_app, IH. f_equal.
  destruct x as [k v|k v|p]; try reflexivity.
  unfold steps0. cbn [steps_of]. destruct (sent cf 0 0 p); reflexivity.
Qed.

(** The text added to the buffer for the given kind of output. *)
Definition added_text {w : Writer} (d : Data w) (fields : list pair) (sig : bytes) : bytes :=
  match d with
  | Authorization _ => concat (map header_field fields) ++ lit "oauth_signature=""" ++ sig ++ lit """"
  | Urlencode u => ue_added (ue_next_append u) (fields ++ [(lit "oauth_signature", sig)])
  end.

Section Run.
  Context {sg : Sign} {w : Writer}.
  Variables (c : cfg) (e : env).

  Lemma matches_new : forall cf data (s1 : sg) client token opts (P : sg -> Prop),
    cf = {| cn_client := cr_identifier client; cn_token := option_map cr_identifier token;
            cn_options := opts; cn_use_nonce := cn_use_nonce cf; cn_use_timestamp := cn_use_timestamp cf;
            cn_name := cn_name cf; cn_env := e |} ->
    steady P (cn_use_nonce cf) (cn_use_timestamp cf) (cn_name cf) -> P s1 ->
    matches e cf 0 0 (au_new (w := w) data s1 client token opts).
  Proof.
    intros cf data s1 client token opts P E [H1 H2 H3 H4] HP.
    constructor; cbn; auto; try (rewrite E; reflexivity).
  Qed.

  Lemma run_sound : forall cf data (s1 : sg) client token opts (P : sg -> Prop) cs out,
    cf = {| cn_client := cr_identifier client; cn_token := option_map cr_identifier token;
            cn_options := opts; cn_use_nonce := cn_use_nonce cf; cn_use_timestamp := cn_use_timestamp cf;
            cn_name := cn_name cf; cn_env := e |} ->
    steady P (cn_use_nonce cf) (cn_use_timestamp cf) (cn_name cf) -> P s1 ->
    clock_ok c cf -> NoDup (call_protos cs) ->
    (s <- run_calls (S := AuthorizerS sg w c e) cs (au_new (w := w) data s1 client token opts) ;; au_end s) = Ok out ->
    exists sf d,
      run_scalls s1 (feeds false (all_steps cf 0 0 cs)) = Ok sf /\ sg_end sf = Ok d
      /\ (cf_alloc c = true -> cf_debug c = true -> ascending (map fst (signed_fields cf cs)))
      /\ (dok d -> propagates d ->
          exists ch, writes_ok (data_buf data) ch out
                     /\ concat ch = added_text data (wire_fields cf (call_protos cs)) (dtext d)).
  Proof.
    intros cf data s1 client token opts P cs out E HS HP HC HN H.
    pose proof (matches_new cf data s1 client token opts P E HS HP) as HM.
    rewrite (run_calls_end c e P cf HS HC cs 0 0 _ HM HP) in H.
    apply rbind_ok in H as [b [H1 H2]].
    apply do_steps_sound in H1 as [J1 [J2 J3]]; [|apply all_steps_shows_ok].
    cbn [au_new au_sign au_append_delim au_data au_prev_key] in J1, J2, J3.
    apply au_end_sound in H2 as [d [K1 K2]].
    exists (au_sign b), d. split; auto. split; auto. split.
    { intros HA HB. unfold order_ok in J3. rewrite HA, HB in J3. specialize (J3 eq_refl).
      rewrite all_steps_once, steps0_keys in J3 by auto. now apply ascending_nil_cons. }
    intros HD HPr. destruct (K2 HD HPr) as [ch2 [W2 C2]].
    rewrite all_steps_once, shown_text_once in J2 by auto.
    destruct data as [h|u]; cbn [data_rel added_text data_buf] in *.
    - destruct J2 as [h' [ch1 [E1 [W1 C1]]]]. rewrite E1 in W2, C2. cbn [data_buf end_text] in *.
      exists (ch1 ++ ch2). split; [eapply writes_ok_app; eauto|]. now rewrite concat_app, C1, C2.
    - destruct J2 as [x [ch1 [E1 [W1 C1]]]]. rewrite E1 in W2, C2. cbn [data_buf end_text ue_data ue_next_append] in *.
      exists (ch1 ++ ch2). split; [eapply writes_ok_app; eauto|].
      now rewrite concat_app, C1, C2, ue_added_app.
  Qed.

  Lemma run_complete : forall cf data (s1 sf : sg) client token opts (P : sg -> Prop) cs d,
    cf = {| cn_client := cr_identifier client; cn_token := option_map cr_identifier token;
            cn_options := opts; cn_use_nonce := cn_use_nonce cf; cn_use_timestamp := cn_use_timestamp cf;
            cn_name := cn_name cf; cn_env := e |} ->
    steady P (cn_use_nonce cf) (cn_use_timestamp cf) (cn_name cf) -> P s1 ->
    clock_ok c cf -> NoDup (call_protos cs) -> infallible w ->
    run_scalls s1 (feeds false (all_steps cf 0 0 cs)) = Ok sf -> sg_end sf = Ok d -> dok d ->
    (cf_alloc c = true -> cf_debug c = true -> ascending (map fst (signed_fields cf cs))) ->
    exists out,
    (s <- run_calls (S := AuthorizerS sg w c e) cs (au_new (w := w) data s1 client token opts) ;; au_end s) = Ok out.
  Proof.
    intros cf data s1 sf client token opts P cs d E HS HP HC HN HW HR HE HD HO.
    pose proof (matches_new cf data s1 client token opts P E HS HP) as HM.
    rewrite (run_calls_end c e P cf HS HC cs 0 0 _ HM HP).
    destruct (do_steps_complete c (all_steps cf 0 0 cs) (au_new (w := w) data s1 client token opts) sf HW
                (all_steps_shows_ok cf cs 0 0) HR) as [b Hb].
    { intros HX. apply andb_true_iff in HX as [HX1 HX2]. cbn [au_new au_prev_key].
      rewrite all_steps_once, steps0_keys by auto. apply ascending_nil_cons. auto. }
    rewrite Hb. cbn [rbind]. apply do_steps_sound in Hb as [J1 _]; [|apply all_steps_shows_ok].
    cbn [au_new au_sign au_append_delim] in J1. rewrite HR in J1. inversion J1; subst.
    eapply au_end_complete; eauto.
  Qed.
End Run.

Lemma writes_ok_string : forall (s : StringW) cs s', writes_ok s cs s' -> s' = s ++ concat cs.
Proof.
  intros s cs s' H. induction H as [|s ch s' cs s'' H H1 IH]; cbn.
  - now rewrite app_nil_r.
  - inversion H. rewrite IH. subst s'. now rewrite <- app_assoc.
Qed.

Lemma infallible_string : infallible StringW.
Proof. intros s ch. cbn. eauto. Qed.

Lemma displays_ok_call_ok : forall cs, Forall displays_ok cs <-> Forall call_ok cs.
Proof. intros. reflexivity. Qed.

(** ** Known signature methods *)

(** The signature method [sm], called [name], emits the text [f cs ts text], where [text] is
    the concatenation of everything it was fed; [None] means that signing fails.  [strict] methods
    look at every value fed to them. *)
Record signs_as (sm : SignatureMethod) (name : bytes) (strict : bool)
    (f : bytes -> option bytes -> bytes -> option bytes) : Prop := {
  sa_start : forall cs ts, exists s0,
    sm_sign_with sm cs ts = Ok s0
    /\ (forall xs, (strict = true -> Forall scall_ok xs) ->
        exists sf, run_scalls s0 xs = Ok sf /\
          match f cs ts (concat (map (scall_text name) xs)) with
          | Some sig => exists d, sg_end sf = Ok d /\ dok d /\ propagates d /\ dtext d = sig
          | None => exists p, sg_end sf = Panic p
          end)
    /\ (forall xs sf, run_scalls s0 xs = Ok sf -> strict = true -> Forall scall_ok xs);
  sa_flags : forall s : sm_sign sm,
    sg_use_nonce s = true /\ sg_use_timestamp s = true /\ sg_name s = name;
  sa_safe : uri_safe name;
}.

Lemma sa_steady : forall sm name strict f, signs_as sm name strict f ->
  steady (fun _ : sm_sign sm => True) true true name.
Proof.
  intros sm name strict f [_ H _]. constructor; auto; intros s _; apply H.
Qed.

Lemma valid_for_strict : forall c cf uri cs, valid_for true c cf uri cs <-> valid_use c cf uri cs.
Proof. intros. split; intros []; constructor; auto. Qed.

Lemma start_and_feeds_ok : forall method uri cf cs,
  Forall scall_ok (start_calls method uri ++ feeds false (all_steps cf 0 0 cs))
  <-> dok uri /\ Forall displays_ok cs.
Proof.
  intros method uri cf cs. rewrite Forall_app, <- feeds_ok, all_steps_ok.
  unfold start_calls. rewrite !Forall_cons_iff. cbn [scall_ok].
  unfold dok. rewrite dfinal_PercentEncode. split.
  - intros [[_ [H _]] H2]. auto.
  - intros [H1 H2]. split; auto.
Qed.

Section Exact.
  Variables (c : cfg) (e : env) (b : Builder) (name : bytes) (strict : bool)
    (f : bytes -> option bytes -> bytes -> option bytes).
  Hypothesis HF : signs_as (bd_signature_method b) name strict f.
  Let cf := conf_of name e b.
  Hypothesis HT : timestamp_available c cf.

  Definition signature_of (method : bytes) (uri : disp) (cs : list call) : option bytes :=
    f (client_secret b) (token_secret b) (hashed_text method (dtext uri) (signed_fields cf cs)).

  (** Everything that follows the construction of the signature state. *)
  Definition go {w : Writer} (data : Data w) (method : bytes) (uri : disp) (r : Request) : res w :=
    sign <- make_sign c (bd_signature_method b) method uri (bd_client b) (bd_token b) ;;
    r (AuthorizerS (sm_sign (bd_signature_method b)) w c e)
      (au_new data sign (bd_client b) (bd_token b) (bd_options b)).

  Lemma go_sound : forall (w : Writer) (data : Data w) method uri r cs out,
    makes_calls r cs -> NoDup (call_protos cs) -> go data method uri r = Ok out ->
    valid_for strict c cf uri cs /\
    exists sig ch, signature_of method uri cs = Some sig
      /\ writes_ok (data_buf data) ch out
      /\ concat ch = added_text data (wire_fields cf (call_protos cs)) sig.
  Proof.
    intros w data method uri r cs out HM HN H. unfold go in H.
    apply rbind_ok in H as [s1 [H1 H2]]. apply make_sign_spec in H1 as [HQ [s0 [HS0 HS1]]].
    rewrite (HM (AuthorizerS (sm_sign (bd_signature_method b)) w c e)) in H2. cbn [sr_end AuthorizerS] in H2.
    apply (run_sound c e cf data s1 (bd_client b) (bd_token b) (bd_options b) (fun _ => True)) in H2
      as [sf [d [R1 [R2 [R3 R4]]]]]; auto.
    2:{ apply (sa_steady _ _ _ _ HF). }
    assert (HR : run_scalls s0 (start_calls method uri ++ feeds false (all_steps cf 0 0 cs)) = Ok sf).
    { rewrite run_scalls_app, HS1. exact R1. }
    destruct (sa_start _ _ _ _ HF (cr_secret (bd_client b)) (option_map cr_secret (bd_token b)))
      as [s0' [T0 [T1 T2]]].
    rewrite HS0 in T0. inversion T0; subst s0'. clear T0.
    assert (HOK : strict = true -> dok uri /\ Forall displays_ok cs).
    { intros HX. apply (start_and_feeds_ok method uri cf cs). eapply T2; eauto. }
    split.
    - constructor; auto.
      + intros [HX|HX]; [now apply HOK|now apply HQ].
      + intros HX. now apply HQ.
      + intros HX. now apply HOK.
    - destruct (T1 (start_calls method uri ++ feeds false (all_steps cf 0 0 cs))) as [sf' [R1' R5]].
      { intros HX. now apply start_and_feeds_ok, HOK. }
      rewrite HR in R1'. inversion R1'; subst sf'. clear R1'.
      change (start_calls method uri ++ feeds false (all_steps cf 0 0 cs))
        with (SMethod method :: SUri (PercentEncode uri) :: feeds false (all_steps cf 0 0 cs)) in R5.
      change name with (cn_name cf) in R5.
      rewrite digest_input in R5 by (auto; apply (sa_safe _ _ _ _ HF)).
      unfold signature_of, client_secret, token_secret.
      destruct (f (cr_secret (bd_client b)) (option_map cr_secret (bd_token b)) _) as [sig|].
      + destruct R5 as [d' [R5 [D1 [D2 D3]]]]. rewrite R2 in R5. inversion R5; subst d'.
        destruct (R4 D1 D2) as [ch [W1 C1]]. exists sig, ch. repeat split; auto. now rewrite C1, D3.
      + destruct R5 as [p R5]. congruence.
  Qed.

  Lemma go_complete : forall (w : Writer) (data : Data w) method uri r cs sig,
    infallible w -> makes_calls r cs -> NoDup (call_protos cs) ->
    valid_for strict c cf uri cs -> signature_of method uri cs = Some sig ->
    exists out, go data method uri r = Ok out.
  Proof.
    intros w data method uri r cs sig HW HM HN [V1 V2 V3 V4] HSig. unfold go.
    destruct (sa_start _ _ _ _ HF (cr_secret (bd_client b)) (option_map cr_secret (bd_token b)))
      as [s0 [T0 [T1 T2]]].
    destruct (T1 (start_calls method uri ++ feeds false (all_steps cf 0 0 cs))) as [sf [R1 R5]].
    { intros HX. apply start_and_feeds_ok. auto. }
    change (start_calls method uri ++ feeds false (all_steps cf 0 0 cs))
      with (SMethod method :: SUri (PercentEncode uri) :: feeds false (all_steps cf 0 0 cs)) in R5.
    change name with (cn_name cf) in R5.
    rewrite digest_input in R5 by (auto; apply (sa_safe _ _ _ _ HF)).
    unfold signature_of, client_secret, token_secret in HSig. rewrite HSig in R5.
    destruct R5 as [d [E1 [D1 [D2 D3]]]].
    rewrite run_scalls_app in R1. apply rbind_ok in R1 as [s1 [RS RF]].
    assert (HMS : make_sign c (bd_signature_method b) method uri (bd_client b) (bd_token b) = Ok s1).
    { apply make_sign_spec. split; [auto|]. exists s0. auto. }
    rewrite HMS. cbn [rbind].
    rewrite (HM (AuthorizerS (sm_sign (bd_signature_method b)) w c e)). cbn [sr_end AuthorizerS].
    eapply (run_complete c e cf data s1 sf) with (P := fun _ => True); eauto; try reflexivity.
    apply (sa_steady _ _ _ _ HF).
  Qed.

  (** A [String] result is the old content followed by the exact text. *)
  Lemma go_string : forall (data : Data StringW) method uri r cs out,
    makes_calls r cs -> NoDup (call_protos cs) ->
    (go data method uri r = Ok out <->
     valid_for strict c cf uri cs /\
     exists sig, signature_of method uri cs = Some sig
       /\ out = data_buf data ++ added_text data (wire_fields cf (call_protos cs)) sig).
  Proof.
    intros data method uri r cs out HM HN. split.
    - intros H. apply (go_sound StringW) with (cs := cs) in H as [HV [sig [ch [HS [HW HC]]]]]; auto.
      split; auto. exists sig. split; auto. apply writes_ok_string in HW. now rewrite HC in HW.
    - intros [HV [sig [HS ->]]].
      destruct (go_complete StringW data method uri r cs sig infallible_string HM HN HV HS) as [out H].
      pose proof H as H'.
      apply (go_sound StringW) with (cs := cs) in H' as [_ [sig' [ch [HS' [HW HC]]]]]; auto.
      rewrite HS in HS'. inversion HS'; subst sig'. apply writes_ok_string in HW. rewrite HC in HW.
      now rewrite H, HW.
  Qed.
End Exact.

(** ** The public functions in terms of [go] *)

Lemma authorize_with_buf_go : forall c e b (w : Writer) (buf : w) method uri r,
  Builder_authorize_with_buf c e b buf method uri r
  = (h <- write_unwrap (dstr (lit "OAuth ")) buf ;; go c e b (Authorization h) method uri r).
Proof.
  intros. unfold Builder_authorize_with_buf, authorization_with_buf, go.
  rewrite Credentials_as_ref_id, Credentials_as_ref_id_opt.
  rewrite !rbind_assoc. apply rbind_ext. intros h _. rewrite rbind_assoc. apply rbind_ext. reflexivity.
Qed.

Lemma authorize_go : forall c e b method uri r,
  Builder_authorize c e b method uri r
  = go c e b (Authorization (w := StringW) (lit "OAuth ")) method uri r.
Proof.
  intros. change (Builder_authorize c e b method uri r)
    with (Builder_authorize_with_buf c e b (w := StringW) ([] : bytes) method uri r).
  now rewrite authorize_with_buf_go.
Qed.

Lemma to_form_with_buf_go : forall c e b (w : Writer) (buf : w) method uri r,
  Builder_to_form_with_buf c e b buf method uri r
  = go c e b (Urlencode (ue_form_with_buf buf)) method uri r.
Proof.
  intros. unfold Builder_to_form_with_buf, form_with_buf, go.
  rewrite Credentials_as_ref_id, Credentials_as_ref_id_opt.
  rewrite rbind_assoc. apply rbind_ext. reflexivity.
Qed.

Lemma to_form_go : forall c e b method uri r,
  Builder_to_form c e b method uri r
  = go c e b (Urlencode (ue_form_with_buf (w := StringW) ([] : bytes))) method uri r.
Proof. intros. apply (to_form_with_buf_go c e b StringW []). Qed.

Lemma to_query_go : forall c e b (w : Writer) (show : w -> disp) method (uri : w) r,
  Builder_to_query c e show b method uri r
  = go c e b (Urlencode (ue_query uri)) method (show uri) r.
Proof.
  intros. unfold Builder_to_query, query, go.
  rewrite Credentials_as_ref_id, Credentials_as_ref_id_opt.
  rewrite rbind_assoc. apply rbind_ext. reflexivity.
Qed.

(** ** The built-in signature methods *)

Lemma safe_name : forall s, forallb unreserved s = true -> uri_safe s.
Proof. intros s H b Hb. rewrite forallb_forall in H. auto. Qed.

Lemma b64_display_ok : forall a, dok (Base64PercentEncodeDisplay a) /\ propagates (Base64PercentEncodeDisplay a)
  /\ dtext (Base64PercentEncodeDisplay a) = pct_encode (base64 b64_std true a).
Proof.
  intros a. unfold Base64PercentEncodeDisplay. split; [|split].
  - apply dok_PercentEncode, dok_dstr.
  - apply propagates_PercentEncode, propagates_dstr.
  - rewrite dtext_PercentEncode, dtext_dstr. reflexivity.
Qed.

Lemma HMAC_signs_as :
  signs_as HMAC_SHA1 (lit "HMAC-SHA1") true
    (fun cs ts text => Some (pct_encode (hmac_signature cs ts text))).
Proof.
  constructor.
  - intros cs ts. destruct (HMAC_sign_with cs ts) as [s0 [H0 [H1 H2]]]. exists s0. split; auto. split.
    + intros xs HX. eexists. split.
      { exact (digest_run _ _ _ _ _ HMAC_digest_like xs s0 (HX eq_refl)). }
      cbn [sg_end HmacSha1Sign default_sign]. rewrite H1. cbn [app].
      eexists. split; [reflexivity|]. destruct (b64_display_ok (hmac_sha1 (hm_key s0) (concat (map (scall_text (lit "HMAC-SHA1")) xs)))) as [D1 [D2 D3]].
      split; [exact D1|split; [exact D2|]]. unfold hmac_signature. rewrite <- H2. exact D3.
    + intros xs sf H _. exact (digest_run_inv _ _ _ _ _ HMAC_digest_like xs s0 sf H).
  - intros s. cbn. auto.
  - apply safe_name. reflexivity.
Qed.

Definition rsa_emitted (key : RsaKey) (text : bytes) : option bytes :=
  option_map (fun s => pct_encode (base64 b64_std true s)) (key (sha1 text)).

Lemma RSA_signs_as_gen : forall fin key
  (Hfin : forall s, fin s = rsa_end_ref s),
  signs_as {| sm_sign := rsa_sign fin;
              sm_sign_with := fun _ _ => Ok ({| rs_key := key; rs_fed := [] |} : rsa_sign fin) |}
    (lit "RSA-SHA1") true (fun _ _ text => rsa_emitted key text).
Proof.
  intros fin key Hfin. constructor.
  - intros cs ts. eexists. split; [reflexivity|]. split.
    + intros xs HX. eexists. split.
      { exact (digest_run _ _ _ _ _ (RSA_digest_like fin) xs _ (HX eq_refl)). }
      cbn [sg_end rsa_sign default_sign rs_fed rs_key app]. rewrite Hfin. unfold rsa_end_ref, rsa_emitted.
      cbn [rs_key rs_fed].
      destruct (key _) as [sig|]; cbn [option_map]; [|eauto].
      destruct (b64_display_ok sig) as [D1 [D2 D3]]. eexists. split; [reflexivity|]. auto.
    + intros xs sf H _. exact (digest_run_inv _ _ _ _ _ (RSA_digest_like fin) xs _ sf H).
  - intros s. cbn. auto.
  - apply safe_name. reflexivity.
Qed.

Lemma RSA_signs_as : forall key,
  signs_as (RsaSha1 key) (lit "RSA-SHA1") true (fun _ _ text => rsa_emitted key text).
Proof. intros key. apply RSA_signs_as_gen. intros []. reflexivity. Qed.

Lemma RSA_ref_signs_as : forall key,
  signs_as (RsaSha1_ref key) (lit "RSA-SHA1") true (fun _ _ text => rsa_emitted key text).
Proof. intros key. apply RSA_signs_as_gen. reflexivity. Qed.

Lemma plaintext_run : forall (bf : Buffer) xs (s : PlaintextSign bf), run_scalls s xs = Ok s.
Proof.
  intros bf. induction xs as [|x xs IH]; intros s; auto. destruct x; cbn; apply IH.
Qed.

Lemma PLAINTEXT_signs_as :
  signs_as PLAINTEXT (lit "PLAINTEXT") false (fun cs ts _ => Some (signing_key cs ts)).
Proof.
  constructor.
  - intros cs ts. exists (signing_key cs ts). split; [|split].
    + unfold PLAINTEXT, Plaintext. cbn [sm_sign_with]. unfold StringB. cbn [bf_w bf_default].
      rewrite write_unwrap_string by apply dok_signing_key. now rewrite dtext_signing_key.
    + intros xs _. exists (signing_key cs ts). split; [apply (plaintext_run StringB)|].
      eexists. split; [reflexivity|]. cbn [bf_display StringB]. split; [apply dok_dstr|].
      split; [apply propagates_dstr|apply dtext_dstr].
    + discriminate.
  - intros s. cbn. auto.
  - apply safe_name. reflexivity.
Qed.
