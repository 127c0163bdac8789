(** Signature states: signing keys, digests, PLAINTEXT. *)
From Coq Require Import String.
From Coq Require Import Lia Arith Sorted.
From Verif Require Import Bytes Crypto Spec MFmt MPercent MSign MSerializer MRequest MCredentials MAuth
  SpecCalls SpecAuth LBytes LFmt LPercent LCrypto LTrace LAuth.

(** ** The signing key *)

Lemma dok_signing_key : forall cs ts, dok (write_signing_key cs ts).
Proof.
  intros cs [ts|]; unfold write_signing_key; repeat apply dok_dseq;
    auto using dok_percent_encode, dok_dstr. reflexivity.
Qed.

Lemma dtext_signing_key : forall cs ts, dtext (write_signing_key cs ts) = signing_key cs ts.
Proof.
  intros cs ts. unfold write_signing_key, signing_key.
  rewrite !dtext_dseq, dtext_dstr, dtext_percent_encode by auto using dok_percent_encode, dok_dstr.
  destruct ts; [rewrite dtext_percent_encode|]; reflexivity.
Qed.

Lemma propagates_signing_key : forall cs ts, propagates (write_signing_key cs ts).
Proof.
  intros cs [ts|]; unfold write_signing_key;
    auto 10 using propagates_dseq, propagates_dstr, propagates_percent_encode.
  apply propagates_dseq; [apply propagates_percent_encode|]. apply propagates_dseq; [apply propagates_dstr|exact I].
Qed.

(** ** The HMAC key buffer *)

Definition sk_rel (k : SigningKey) (received : bytes) : Prop :=
  match k with
  | Key buf pos => length buf = 64 /\ pos = length received /\ pos <= 64 /\ firstn pos buf = received
  | Digest fed => fed = received /\ 64 < length received
  end.

Lemma sk_new_rel : sk_rel SigningKey_new [].
Proof. cbn. repeat split; auto. apply Nat.le_0_l. Qed.

Lemma slice_firstn : forall s n, n <= length s -> slice s 0 n = Ok (firstn n s).
Proof.
  intros s n H. unfold slice. apply Nat.leb_le in H. rewrite H. cbn [Nat.leb andb].
  now rewrite Nat.sub_0_r.
Qed.

Lemma sk_write_rel : forall k r input, sk_rel k r ->
  exists k', SigningKey_write k input = Ok k' /\ sk_rel k' (r ++ input).
Proof.
  intros [buf pos|fed] r input H; cbn [sk_rel] in H.
  - destruct H as [HL [HP [HB HF]]]. cbn [SigningKey_write].
    destruct (Nat.ltb_spec (length buf) pos); [lia|].
    destruct (Nat.ltb_spec (length buf - pos) (length input)).
    + rewrite slice_firstn by lia. cbn [rbind]. eexists; split; [reflexivity|].
      cbn [sk_rel]. unfold update. rewrite app_length. split; [now rewrite HF|lia].
    + unfold copy_into.
      replace ((pos <=? pos + length input)%nat && (pos + length input <=? length buf)%nat
               && Nat.eqb (pos + length input - pos) (length input)) with true.
      2:{ symmetry. rewrite !andb_true_iff, Nat.eqb_eq, !Nat.leb_le. lia. }
      cbn [rbind]. eexists; split; [reflexivity|].
      cbn [sk_rel]. rewrite !app_length, skipn_length, firstn_length_le by lia.
      repeat split; try lia.
      rewrite HF, app_assoc. rewrite firstn_app.
      rewrite app_length. rewrite <- HP, Nat.sub_diag. cbn [firstn]. rewrite app_nil_r.
      apply firstn_all2. rewrite app_length. lia.
  - destruct H as [-> H]. eexists; split; [reflexivity|]. cbn. rewrite app_length. split; auto. lia.
Qed.

Lemma sk_writes : forall cs k r, sk_rel k r ->
  exists k', writes_ok (w := SigningKeyW) k cs k' /\ sk_rel k' (r ++ concat cs).
Proof.
  induction cs as [|c cs IH]; intros k r H.
  - exists k. split; [constructor|]. cbn. now rewrite app_nil_r.
  - destruct (sk_write_rel k r c H) as [k1 [E1 R1]]. destruct (IH k1 _ R1) as [k2 [W2 R2]].
    exists k2. split.
    + econstructor; [|exact W2]. cbn. now rewrite E1.
    + cbn [concat]. now rewrite app_assoc.
Qed.

Lemma infallible_SigningKey_run : forall d k r, dok d -> sk_rel k r ->
  exists k', write_unwrap (w := SigningKeyW) d k = Ok k' /\ sk_rel k' (r ++ dtext d).
Proof.
  intros d k r HD H. unfold write_unwrap.
  assert (exists k', run_disp (w := SigningKeyW) d k = Ok (k', true) /\ sk_rel k' (r ++ dtext d)) as [k' [E R]].
  { unfold dok in HD. revert k r H. induction d as [b0|p|ch f IH]; cbn [dfinal] in HD; intros k r H.
    - inversion HD; subst. cbn. exists k. rewrite app_nil_r. auto.
    - discriminate.
    - destruct (sk_write_rel k r ch H) as [k1 [E1 R1]].
      destruct (IH true HD k1 _ R1) as [k2 [E2 R2]]. exists k2. cbn [run_disp dtext].
      cbn [write_str SigningKeyW]. rewrite E1. cbn [rbind]. rewrite app_assoc. auto. }
  exists k'. rewrite E. auto.
Qed.

Lemma sha1_length : forall m, length (sha1 m) = 20.
Proof.
  intros m. unfold sha1. destruct (fold_left _ _ _) as [[[[a b] c] d] e].
  rewrite !app_length. reflexivity.
Qed.

Lemma into_hmac_spec : forall k r, sk_rel k r ->
  exists st, into_hmac k = Ok st /\ hm_fed st = [] /\ forall m, hmac_sha1 (hm_key st) m = hmac_sha1 r m.
Proof.
  intros [buf pos|fed] r H; cbn [sk_rel] in H.
  - destruct H as [HL [HP [HB HF]]]. cbn [into_hmac]. rewrite slice_firstn by lia. cbn [rbind].
    eexists; split; [reflexivity|]. cbn. rewrite HF. auto.
  - destruct H as [-> H]. cbn [into_hmac]. eexists; split; [reflexivity|]. split; auto.
    intros m. cbn [hm_key]. unfold hmac_sha1.
    replace (hmac_block_key (sha1 r)) with (hmac_block_key r); auto.
    unfold hmac_block_key. rewrite sha1_length. apply Nat.ltb_lt in H. rewrite H.
    cbn [Nat.ltb Nat.leb]. rewrite sha1_length. reflexivity.
Qed.

Lemma HMAC_sign_with : forall cs ts, exists st,
  sm_sign_with HMAC_SHA1 cs ts = Ok st /\ hm_fed st = []
  /\ forall m, hmac_sha1 (hm_key st) m = hmac_sha1 (signing_key cs ts) m.
Proof.
  intros cs ts. cbn [sm_sign_with HMAC_SHA1].
  destruct (infallible_SigningKey_run (write_signing_key cs ts) SigningKey_new [] (dok_signing_key cs ts) sk_new_rel)
    as [k [E R]].
  rewrite E. cbn [rbind]. cbn [app] in R. rewrite dtext_signing_key in R. now apply into_hmac_spec.
Qed.

(** ** Digest-like signature states: the calls append text *)

(** The text a call adds, for a signature method called [name]. *)
Definition scall_text (name : bytes) (x : scall) : bytes :=
  match x with
  | SMethod m => m ++ lit "&"
  | SUri u => dtext u ++ lit "&"
  | SDelim => lit "%26"
  | SParam k v => k ++ lit "%3D" ++ dtext v
  | SCallback v => lit "oauth_callback" ++ lit "%3D" ++ dtext v
  | SConsumerKey v => lit "oauth_consumer_key" ++ lit "%3D" ++ dtext v
  | SNonce v => lit "oauth_nonce" ++ lit "%3D" ++ dtext v
  | SSignatureMethod => lit "oauth_signature_method" ++ lit "%3D" ++ name
  | STimestamp t => lit "oauth_timestamp" ++ lit "%3D" ++ decimal t
  | SToken v => lit "oauth_token" ++ lit "%3D" ++ dtext v
  | SVerifier v => lit "oauth_verifier" ++ lit "%3D" ++ dtext v
  | SVersion => lit "oauth_version" ++ lit "%3D" ++ lit "1.0"
  end.

(** The displayed argument of the call is well behaved. *)
Definition scall_ok (x : scall) : Prop :=
  match x with
  | SUri d | SParam _ d | SCallback d | SConsumerKey d | SNonce d | SToken d | SVerifier d => dok d
  | _ => True
  end.

Definition digest_like (sg : Sign) (name : bytes) (St : Type) (get : sg -> bytes) (put : sg -> bytes -> sg) : Prop :=
  (forall s f, get (put s f) = f)
  /\ (forall s, put s (get s) = s)
  /\ (forall s f g, put (put s f) g = put s g)
  /\ (forall (s : sg) x, scall_ok x -> run_scall s x = Ok (put s (get s ++ scall_text name x)))
  /\ (forall (s s' : sg) x, run_scall s x = Ok s' -> scall_ok x).

Lemma us_uri_ok : forall fed u, dok u -> us_uri fed u = Ok (fed ++ dtext u ++ lit "&").
Proof.
  intros fed u H. unfold us_uri. change UpdateWrite with StringW.
  rewrite write_unwrap_string by auto using dok_dseq, dok_dstr.
  now rewrite dtext_dseq, dtext_dstr.
Qed.

Lemma us_uri_inv : forall fed u f, us_uri fed u = Ok f -> dok u.
Proof.
  intros fed u f H. unfold us_uri in H. change UpdateWrite with StringW in H.
  apply write_unwrap_string_inv in H as [H _]. now apply dok_dseq_inv in H.
Qed.

Lemma us_parameter_ok : forall fed k v, dok v ->
  us_parameter fed k v = Ok (fed ++ k ++ lit "%3D" ++ dtext v).
Proof.
  intros fed k v H. unfold us_parameter, update. change UpdateWrite with StringW.
  rewrite write_unwrap_string by auto. now rewrite <- !app_assoc.
Qed.

Lemma us_parameter_inv : forall fed k v f, us_parameter fed k v = Ok f -> dok v.
Proof.
  intros fed k v f H. unfold us_parameter in H. change UpdateWrite with StringW in H.
  now apply write_unwrap_string_inv in H.
Qed.

Lemma HMAC_digest_like :
  digest_like HmacSha1Sign (lit "HMAC-SHA1") HmacState hm_fed
    (fun s f => {| hm_key := hm_key s; hm_fed := f |}).
Proof.
  split; [reflexivity|]. split; [intros s; destruct s; reflexivity|]. split; [reflexivity|]. split.
  - intros s x H. destruct x; cbn in H |- *;
      rewrite ?us_parameter_ok, ?us_uri_ok by (auto using dok_dstr); cbn [rbind];
      unfold us_request_method, us_delimiter, update; rewrite ?dtext_dstr, <- ?app_assoc; try reflexivity;
      unfold dnum; rewrite ?dtext_dstr; reflexivity.
  - intros s s' x H. destruct x; cbn in H |- *; auto; apply rbind_ok in H as [f [H _]];
      eauto using us_parameter_inv, us_uri_inv.
Qed.

Lemma RSA_digest_like : forall fin,
  digest_like (rsa_sign fin) (lit "RSA-SHA1") RsaState rs_fed
    (fun s f => {| rs_key := rs_key s; rs_fed := f |}).
Proof.
  intros fin.
  split; [reflexivity|]. split; [intros s; destruct s; reflexivity|]. split; [reflexivity|]. split.
  - intros s x H. destruct x; cbn in H |- *;
      rewrite ?us_parameter_ok, ?us_uri_ok by (auto using dok_dstr); cbn [rbind];
      unfold us_request_method, us_delimiter, update; rewrite ?dtext_dstr, <- ?app_assoc; try reflexivity;
      unfold dnum; rewrite ?dtext_dstr; reflexivity.
  - intros s s' x H. destruct x; cbn in H |- *; auto; apply rbind_ok in H as [f [H _]];
      eauto using us_parameter_inv, us_uri_inv.
Qed.

Lemma digest_run : forall sg name St get put, digest_like sg name St get put ->
  forall xs (s : sg), Forall scall_ok xs ->
  run_scalls s xs = Ok (put s (get s ++ concat (map (scall_text name) xs))).
Proof.
  intros sg name St get put [G1 [G2 [G3 [G4 G5]]]]. induction xs as [|x xs IH]; intros s H.
  - cbn. now rewrite app_nil_r, G2.
  - inversion H; subst. cbn [run_scalls map concat]. rewrite G4 by auto. cbn [rbind].
    rewrite IH by auto. now rewrite G1, G3, app_assoc.
Qed.

Lemma digest_run_inv : forall sg name St get put, digest_like sg name St get put ->
  forall xs (s s' : sg), run_scalls s xs = Ok s' -> Forall scall_ok xs.
Proof.
  intros sg name St get put [_ [_ [_ [_ G5]]]]. induction xs as [|x xs IH]; intros s s' H; constructor.
  - cbn in H. apply rbind_ok in H as [s1 [H _]]. eauto.
  - cbn in H. apply rbind_ok in H as [s1 [_ H]]. eauto.
Qed.

(** ** The text of the steps of an authorization *)

Definition call_ok (x : call) : Prop :=
  match x with CParam _ v | CParamEnc _ v => dok v | CProto _ => True end.

Lemma feeds_ok_app : forall d s1 s2,
  Forall (fun st => scall_ok (st_feed st)) (s1 ++ s2) -> Forall scall_ok (feeds d (s1 ++ s2)).
Proof.
  intros d s1 s2. generalize (s1 ++ s2). clear. intros l. revert d. induction l as [|st l IH]; intros d H; [constructor|].
  inversion H; subst. cbn [feeds]. apply Forall_app. split; [destruct d; repeat constructor|].
  constructor; auto.
Qed.

Lemma feeds_ok : forall d sts,
  Forall (fun st => scall_ok (st_feed st)) sts <-> Forall scall_ok (feeds d sts).
Proof.
  intros d sts. split.
  - intros H. apply (feeds_ok_app d [] sts). exact H.
  - revert d. induction sts as [|st sts IH]; intros d H; constructor; cbn [feeds] in H.
    + apply Forall_app in H as [_ H]. now inversion H.
    + apply Forall_app in H as [_ H]. inversion H. eapply IH; eauto.
Qed.

Lemma feed_of_ok : forall cf t p v, scall_ok (feed_of cf t p v).
Proof.
  intros cf t p v. destruct p; cbn [feed_of scall_ok]; auto using dok_DoublePercentEncode, dok_dstr.
  destruct (op_nonce (cn_options cf)); auto using dok_DoublePercentEncode, dok_dstr.
Qed.

Lemma dok_PE_inv : forall v, dok (PercentEncode v) -> dok v.
Proof. unfold dok. intros v. now rewrite dfinal_PercentEncode. Qed.
Lemma dok_DPE_inv : forall v, dok (DoublePercentEncode v) -> dok v.
Proof. unfold dok. intros v. now rewrite dfinal_DoublePercentEncode. Qed.

Lemma all_steps_ok : forall cf cs n t,
  Forall (fun st => scall_ok (st_feed st)) (all_steps cf n t cs) <-> Forall call_ok cs.
Proof.
  intros cf. induction cs as [|x cs IH]; intros n t; cbn [all_steps]; [split; constructor|].
  rewrite Forall_app, IH, Forall_cons_iff. apply and_iff_compat_r.
  destruct x as [k v|k v|p]; cbn [steps_of call_ok].
  - rewrite Forall_cons_iff. cbn. split; [intros [H _]; now apply dok_DPE_inv|].
    intros H. split; [now apply dok_DoublePercentEncode|constructor].
  - rewrite Forall_cons_iff. cbn. split; [intros [H _]; now apply dok_PE_inv|].
    intros H. split; [now apply dok_PercentEncode|constructor].
  - split; auto. intros _. destruct (sent cf n t p); constructor; auto. cbn. apply feed_of_ok.
Qed.

(** Everything shown is well behaved. *)
Lemma show_of_ok : forall cf p v, dok (show_of cf p v) /\ propagates (show_of cf p v).
Proof.
  intros cf p v. destruct p; cbn [show_of];
    try (destruct (op_nonce (cn_options cf)));
    auto using dok_dstr, propagates_dstr, dok_percent_encode, propagates_percent_encode.
Qed.

Lemma all_steps_shows_ok : forall cf cs n t, shows_ok (all_steps cf n t cs).
Proof.
  intros cf. induction cs as [|x cs IH]; intros n t k d H; cbn [all_steps] in H; [destruct H|].
  unfold shown in H. rewrite flat_map_app, in_app_iff in H. destruct H as [H|H]; [|eapply IH; exact H].
  destruct x as [k' v|k' v|p]; cbn in H; try tauto.
  destruct (sent cf n t p) as [v|]; cbn in H; [|tauto]. destruct H as [H|[]].
  inversion H; subst. apply show_of_ok.
Qed.

(** ** One nonce and one timestamp: the counters do not matter *)

Lemma sent_counters : forall cf n n' t t' p,
  (p = PNonce -> n = n') -> (p = PTimestamp -> t = t') -> sent cf n t p = sent cf n' t' p.
Proof.
  intros cf n n' t t' p HN HT. destruct p; cbn; auto.
  - now rewrite HN.
  - now rewrite HT.
Qed.

Definition steps0 (cf : conf) (x : call) : list step := steps_of cf 0 0 x.

Lemma steps_of_counters : forall cf n n' t t' x,
  (x = CProto PNonce -> n = n') -> (x = CProto PTimestamp -> t = t') ->
  steps_of cf n t x = steps_of cf n' t' x.
Proof.
  intros cf n n' t t' x HN HT. destruct x as [k v|k v|p]; auto. cbn [steps_of].
  rewrite (sent_counters cf n n' t t' p) by (intros ->; auto).
  destruct (sent cf n' t' p); auto. destruct p; auto. cbn. now rewrite HT.
Qed.

Lemma all_steps_once_gen : forall cf cs n t,
  NoDup (call_protos cs) ->
  (In PNonce (call_protos cs) -> n = 0) -> (In PTimestamp (call_protos cs) -> t = 0) ->
  all_steps cf n t cs = flat_map (steps0 cf) cs.
Proof.
  intros cf. induction cs as [|x cs IH]; intros n t HD HN HT; [reflexivity|].
  cbn [all_steps flat_map]. f_equal.
  - apply steps_of_counters; intros ->; [apply HN|apply HT]; now left.
  - destruct x as [k v|k v|p]; cbn [call_protos flat_map app] in *.
    + apply IH; auto.
    + apply IH; auto.
    + inversion HD; subst. apply IH; auto.
      * intros HI. destruct p; cbn; try (apply HN; now right). exfalso; auto.
      * intros HI. destruct p; cbn; try (apply HT; now right). exfalso; auto.
Qed.

Lemma all_steps_once : forall cf cs, NoDup (call_protos cs) ->
  all_steps cf 0 0 cs = flat_map (steps0 cf) cs.
Proof. intros. apply all_steps_once_gen; auto. Qed.

(** The wire text of every shown field. *)
Lemma show_of_text : forall cf n t p v, sent cf n t p = Some v -> dtext (show_of cf p v) = on_wire p v.
Proof.
  intros cf n t p v H. destruct p; cbn [show_of on_wire sent] in *; rewrite ?dtext_dstr, ?dtext_percent_encode; auto.
  - destruct (cn_use_nonce cf); [|discriminate]. unfold nonce_value in H.
    destruct (op_nonce (cn_options cf)); [apply dtext_percent_encode|].
    inversion H; subst. rewrite dtext_dstr. symmetry. apply pct_encode_safe, nonce_text_safe.
  - destruct (cn_use_timestamp cf); [|discriminate]. inversion H; subst.
    symmetry. apply pct_encode_safe, decimal_safe.
  - destruct (op_version (cn_options cf)); [|discriminate]. inversion H; subst. reflexivity.
Qed.

Lemma shown_text_once : forall cf cs,
  shown_text (flat_map (steps0 cf) cs) = wire_fields cf (call_protos cs).
Proof.
  intros cf. induction cs as [|x cs IH]; [reflexivity|].
  unfold shown_text, shown in *. cbn [flat_map]. rewrite flat_map_app, map_app, IH.
  destruct x as [k v|k v|p]; cbn [steps0 steps_of flat_map app map st_show]; try reflexivity.
  unfold wire_fields. cbn [call_protos flat_map app]. unfold steps0. cbn [steps_of].
  destruct (sent cf 0 0 p) as [v|] eqn:E; [|reflexivity].
  cbn. now rewrite (show_of_text cf 0 0 p v E).
Qed.

(** What a step adds to the digest. *)
Lemma feed_of_text : forall cf n t p v, uri_safe (cn_name cf) -> sent cf n t p = Some v ->
  scall_text (cn_name cf) (feed_of cf t p v) = proto_key p ++ lit "%3D" ++ pct_encode (pct_encode v).
Proof.
  intros cf n t p v HN H.
  assert (HD : forall v, dtext (DoublePercentEncode (dstr v)) = pct_encode (pct_encode v))
    by (intros x; now rewrite dtext_DoublePercentEncode, dtext_dstr).
  assert (HS : forall v, uri_safe v -> pct_encode (pct_encode v) = v)
    by (intros x Hx; now rewrite !(pct_encode_safe x)).
  destruct p; cbn [feed_of scall_text proto_key sent] in *; rewrite ?HD; auto.
  - destruct (cn_use_nonce cf); [|discriminate]. unfold nonce_value in H.
    destruct (op_nonce (cn_options cf)); [now rewrite HD|].
    inversion H; subst. rewrite dtext_dstr, HS; auto. apply nonce_text_safe.
  - inversion H; subst. now rewrite HS.
  - destruct (cn_use_timestamp cf); [|discriminate]. inversion H; subst. now rewrite HS by apply decimal_safe.
  - destruct (op_version (cn_options cf)); [|discriminate]. inversion H; subst. reflexivity.
Qed.

Definition digest_field (p : pair) : bytes := fst p ++ lit "%3D" ++ pct_encode (snd p).

Lemma steps0_text : forall cf cs, uri_safe (cn_name cf) ->
  map (fun st => scall_text (cn_name cf) (st_feed st)) (flat_map (steps0 cf) cs)
  = map digest_field (signed_fields cf cs).
Proof.
  intros cf cs HN. induction cs as [|x cs IH]; [reflexivity|].
  unfold signed_fields. cbn [flat_map]. rewrite !map_app, IH. f_equal.
  destruct x as [k v|k v|p]; cbn [steps0 steps_of map st_feed scall_text].
  - unfold digest_field. cbn. now rewrite dtext_DoublePercentEncode.
  - unfold digest_field. cbn. now rewrite dtext_PercentEncode.
  - unfold steps0; cbn [steps_of]. destruct (sent cf 0 0 p) as [v|] eqn:E; [|reflexivity].
    cbn [map st_feed]. rewrite (feed_of_text cf 0 0 p v HN E). reflexivity.
Qed.

Lemma feeds_text : forall name sts,
  concat (map (scall_text name) (feeds false sts))
  = join (lit "%26") (map (fun st => scall_text name (st_feed st)) sts).
Proof.
  intros name.
  assert (HT : forall sts, sts <> [] ->
    concat (map (scall_text name) (feeds true sts))
    = lit "%26" ++ join (lit "%26") (map (fun st => scall_text name (st_feed st)) sts)).
  { induction sts as [|st sts IH]; intros H; [congruence|].
    cbn [feeds map concat app]. destruct sts as [|st2 sts].
    - cbn. rewrite app_nil_r. reflexivity.
    - rewrite IH by discriminate. cbn [map]. rewrite (join_cons (lit "%26") (scall_text name (st_feed st))) by discriminate. reflexivity. }
  intros [|st [|st2 sts]]; [reflexivity|cbn; now rewrite app_nil_r|].
  change (feeds false (st :: st2 :: sts)) with (st_feed st :: feeds true (st2 :: sts)).
  rewrite map_cons, concat_cons, (HT (st2 :: sts)) by discriminate. reflexivity.
Qed.

(** The digest input of a whole authorization. *)
Lemma digest_input : forall cf cs method uri,
  uri_safe (cn_name cf) -> NoDup (call_protos cs) ->
  concat (map (scall_text (cn_name cf))
            (SMethod method :: SUri (PercentEncode uri) :: feeds false (all_steps cf 0 0 cs)))
  = hashed_text method (dtext uri) (signed_fields cf cs).
Proof.
  intros cf cs method uri HN HD. cbn [map concat]. rewrite feeds_text, all_steps_once by auto.
  rewrite (steps0_text cf cs HN). cbn [scall_text]. rewrite dtext_PercentEncode.
  unfold hashed_text. rewrite <- !app_assoc. reflexivity.
Qed.
