(** C93: requests written by hand, whatever calls they make. *)
From Coq Require Import String.
From Coq Require Import Lia Arith Sorted Permutation.
From Verif Require Import Bytes Crypto Spec MFmt MPercent MSign MSerializer MRequest MCredentials MAuth MBuilder ModelTests
  SpecFmt SpecCalls SpecCalls2 SpecAuth SpecBuild SpecForm SpecServer SpecServer2 SpecSign SpecManual
  LBytes LFmt LPercent LCrypto LTrace LAuth LSign LBuild LForm LBase LReq LReq2 LPanic LTop LServer LAny.
From Verif Require PropsServer2.

Definition proto_eq_dec (p q : proto) : {p = q} + {p <> q}.
Proof. decide equality. Defined.

(** ** The steps of the authorizer *)

(** The counters of the authorizer and those of the specification agree where they matter. *)
Definition same_counters (cf : conf) (n n' t t' : nat) : Prop :=
  (cn_use_nonce cf = true -> op_nonce (cn_options cf) = None -> n = n')
  /\ (cn_use_timestamp cf = true -> op_timestamp (cn_options cf) = None -> t = t').

Lemma sent_same : forall cf n n' t t' p, same_counters cf n n' t t' -> sent cf n t p = sent cf n' t' p.
Proof.
  intros cf n n' t t' p [HN HT]. destruct p; cbn [sent]; auto.
  - destruct (cn_use_nonce cf); auto. unfold nonce_value. destruct (op_nonce (cn_options cf)); auto. now rewrite HN.
  - destruct (cn_use_timestamp cf); auto. unfold timestamp_value. destruct (op_timestamp (cn_options cf)); auto. now rewrite HT.
Qed.

Lemma same_next : forall cf n n' t t' x, same_counters cf n n' t t' ->
  same_counters cf (bump_nonce cf x n) (next_nonce x n') (bump_time cf x t) (next_time x t').
Proof.
  intros cf n n' t t' x [HN HT]. split; intros H1 H2.
  - destruct x as [| |[]]; cbn [bump_nonce next_nonce]; auto. rewrite H1, H2. f_equal. auto.
  - destruct x as [| |[]]; cbn [bump_time next_time]; auto. rewrite H1, H2. f_equal. auto.
Qed.

Lemma steps_shown : forall cf cs n n' t t', same_counters cf n n' t t' ->
  shown_text (all_steps cf n t cs) = written (sent_by cf n' t' cs).
Proof.
  intros cf. induction cs as [|x cs IH]; intros n n' t t' H; [reflexivity|].
  cbn [all_steps sent_by]. unfold shown_text, shown, written in *. rewrite flat_map_app, !map_app.
  rewrite (IH _ _ _ _ (same_next cf n n' t t' x H)). f_equal.
  destruct x as [k v|k v|p]; try reflexivity. cbn [steps_of]. rewrite (sent_same cf n n' t t' p H).
  destruct (sent cf n' t' p) as [v|] eqn:E; [|reflexivity]. cbn. now rewrite (show_of_text cf n' t' p v E).
Qed.

Lemma steps_keys : forall cf cs n n' t t', same_counters cf n n' t t' ->
  map st_key (all_steps cf n t cs) = map fst (signed_by cf n' t' cs).
Proof.
  intros cf. induction cs as [|x cs IH]; intros n n' t t' H; [reflexivity|].
  cbn [all_steps signed_by]. rewrite !map_app, (IH _ _ _ _ (same_next cf n n' t t' x H)). f_equal.
  destruct x as [k v|k v|p]; try reflexivity. cbn [steps_of]. rewrite (sent_same cf n n' t t' p H).
  destruct (sent cf n' t' p); reflexivity.
Qed.

Lemma steps_text : forall cf cs n n' t t', uri_safe (cn_name cf) -> same_counters cf n n' t t' ->
  map (fun st => scall_text (cn_name cf) (st_feed st)) (all_steps cf n t cs) = map digest_field (signed_by cf n' t' cs).
Proof.
  intros cf cs n n' t t' HN. revert n n' t t'. induction cs as [|x cs IH]; intros n n' t t' H; [reflexivity|].
  cbn [all_steps signed_by]. rewrite !map_app, (IH _ _ _ _ (same_next cf n n' t t' x H)). f_equal.
  destruct x as [k v|k v|p]; cbn [steps_of map st_feed scall_text].
  - unfold digest_field. cbn. now rewrite dtext_DoublePercentEncode.
  - unfold digest_field. cbn. now rewrite dtext_PercentEncode.
  - pose proof (sent_same cf n n' t t' p H) as ES. destruct (sent cf n t p) as [v|] eqn:E; rewrite <- ES; [|reflexivity].
    cbn [map st_feed]. now rewrite (feed_of_text cf n t p v HN E).
Qed.

Lemma same_start : forall cf, same_counters cf 0 0 0 0.
Proof. intros cf. split; auto. Qed.

Lemma input_text : forall cf cs method uri, uri_safe (cn_name cf) ->
  concat (map (scall_text (cn_name cf)) (SMethod method :: SUri (PercentEncode uri) :: feeds false (all_steps cf 0 0 cs)))
  = hashed_text method (dtext uri) (signed_by cf 0 0 cs).
Proof.
  intros cf cs method uri HN. cbn [map concat]. rewrite feeds_text, (steps_text cf cs 0 0 0 0 HN (same_start cf)).
  cbn [scall_text]. rewrite dtext_PercentEncode. unfold hashed_text. rewrite <- !app_assoc. reflexivity.
Qed.

(** ** Without a clock *)

Lemma run_call_same : forall (sg : Sign) (w : Writer) c e x (a : Authorizer sg w), x <> CProto PTimestamp ->
  run_call (S := AuthorizerS sg w c e) x a = run_call (S := AuthorizerS sg w (with_std c) e) x a.
Proof. intros sg w c e x a H. destruct x as [| |[]]; try reflexivity. congruence. Qed.

Lemma run_calls_std : forall (sg : Sign) (w : Writer) c e cs (a : Authorizer sg w), ~ In PTimestamp (call_protos cs) ->
  run_calls (S := AuthorizerS sg w c e) cs a = run_calls (S := AuthorizerS sg w (with_std c) e) cs a.
Proof.
  intros sg w c e. induction cs as [|x cs IH]; intros a H; [reflexivity|]. cbn [run_calls].
  rewrite run_call_same.
  - apply rbind_ext. intros b _. apply IH. intros HI. apply H. change (x :: cs) with ([x] ++ cs).
    rewrite call_protos_app, in_app_iff. now right.
  - intros ->. apply H. now left.
Qed.

Lemma go_std : forall c e b (w : Writer) (data : Data w) method uri r cs, makes_calls r cs -> ~ In PTimestamp (call_protos cs) ->
  go c e b data method uri r = go (with_std c) e b data method uri r.
Proof.
  intros c e b w data method uri r cs HM HI. unfold go. apply rbind_ext. intros s _.
  rewrite (HM (AuthorizerS (sm_sign (bd_signature_method b)) w c e)).
  rewrite (HM (AuthorizerS (sm_sign (bd_signature_method b)) w (with_std c) e)).
  exact (f_equal (fun x => rbind x au_end) (run_calls_std _ w c e cs _ HI)).
Qed.

Section Exact.
  Variables (e : env) (b : Builder) (name : bytes) (strict : bool) (f : bytes -> option bytes -> bytes -> option bytes).
  Hypothesis HF : signs_as (bd_signature_method b) name strict f.
  Let cf := conf_of name e b.

  Lemma manual_sound : forall c (data : Data StringW) method uri r cs out, timestamp_available c cf ->
    makes_calls r cs -> go c e b data method uri r = Ok out ->
    returns strict c cf uri cs /\
    exists sig, f (client_secret b) (token_secret b) (hashed_text method (dtext uri) (signed_by cf 0 0 cs)) = Some sig
      /\ out = data_buf data ++ added_text data (written (sent_by cf 0 0 cs)) sig.
  Proof.
    intros c data method uri r cs out HT HM H. unfold go in H.
    apply rbind_ok in H as [s1 [H1 H2]]. apply make_sign_spec in H1 as [HQ [s0 [HS0 HS1]]].
    rewrite (HM (AuthorizerS (sm_sign (bd_signature_method b)) StringW c e)) in H2. cbn [sr_end AuthorizerS] in H2.
    pose proof (sa_steady _ _ _ _ HF) as HS.
    assert (HMt : matches e cf 0 0 (au_new (w := StringW) data s1 (bd_client b) (bd_token b) (bd_options b))).
    { apply (matches_new e cf data s1 (bd_client b) (bd_token b) (bd_options b) (fun _ => True)); auto. }
    pose proof (eq_trans (eq_sym (run_calls_end c e (fun _ => True) cf HS HT cs 0 0 _ HMt I)) H2) as H3. clear H2.
    apply rbind_ok in H3 as [a [H3 H4]].
    apply do_steps_sound in H3 as [J1 [J2 J3]]; [|apply all_steps_shows_ok].
    cbn [au_new au_sign au_append_delim au_data au_prev_key] in J1, J2, J3.
    apply au_end_sound in H4 as [d [K1 K2]].
    assert (HR : run_scalls s0 (start_calls method uri ++ feeds false (all_steps cf 0 0 cs)) = Ok (au_sign a)).
    { rewrite run_scalls_app, HS1. exact J1. }
    destruct (sa_start _ _ _ _ HF (cr_secret (bd_client b)) (option_map cr_secret (bd_token b))) as [s0' [T0 [T1 T2]]].
    rewrite HS0 in T0. inversion T0; subst s0'. clear T0.
    assert (HOK : strict = true -> dok uri /\ Forall displays_ok cs).
    { intros HX. apply (start_and_feeds_ok method uri cf cs). eapply T2; eauto. }
    split.
    - constructor; auto.
      + intros [HX|HX]; [now apply HOK|now apply HQ].
      + intros HX. now apply HQ.
      + intros HX. now apply HOK.
      + intros HA HB. unfold order_ok in J3. rewrite HA, HB in J3. specialize (J3 eq_refl).
        rewrite (steps_keys cf cs 0 0 0 0 (same_start cf)) in J3. now apply ascending_nil_cons.
    - destruct (T1 (start_calls method uri ++ feeds false (all_steps cf 0 0 cs))) as [sf' [R1' R5]].
      { intros HX. now apply start_and_feeds_ok, HOK. }
      rewrite HR in R1'. inversion R1'; subst sf'. clear R1'.
      change (start_calls method uri ++ feeds false (all_steps cf 0 0 cs))
        with (SMethod method :: SUri (PercentEncode uri) :: feeds false (all_steps cf 0 0 cs)) in R5.
      change name with (cn_name cf) in R5. rewrite input_text in R5 by apply (sa_safe _ _ _ _ HF).
      unfold client_secret, token_secret.
      destruct (f (cr_secret (bd_client b)) (option_map cr_secret (bd_token b)) _) as [sig|].
      + destruct R5 as [d' [R5 [D1 [D2 D3]]]]. rewrite K1 in R5. inversion R5; subst d'.
        destruct (K2 D1 D2) as [ch2 [W2 C2]]. exists sig. split; [reflexivity|]. rewrite <- D3.
        rewrite (steps_shown cf cs 0 0 0 0 (same_start cf)) in J2. apply writes_ok_string in W2.
        destruct data as [h|u]; cbn [data_rel added_text data_buf] in *.
        * destruct J2 as [h' [ch1 [E1 [W1 C1]]]]. rewrite E1 in W2, C2. cbn [data_buf end_text] in *.
          apply writes_ok_string in W1. now rewrite W2, W1, C1, C2, <- app_assoc.
        * destruct J2 as [x [ch1 [E1 [W1 C1]]]]. rewrite E1 in W2, C2. cbn [data_buf end_text ue_data ue_next_append] in *.
          apply writes_ok_string in W1. now rewrite W2, W1, C1, C2, ue_added_app, <- app_assoc.
      + destruct R5 as [p R5]. congruence.
  Qed.

  Lemma manual_complete : forall c (data : Data StringW) method uri r cs sig, timestamp_available c cf ->
    makes_calls r cs -> returns strict c cf uri cs ->
    f (client_secret b) (token_secret b) (hashed_text method (dtext uri) (signed_by cf 0 0 cs)) = Some sig ->
    exists out, go c e b data method uri r = Ok out.
  Proof.
    intros c data method uri r cs sig HT HM [_ V1 V2 V3 V4] HSig. unfold go.
    destruct (sa_start _ _ _ _ HF (cr_secret (bd_client b)) (option_map cr_secret (bd_token b))) as [s0 [T0 [T1 T2]]].
    destruct (T1 (start_calls method uri ++ feeds false (all_steps cf 0 0 cs))) as [sf [R1 R5]].
    { intros HX. apply start_and_feeds_ok. auto. }
    change (start_calls method uri ++ feeds false (all_steps cf 0 0 cs))
      with (SMethod method :: SUri (PercentEncode uri) :: feeds false (all_steps cf 0 0 cs)) in R5.
    change name with (cn_name cf) in R5. rewrite input_text in R5 by apply (sa_safe _ _ _ _ HF).
    unfold client_secret, token_secret in HSig. rewrite HSig in R5. destruct R5 as [d [E1 [D1 [D2 D3]]]].
    rewrite run_scalls_app in R1. apply rbind_ok in R1 as [s1 [RS RF]].
    assert (HMS : make_sign c (bd_signature_method b) method uri (bd_client b) (bd_token b) = Ok s1).
    { apply make_sign_spec. split; [auto|]. exists s0. auto. }
    rewrite HMS. cbn [rbind].
    rewrite (HM (AuthorizerS (sm_sign (bd_signature_method b)) StringW c e)). cbn [sr_end AuthorizerS].
    pose proof (sa_steady _ _ _ _ HF) as HS.
    assert (HMt : matches e cf 0 0 (au_new (w := StringW) data s1 (bd_client b) (bd_token b) (bd_options b))).
    { apply (matches_new e cf data s1 (bd_client b) (bd_token b) (bd_options b) (fun _ => True)); auto. }
    destruct (do_steps_complete c (all_steps cf 0 0 cs) (au_new (w := StringW) data s1 (bd_client b) (bd_token b) (bd_options b)) sf
                infallible_string (all_steps_shows_ok cf cs 0 0) RF) as [a Ha].
    { intros HX. apply andb_true_iff in HX as [HX1 HX2]. cbn [au_new au_prev_key].
      rewrite (steps_keys cf cs 0 0 0 0 (same_start cf)). apply ascending_nil_cons. auto. }
    assert (HEnd : exists out, au_end a = Ok out).
    { apply do_steps_sound in Ha as [J1 _]; [|apply all_steps_shows_ok].
      cbn [au_new au_sign au_append_delim] in J1. rewrite RF in J1. inversion J1; subst.
      eapply au_end_complete; eauto. apply infallible_string. }
    destruct HEnd as [out HEnd]. exists out.
    etransitivity; [exact (run_calls_end c e (fun _ => True) cf HS HT cs 0 0 _ HMt I)|].
    rewrite Ha. exact HEnd.
  Qed.

  Lemma proto_in_dec : forall p (ps : list proto), In p ps \/ ~ In p ps.
  Proof. intros p ps. destruct (in_dec proto_eq_dec p ps); auto. Qed.

  Lemma returns_std : forall c uri cs, ~ In PTimestamp (call_protos cs) ->
    (returns strict c cf uri cs <-> returns strict (with_std c) cf uri cs).
  Proof. intros c uri cs HI. split; intros []; constructor; auto; intros HX; now destruct HI. Qed.

  Lemma manual_go : forall c (data : Data StringW) method uri r cs out, makes_calls r cs ->
    (go c e b data method uri r = Ok out <->
     returns strict c cf uri cs /\
     exists sig, f (client_secret b) (token_secret b) (hashed_text method (dtext uri) (signed_by cf 0 0 cs)) = Some sig
       /\ out = data_buf data ++ added_text data (written (sent_by cf 0 0 cs)) sig).
  Proof.
    assert (HX : forall c (data : Data StringW) method uri r cs out, makes_calls r cs -> timestamp_available c cf ->
      (go c e b data method uri r = Ok out <->
       returns strict c cf uri cs /\
       exists sig, f (client_secret b) (token_secret b) (hashed_text method (dtext uri) (signed_by cf 0 0 cs)) = Some sig
         /\ out = data_buf data ++ added_text data (written (sent_by cf 0 0 cs)) sig)).
    { intros c data method uri r cs out HM HT. split; [now apply manual_sound|].
      intros [HV [sig [HS ->]]].
      destruct (manual_complete c data method uri r cs sig HT HM HV HS) as [out H].
      destruct (manual_sound c data method uri r cs out HT HM H) as [_ [sig' [HS' E]]].
      rewrite HS in HS'. inversion HS'; subst sig'. now rewrite H, E. }
    intros c data method uri r cs out HM. destruct (proto_in_dec PTimestamp (call_protos cs)) as [HI|HI].
    - split.
      + intros H. pose proof (go_needs_timestamp c e b name strict f HF _ _ _ _ _ _ _ HM HI H) as HT.
        exact (proj1 (HX c data method uri r cs out HM HT) H).
      + intros H. assert (HT : timestamp_available c cf) by (destruct H as [[] _]; auto).
        exact (proj2 (HX c data method uri r cs out HM HT) H).
    - rewrite (go_std c e b StringW data method uri r cs HM HI), (returns_std c uri cs HI).
      apply HX; auto. left. reflexivity.
  Qed.
End Exact.

(** ** C93 What a request written by hand sends is what it signs *)

(** The header, for every sequence of calls. *)
Theorem C93_header : forall c e b name strict f r cs method uri out,
  builtin (bd_signature_method b) name strict f -> makes_calls r cs ->
  (Builder_authorize c e b method uri r = Ok out <->
   returns strict c (conf_of name e b) uri cs /\
   exists sig,
     f (client_secret b) (token_secret b) (hashed_text method (dtext uri) (signed_by (conf_of name e b) 0 0 cs)) = Some sig
     /\ out = header_text (written (sent_by (conf_of name e b) 0 0 cs)) sig).
Proof.
  intros c e b name strict f r cs method uri out HB HM. rewrite authorize_go.
  now rewrite (manual_go e b name strict f (builtin_signs_as _ _ _ _ HB) c _ method uri r cs out HM).
Qed.
Print Assumptions C93_header.

(** The signed form, behind what is in the buffer. *)
Theorem C93_form : forall c e b name strict f r cs buf method uri out,
  builtin (bd_signature_method b) name strict f -> makes_calls r cs ->
  (Builder_to_form_with_buf c e b (w := StringW) buf method uri r = Ok out <->
   returns strict c (conf_of name e b) uri cs /\
   exists sig,
     f (client_secret b) (token_secret b) (hashed_text method (dtext uri) (signed_by (conf_of name e b) 0 0 cs)) = Some sig
     /\ out = buf ++ form_text (written (sent_by (conf_of name e b) 0 0 cs) ++ [(lit "oauth_signature", sig)])).
Proof.
  intros c e b name strict f r cs buf method uri out HB HM. rewrite to_form_with_buf_go.
  rewrite (manual_go e b name strict f (builtin_signs_as _ _ _ _ HB) c _ method uri r cs out HM).
  cbn [data_buf added_text]. setoid_rewrite added_form. reflexivity.
Qed.
Print Assumptions C93_form.

(** The signed query. *)
Theorem C93_query : forall c e b name strict f r cs method (uri : bytes) out,
  builtin (bd_signature_method b) name strict f -> makes_calls r cs ->
  (Builder_to_query c e (w := StringW) dstr b method uri r = Ok out <->
   returns strict c (conf_of name e b) (dstr uri) cs /\
   exists sig,
     f (client_secret b) (token_secret b) (hashed_text method uri (signed_by (conf_of name e b) 0 0 cs)) = Some sig
     /\ out = query_text uri (written (sent_by (conf_of name e b) 0 0 cs) ++ [(lit "oauth_signature", sig)])).
Proof.
  intros c e b name strict f r cs method uri out HB HM. rewrite to_query_go.
  rewrite (manual_go e b name strict f (builtin_signs_as _ _ _ _ HB) c _ method _ r cs out HM).
  cbn [data_buf added_text]. rewrite dtext_dstr. cbn [ue_query ue_data]. setoid_rewrite added_query. reflexivity.
Qed.
Print Assumptions C93_query.

(** Every sequence of calls is such a request. *)
Theorem C93_any : forall cs, makes_calls (of_calls cs) cs.
Proof. intros cs S s. reflexivity. Qed.
Print Assumptions C93_any.

(** If no protocol method is called twice, this is what the other properties speak about. *)
Lemma once_gen : forall cf cs n t, NoDup (call_protos cs) ->
  (In PNonce (call_protos cs) -> n = 0) -> (In PTimestamp (call_protos cs) -> t = 0) ->
  signed_by cf n t cs = signed_fields cf cs /\ written (sent_by cf n t cs) = wire_fields cf (call_protos cs).
Proof.
  intros cf. induction cs as [|x cs IH]; intros n t HD HN HT; [auto|].
  assert (HX : signed_by cf (next_nonce x n) (next_time x t) cs = signed_fields cf cs
               /\ written (sent_by cf (next_nonce x n) (next_time x t) cs) = wire_fields cf (call_protos cs)).
  { destruct x as [k v|k v|p]; [apply IH; auto|apply IH; auto|].
    change (call_protos (CProto p :: cs)) with (p :: call_protos cs) in *. inversion HD as [|? ? HD1 HD2]; subst.
    apply IH; auto.
    - intros HI. destruct p; cbn [next_nonce]; try (apply HN; now right). contradiction.
    - intros HI. destruct p; cbn [next_time]; try (apply HT; now right). contradiction. }
  destruct HX as [X1 X2]. cbn [signed_by sent_by]. rewrite X1. unfold written in *. rewrite map_app, X2.
  destruct x as [k v|k v|p]; try (split; reflexivity).
  change (call_protos (CProto p :: cs)) with (p :: call_protos cs) in *.
  assert (ES : sent cf n t p = sent cf 0 0 p).
  { destruct p; try reflexivity; cbn [sent].
    - rewrite HN by now left. reflexivity.
    - rewrite HT by now left. reflexivity. }
  rewrite ES. unfold signed_fields, wire_fields. cbn [flat_map]. split; f_equal; destruct (sent cf 0 0 p); reflexivity.
Qed.

Theorem C93_once : forall cf cs, NoDup (call_protos cs) ->
  signed_by cf 0 0 cs = signed_fields cf cs /\ written (sent_by cf 0 0 cs) = wire_fields cf (call_protos cs).
Proof. intros cf cs H. now apply once_gen. Qed.
Print Assumptions C93_once.

(** ** What the receiver reads *)

Lemma sent_by_in : forall cf cs n t x, In x (sent_by cf n t cs) ->
  In (fst x) (call_protos cs) /\ exists n' t', sent cf n' t' (fst x) = Some (snd x).
Proof.
  intros cf. induction cs as [|y cs IH]; intros n t x H; [destruct H|]. cbn [sent_by] in H.
  change (y :: cs) with ([y] ++ cs). rewrite call_protos_app, in_app_iff. apply in_app_iff in H as [H|H].
  - destruct y as [k v|k v|p]; try destruct H. destruct (sent cf n t p) as [v|] eqn:E; [|destruct H].
    destruct H as [<-|[]]. split; [left; now left|]. eauto.
  - apply IH in H as [H1 H2]. auto.
Qed.

Lemma written_reads : forall cf cs, uri_safe (cn_name cf) ->
  Forall2 reads_as (written (sent_by cf 0 0 cs)) (said (sent_by cf 0 0 cs)).
Proof.
  intros cf cs HN. assert (HX : forall x, In x (sent_by cf 0 0 cs) -> exists n t, sent cf n t (fst x) = Some (snd x)).
  { intros x Hx. now apply sent_by_in in Hx as [_ Hx]. }
  revert HX. generalize (sent_by cf 0 0 cs). intros l. induction l as [|[p v] l IH]; intros HX; [constructor|].
  cbn [written said map fst snd]. constructor; [|apply IH; intros; apply HX; now right].
  split; [reflexivity|]. split; [apply proto_key_safe|]. cbn [snd].
  destruct (HX (p, v) (or_introl eq_refl)) as [n [t E]]. cbn [fst snd] in E.
  destruct p; cbn [on_wire]; try (split; [apply pct_decode_enc_quote|apply pct_decode_encode]).
  cbn [sent] in E. inversion E; subst v. split; [now apply safe_no|now apply pct_decode_safe].
Qed.

Lemma written_enc : forall cf cs, uri_safe (cn_name cf) ->
  written (sent_by cf 0 0 cs) = map enc_value (said (sent_by cf 0 0 cs)).
Proof.
  intros cf cs HN. unfold written, said. rewrite map_map. apply map_ext_in. intros [p v] HI. unfold enc_value. cbn [fst snd].
  f_equal. apply sent_by_in in HI as [_ [n [t E]]]. cbn [fst snd] in E. destruct p; try reflexivity.
  cbn [sent] in E. inversion E; subst v. cbn [on_wire]. symmetry. now apply pct_encode_safe.
Qed.

Lemma said_safe : forall l, safe_keys (said l).
Proof. intros l. apply Forall_forall. intros x H. apply in_map_iff in H as [[p v] [<- _]]. apply proto_key_safe. Qed.

Lemma said_key : forall l x, In x (said l) -> exists p, fst x = proto_key p.
Proof. intros l x H. apply in_map_iff in H as [[p v] [<- _]]. now exists p. Qed.

(** Header, form and query say the same. *)
Theorem C93_read : forall c e b name f r cs method (uri : bytes) sig,
  builtin (bd_signature_method b) name true f -> makes_calls r cs -> ~ has_question uri ->
  f (client_secret b) (token_secret b) (hashed_text method uri (signed_by (conf_of name e b) 0 0 cs)) = Some (pct_encode sig) ->
  let all := said (sent_by (conf_of name e b) 0 0 cs) ++ [(lit "oauth_signature", sig)] in
  (forall out, Builder_authorize c e b method (dstr uri) r = Ok out -> parse_header out = Some all)
  /\ (forall out, Builder_to_form c e b method (dstr uri) r = Ok out -> parse_form out = Some all)
  /\ (forall out, Builder_to_query c e (w := StringW) dstr b method uri r = Ok out -> parse_uri out = Some (uri, all)).
Proof.
  intros c e b name f r cs method uri sig HB HM HU HF all.
  pose proof (sa_safe _ _ _ _ (builtin_signs_as _ _ _ _ HB)) as HN.
  assert (HNC : uri_safe (cn_name (conf_of name e b))) by exact HN.
  assert (HE : written (sent_by (conf_of name e b) 0 0 cs) ++ [(lit "oauth_signature", pct_encode sig)] = map enc_value all).
  { unfold all. rewrite map_app, (written_enc _ cs HNC). reflexivity. }
  assert (HSK : safe_keys all).
  { apply Forall_app. split; [apply said_safe|]. constructor; [now apply safe_name|constructor]. }
  split; [|split]; intros out H.
  - apply (C93_header c e b name true f r cs method _ out HB HM) in H as [_ [sig' [E ->]]].
    rewrite dtext_dstr, HF in E. inversion E; subst sig'. apply parse_header_text.
    + now apply written_reads.
    + apply pct_decode_enc_quote.
    + apply pct_decode_encode.
  - apply (C93_form c e b name true f r cs [] method _ out HB HM) in H as [_ [sig' [E ->]]].
    rewrite dtext_dstr, HF in E. inversion E; subst sig'. cbn [app]. rewrite HE. now apply parse_form_text.
  - apply (C93_query c e b name true f r cs method _ out HB HM) in H as [_ [sig' [E ->]]].
    rewrite HF in E. inversion E; subst sig'. rewrite HE. now apply parse_query_text.
Qed.
Print Assumptions C93_read.

(** Nothing is sent or signed for a method that is not called, and exactly what is sent is signed. *)
Lemma signed_split : forall cf cs n t, Permutation (signed_by cf n t cs) (map enc_value (said (sent_by cf n t cs)) ++ form_fields cs).
Proof.
  intros cf. induction cs as [|x cs IH]; intros n t; [constructor|]. cbn [signed_by sent_by].
  specialize (IH (next_nonce x n) (next_time x t)). unfold said in *. rewrite !map_app.
  replace (form_fields (x :: cs)) with (form_fields [x] ++ form_fields cs) by (symmetry; apply (form_fields_app [x] cs)).
  destruct x as [k v|k v|p]; cbn [map app form_fields flat_map].
  - etransitivity; [apply perm_skip, IH|]. apply Permutation_middle.
  - etransitivity; [apply perm_skip, IH|]. apply Permutation_middle.
  - destruct (sent cf n t p); cbn [map app]; [|exact IH]. apply perm_skip, IH.
Qed.

Theorem C93_signed_is_sent : forall cf cs,
  Permutation (signed_by cf 0 0 cs) (map enc_value (said (sent_by cf 0 0 cs)) ++ form_fields cs).
Proof. intros. apply signed_split. Qed.
Print Assumptions C93_signed_is_sent.

Theorem C93_forgotten : forall cf cs p, ~ In p (call_protos cs) -> lookup (proto_key p) (said (sent_by cf 0 0 cs)) = [].
Proof.
  intros cf cs p H. apply lookup_none. intros f Hf E. apply in_map_iff in Hf as [x [<- Hx]]. cbn [fst] in E.
  apply proto_key_inj in E. subst p. apply sent_by_in in Hx as [Hx _]. contradiction.
Qed.
Print Assumptions C93_forgotten.

(** A method called several times sends its parameter that often, except that nonces and timestamps are made anew. *)
Lemma repeated_gen : forall cf cs p v n t, (forall n' t', sent cf n' t' p = Some v) ->
  lookup (proto_key p) (said (sent_by cf n t cs)) = repeat v (length (filter (fun q => if proto_eq_dec p q then true else false) (call_protos cs))).
Proof.
  intros cf cs p v n t H. revert n t. induction cs as [|x cs IH]; intros n t; [reflexivity|].
  cbn [sent_by]. unfold said in *. rewrite map_app, lookup_app, IH. change (x :: cs) with ([x] ++ cs).
  rewrite call_protos_app, filter_app, app_length, repeat_app. f_equal.
  destruct x as [k w|k w|q]; try reflexivity. cbn [call_protos flat_map app filter].
  destruct (proto_eq_dec p q) as [<-|HN].
  - rewrite H. unfold lookup. cbn. now rewrite bseqb_refl.
  - apply lookup_none. intros f Hf E. destruct (sent cf n t q); [|destruct Hf]. destruct Hf as [<-|[]]. cbn in E.
    apply proto_key_inj in E. congruence.
Qed.

Theorem C93_repeated : forall cf cs p v, (forall n t, sent cf n t p = Some v) ->
  lookup (proto_key p) (said (sent_by cf 0 0 cs)) = repeat v (count_occ proto_eq_dec (call_protos cs) p).
Proof.
  intros cf cs p v H. rewrite (repeated_gen cf cs p v 0 0 H). f_equal.
  induction (call_protos cs) as [|q l IH]; [reflexivity|]. cbn [filter count_occ].
  destruct (proto_eq_dec p q), (proto_eq_dec q p); cbn [length]; congruence.
Qed.
Print Assumptions C93_repeated.

(** ** What a server computes *)

Lemma method_lookup : forall cf cs n t,
  lookup (lit "oauth_signature_method") (said (sent_by cf n t cs)) = repeat (cn_name cf) (method_calls cs).
Proof.
  intros cf. induction cs as [|x cs IH]; intros n t; [reflexivity|].
  cbn [sent_by]. unfold said in *. rewrite map_app, lookup_app, IH. unfold method_calls. change (x :: cs) with ([x] ++ cs).
  rewrite call_protos_app, filter_app, app_length, repeat_app. f_equal.
  destruct x as [k w|k w|q]; try reflexivity. cbn [call_protos flat_map app filter].
  destruct q; try (destruct (sent cf n t _); reflexivity). reflexivity.
Qed.

(** The text that is signed is the signature base string of what is sent if, and only if, the calls are in
    the order of RFC 5849 section 3.4.1.3.2. *)
Theorem C93_base_string : forall cf cs l method uri, normal_method method -> carries cs l -> safe_keys l ->
  (hashed_text method uri (signed_by cf 0 0 cs) = base_string method uri (said (sent_by cf 0 0 cs) ++ l)
   <-> StronglySorted pair_le (signed_by cf 0 0 cs)).
Proof.
  intros cf cs l method uri HM HC HS.
  pose proof (C93_signed_is_sent cf cs) as HP. unfold carries in HC. rewrite HC in HP.
  assert (HSK : safe_keys (said (sent_by cf 0 0 cs) ++ l)) by (apply Forall_app; split; [apply said_safe|exact HS]).
  assert (HEP : map encode_pair (said (sent_by cf 0 0 cs) ++ l) = map enc_value (said (sent_by cf 0 0 cs) ++ l)).
  { apply map_ext_in. intros [k v] HI. unfold safe_keys in HSK. rewrite Forall_forall in HSK. unfold encode_pair, enc_value. cbn [fst snd].
    rewrite (pct_encode_safe k); [reflexivity|]. apply (HSK _ HI). }
  rewrite <- map_app in HP. rewrite <- HEP in HP.
  set (ps := said (sent_by cf 0 0 cs) ++ l) in *.
  assert (HSE : safe_keys (map encode_pair ps)).
  { rewrite HEP. apply Forall_forall. intros x Hx. apply in_map_iff in Hx as [y [<- Hy]]. unfold safe_keys in HSK.
    rewrite Forall_forall in HSK. apply (HSK y Hy). }
  assert (HVE : Forall (fun f => ~ In "&"%byte (snd f)) (map encode_pair ps)).
  { apply Forall_forall. intros x Hx. apply in_map_iff in Hx as [y [<- Hy]]. cbn. apply enc_no; [reflexivity|discriminate]. }
  assert (HPerm : forall Q : pair -> Prop, Forall Q (map encode_pair ps) -> Forall Q (signed_by cf 0 0 cs)).
  { intros Q HQ. rewrite HP. exact HQ. }
  split.
  - intros E. assert (EB : base_string method uri ps = hashed_text method uri (sort_pairs (map encode_pair ps))).
    { symmetry. apply hashed_text_base; [exact HM| |apply sort_perm|apply sort_sorted].
      unfold safe_keys. rewrite <- sort_perm. exact HSE. }
    rewrite EB in E. apply hashed_text_inj in E as [_ [_ E]].
    + rewrite E. apply sort_sorted.
    + rewrite <- HM. apply enc_no; [reflexivity|discriminate].
    + rewrite <- HM. apply enc_no; [reflexivity|discriminate].
    + now apply HPerm.
    + unfold safe_keys. rewrite <- sort_perm. exact HSE.
    + now apply HPerm.
    + rewrite <- sort_perm. exact HVE.
  - intros HO. apply hashed_text_base; auto.
    + now apply HPerm.
    + now apply Permutation_sym.
Qed.
Print Assumptions C93_base_string.

Lemma sorted_keys : forall l : list pair, StronglySorted pair_le l -> ascending (map fst l).
Proof.
  intros l H. induction H as [|p l H IH HF]; [constructor|]. cbn [map]. constructor; [exact IH|].
  apply Forall_forall. intros k Hk. apply in_map_iff in Hk as [q [<- Hq]]. rewrite Forall_forall in HF.
  specialize (HF q Hq). rewrite pair_le_spec in HF. destruct HF as [HF|[E _]].
  - now apply bltb_bleb.
  - rewrite E. apply bleb_refl.
Qed.

(** A server that checks the signature accepts the request if, and only if, the name of the signature method
    was asked for exactly once, whatever other protocol methods were forgotten or called again. *)
Theorem C93_server : forall c e b name f r cs l method uri sig check,
  builtin (bd_signature_method b) name true f -> makes_calls r cs ->
  (In PTimestamp (call_protos cs) -> timestamp_available c (conf_of name e b)) ->
  Forall displays_ok cs -> carries cs l -> safe_keys l -> no_oauth_keys l ->
  StronglySorted pair_le (signed_by (conf_of name e b) 0 0 cs) ->
  normal_method method -> normal_uri uri ->
  PropsServer2.agrees check name f b (base_string method uri (said (sent_by (conf_of name e b) 0 0 cs) ++ l)) sig ->
  exists header body,
    Builder_authorize c e b method (dstr uri) r = Ok header /\ to_form r = Ok body
    /\ server_check check method uri (Some header) body
       = if method_calls cs =? 1
         then Some (said (sent_by (conf_of name e b) 0 0 cs) ++ (lit "oauth_signature", sig) :: l)
         else None.
Proof.
  intros c e b name f r cs l method uri sig check HB HMk HT HD HC HS HO HSo HM HU [HF HK].
  set (cf := conf_of name e b) in *.
  pose proof (proj2 (C93_base_string cf cs l method uri HM HC HS) HSo) as EH.
  exists (header_text (written (sent_by cf 0 0 cs)) (pct_encode sig)), (form_text (form_fields cs)).
  assert (HA : Builder_authorize c e b method (dstr uri) r = Ok (header_text (written (sent_by cf 0 0 cs)) (pct_encode sig))).
  { apply (C93_header c e b name true f r cs method _ _ HB HMk). split.
    - constructor; auto using dok_dstr.
      + intros _. rewrite dtext_dstr. apply HU.
      + intros _ _. now apply sorted_keys.
    - exists (pct_encode sig). split; [|reflexivity]. fold cf. now rewrite dtext_dstr, EH. }
  split; [exact HA|]. split; [now apply (to_form_exact r cs _ HMk)|].
  assert (HF' : f (client_secret b) (token_secret b) (hashed_text method uri (signed_by cf 0 0 cs)) = Some (pct_encode sig)) by now rewrite EH.
  destruct (C93_read c e b name f r cs method uri sig HB HMk (proj2 HU) HF') as [HPH _]. apply HPH in HA.
  unfold server_check. rewrite HA. fold cf. unfold parse_uri. rewrite split_at_none by apply HU.
  rewrite HC, parse_form_text by exact HS. destruct HU as [-> _].
  assert (EA : all_params (said (sent_by cf 0 0 cs) ++ [(lit "oauth_signature", sig)]) [] l
               = said (sent_by cf 0 0 cs) ++ (lit "oauth_signature", sig) :: l).
  { unfold all_params. rewrite filter_all; [now rewrite <- app_assoc|]. intros x Hx. apply in_app_iff in Hx as [Hx|[<-|[]]]; [|reflexivity].
    apply said_key in Hx as [p E]. unfold has_key. destruct (bseqb (fst x) (lit "realm")) eqn:EB; auto. apply bseqb_eq in EB.
    exfalso. apply (realm_not_proto p). congruence. }
  rewrite EA. rewrite !lookup_app.
  change ((lit "oauth_signature", sig) :: l) with ([(lit "oauth_signature", sig)] ++ l). rewrite !lookup_app.
  rewrite (lookup_none (lit "oauth_signature") (said _)).
  2:{ intros x Hx E. apply said_key in Hx as [p Ep]. apply (sig_not_proto p). congruence. }
  assert (HOL : forall k, In k oauth_keys -> lookup k l = []).
  { intros k Hk. apply lookup_none. intros x Hx <-. unfold no_oauth_keys in HO. rewrite Forall_forall in HO. now apply (HO x Hx). }
  rewrite (HOL (lit "oauth_signature")) by now left.
  rewrite (HOL (lit "oauth_signature_method")) by (right; apply (in_map proto_key all_protos PSignatureMethod); cbn; tauto).
  rewrite method_lookup. change (lookup (lit "oauth_signature") [(lit "oauth_signature", sig)]) with [sig].
  change (lookup (lit "oauth_signature_method") [(lit "oauth_signature", sig)]) with (@nil bytes). cbn [app].
  rewrite app_nil_r.
  destruct (method_calls cs) as [|[|k]]; [reflexivity| |reflexivity]. cbn [repeat Nat.eqb].
  replace (filter _ (said (sent_by cf 0 0 cs) ++ (lit "oauth_signature", sig) :: l)) with (said (sent_by cf 0 0 cs) ++ l).
  - change (cn_name cf) with name. now rewrite HK.
  - rewrite filter_app. f_equal.
    + symmetry. apply filter_all. intros x Hx. apply said_key in Hx as [p E]. unfold has_key.
      destruct (bseqb (fst x) (lit "oauth_signature")) eqn:EB; auto. apply bseqb_eq in EB. exfalso. apply (sig_not_proto p). congruence.
    + cbn [filter]. unfold has_key at 1. cbn [fst]. rewrite bseqb_refl. cbn [negb]. symmetry. now apply no_oauth_sig.
Qed.
Print Assumptions C93_server.

(** Nonces and timestamps that are not configured are made anew for every call. *)
Lemma fresh_nonces : forall cf cs n t, cn_use_nonce cf = true -> op_nonce (cn_options cf) = None ->
  lookup (lit "oauth_nonce") (said (sent_by cf n t cs))
  = map (fun i => nonce_of_bytes (random_bytes (cn_env cf) i)) (seq n (count_occ proto_eq_dec (call_protos cs) PNonce)).
Proof.
  intros cf cs n t HU HO. revert n t. induction cs as [|x cs IH]; intros n t; [reflexivity|].
  cbn [sent_by]. unfold said in *. rewrite map_app, lookup_app, IH. change (x :: cs) with ([x] ++ cs).
  rewrite call_protos_app, count_occ_app.
  destruct x as [k w|k w|q]; try reflexivity. cbn [call_protos flat_map app].
  destruct q; try (cbn; rewrite ?HU; destruct (sent _ _ _ _); reflexivity); try reflexivity;
    try (cbn [sent]; match goal with |- context [match ?x with Some _ => _ | None => _ end] => destruct x; reflexivity end).
  cbn [sent]. rewrite HU. unfold nonce_value. rewrite HO. reflexivity.
Qed.

Lemma fresh_times : forall cf cs n t, cn_use_timestamp cf = true -> op_timestamp (cn_options cf) = None ->
  lookup (lit "oauth_timestamp") (said (sent_by cf n t cs))
  = map (fun i => decimal (seconds (env_clock (cn_env cf) i))) (seq t (count_occ proto_eq_dec (call_protos cs) PTimestamp)).
Proof.
  intros cf cs n t HU HO. revert n t. induction cs as [|x cs IH]; intros n t; [reflexivity|].
  cbn [sent_by]. unfold said in *. rewrite map_app, lookup_app, IH. change (x :: cs) with ([x] ++ cs).
  rewrite call_protos_app, count_occ_app.
  destruct x as [k w|k w|q]; try reflexivity. cbn [call_protos flat_map app].
  destruct q; try reflexivity;
    try (cbn [sent]; match goal with |- context [match ?x with Some _ => _ | None => _ end] => destruct x; reflexivity end).
  cbn [sent]. rewrite HU. unfold timestamp_value. rewrite HO. reflexivity.
Qed.

Theorem C93_fresh : forall e b name cs,
  (op_nonce (bd_options b) = None -> lookup (lit "oauth_nonce") (said (sent_by (conf_of name e b) 0 0 cs))
     = map (fun i => nonce_of_bytes (random_bytes e i)) (seq 0 (count_occ proto_eq_dec (call_protos cs) PNonce)))
  /\ (op_timestamp (bd_options b) = None -> lookup (lit "oauth_timestamp") (said (sent_by (conf_of name e b) 0 0 cs))
     = map (fun i => decimal (seconds (env_clock e i))) (seq 0 (count_occ proto_eq_dec (call_protos cs) PTimestamp))).
Proof. intros e b name cs. split; intros H; [apply (fresh_nonces (conf_of name e b))|apply (fresh_times (conf_of name e b))]; auto. Qed.
Print Assumptions C93_fresh.

(** The example in the documentation of [Serializer]. *)
Definition doc_calls : list call :=
  [CParam (lit "abc") (s2d "value"); CParam (lit "lmn") (s2d "something")] ++ map CProto all_protos
  ++ [CParam (lit "qrs") (s2d "stuff"); CParam (lit "xyz") (s2d "blah-blah")].

Definition doc_serializer_builder : Builder :=
  Builder_timestamp (Some 1234567890%N) (Builder_nonce (Some (lit "mo8_whwD5c91")) doc_builder).

Example C93_example_doc :
  Builder_get dbg_std env0 doc_serializer_builder (s2d "https://example.com/api/v1/get.json") (of_calls doc_calls)
  = Ok (lit "OAuth oauth_consumer_key=""consumer_key"",oauth_nonce=""mo8_whwD5c91"",oauth_signature_method=""HMAC-SHA1"",oauth_timestamp=""1234567890"",oauth_token=""token"",oauth_signature=""eC5rUmIcYvAaIIWCIvOwhgUDByk%3D""").
Proof. vm_compute. reflexivity. Qed.

(** A request that forgets nonce and timestamp, and asks twice for the consumer key: a build without a clock will do,
    and the server accepts what it signed. *)
Definition careless : list call :=
  [CParam (lit "a") (s2d "b c"); CProto PConsumerKey; CProto PConsumerKey; CProto PSignatureMethod; CProto PToken;
   CParamEnc (lit "z") (s2d "%20")].
Definition careless_params : list pair := [(lit "a", lit "b c"); (lit "z", lit " ")].

Example C93_example_careless :
  let c := {| cf_debug := true; cf_alloc := true; cf_std := false |} in
  match Builder_authorize c env0 doc_builder (lit "POST") (s2d "http://example.com/x") (of_calls careless), to_form (of_calls careless) with
  | Ok header, Ok body =>
      option_map (map fst) (server_check (hmac_check (client_secret doc_builder) (token_secret doc_builder)) (lit "POST")
        (lit "http://example.com/x") (Some header) body)
      = Some [lit "oauth_consumer_key"; lit "oauth_consumer_key"; lit "oauth_signature_method"; lit "oauth_token";
              lit "oauth_signature"; lit "a"; lit "z"]
  | _, _ => False
  end.
Proof. vm_compute. reflexivity. Qed.

Example C93_example_meets :
  let cf := conf_of (lit "HMAC-SHA1") env0 doc_builder in
  Forall displays_ok careless /\ carries careless careless_params /\ safe_keys careless_params /\ no_oauth_keys careless_params
  /\ StronglySorted pair_le (signed_by cf 0 0 careless) /\ normal_method (lit "POST") /\ normal_uri (lit "http://example.com/x")
  /\ ~ In PTimestamp (call_protos careless) /\ method_calls careless = 1.
Proof.
  cbv zeta. split. { repeat constructor. }
  split; [reflexivity|]. split. { repeat constructor; now apply safe_name. }
  split. { repeat constructor; cbn [fst]; intros H; vm_compute in H; repeat (destruct H as [H|H]; [discriminate|]); exact H. }
  split. { set (x := signed_by _ _ _ _). vm_compute in x. subst x. repeat constructor. }
  split; [reflexivity|]. split. { split; [reflexivity|]. intros H. vm_compute in H. repeat (destruct H as [H|H]; [discriminate|]). exact H. }
  split; [|reflexivity]. intros H. vm_compute in H. repeat (destruct H as [H|H]; [discriminate|]). exact H.
Qed.

(** Two nonces in one request differ. *)
Example C93_example_nonces :
  let e := {| env_clock := fun _ => Some 1%N; env_rng := fun n _ => if n =? 0 then x01 else x02 |} in
  lookup (lit "oauth_nonce") (said (sent_by (conf_of (lit "HMAC-SHA1") e (Builder_nonce None doc_builder)) 0 0 [CProto PNonce; CProto PNonce]))
  = [lit "AQEBAQEBAQEB"; lit "AgICAgICAgIC"].
Proof. vm_compute. reflexivity. Qed.

(** Calls out of order: the signature is not that of what is sent (release builds; debug builds panic). *)
Example C93_example_order :
  let c := {| cf_debug := false; cf_alloc := true; cf_std := true |} in
  let cs := [CProto PSignatureMethod; CProto PConsumerKey] in
  match Builder_authorize c env0 doc_builder (lit "POST") (s2d "http://example.com/x") (of_calls cs) with
  | Ok header => server_check (hmac_check (client_secret doc_builder) (token_secret doc_builder)) (lit "POST")
        (lit "http://example.com/x") (Some header) [] = None
  | _ => False
  end.
Proof. vm_compute. reflexivity. Qed.

(** ** Any signature method *)

Lemma steps_fed : forall cf cs n n' t t', same_counters cf n n' t t' ->
  map st_feed (all_steps cf n t cs) = fed_by cf n' t' cs.
Proof.
  intros cf. induction cs as [|x cs IH]; intros n n' t t' H; [reflexivity|].
  cbn [all_steps fed_by]. rewrite map_app, (IH _ _ _ _ (same_next cf n n' t t' x H)). f_equal.
  destruct x as [k v|k v|p]; try reflexivity. cbn [steps_of]. rewrite (sent_same cf n n' t t' p H).
  destruct p; try (destruct (sent cf n' t' _); reflexivity). cbn [sent].
  destruct (cn_use_timestamp cf) eqn:E; [|reflexivity]. cbn [map st_feed feed_of]. do 2 f_equal.
  destruct H as [_ HT]. unfold timestamp_value. destruct (op_timestamp (cn_options cf)) eqn:EO; auto. now rewrite (HT E eq_refl).
Qed.

Lemma manual_documented : forall cf method uri cs,
  start_calls method uri ++ feeds false (all_steps cf 0 0 cs)
  = SMethod method :: SUri (PercentEncode uri) :: delimited (fed_by cf 0 0 cs).
Proof.
  intros cf method uri cs. unfold start_calls. cbn [app]. do 2 f_equal.
  now rewrite (proj1 (feeds_delimited _)), (steps_fed cf cs 0 0 0 0 (same_start cf)).
Qed.

Section AnyMethod.
  Variables (e : env) (b : Builder) (un ut : bool) (name : bytes).
  Hypothesis HF : constant_flags (bd_signature_method b) un ut name.
  Let cf := conf_with un ut name e b.

  Lemma any_manual : forall c r cs (data : Data StringW) method uri out, makes_calls r cs -> timestamp_available c cf ->
    (go c e b data method uri r = Ok out <->
     (cf_debug c = true -> ~ has_question (dtext uri) /\ dok uri)
     /\ (cf_alloc c = true -> cf_debug c = true -> ascending (map fst (signed_by cf 0 0 cs)))
     /\ exists s0 sf d,
          sm_sign_with (bd_signature_method b) (client_secret b) (token_secret b) = Ok s0
          /\ run_scalls s0 (SMethod method :: SUri (PercentEncode uri) :: delimited (fed_by cf 0 0 cs)) = Ok sf
          /\ sg_end sf = Ok d /\ dok d
          /\ out = data_buf data ++ added_text data (written (sent_by cf 0 0 cs)) (dtext d)).
  Proof.
    intros c r cs data method uri out HM HT. destruct HF as [P [P0 [P1 P2]]].
    assert (HS : steady P un ut name) by (constructor; auto; intros s Hs; apply P2; auto). split.
    - intros H. unfold go in H. apply rbind_ok in H as [s1 [H1 H2]]. apply make_sign_spec in H1 as [HQ [s0 [HS0 HS1]]].
      rewrite (HM (AuthorizerS (sm_sign (bd_signature_method b)) StringW c e)) in H2. cbn [sr_end AuthorizerS] in H2.
      assert (HP1 : P s1) by (eapply (run_scalls_steady P _ _ _ HS); [|exact HS1]; eapply P0; eauto).
      assert (HMt : matches e cf 0 0 (au_new (w := StringW) data s1 (bd_client b) (bd_token b) (bd_options b)))
        by (apply (matches_new e cf data s1 _ _ _ P); auto).
      pose proof (eq_trans (eq_sym (run_calls_end c e P cf HS HT cs 0 0 _ HMt HP1)) H2) as H3. clear H2.
      apply rbind_ok in H3 as [a1 [H3 H4]].
      apply do_steps_sound in H3 as [J1 [J2 J3]]; [|apply all_steps_shows_ok].
      cbn [au_new au_sign au_append_delim au_data au_prev_key] in J1, J2, J3.
      rewrite (steps_shown cf cs 0 0 0 0 (same_start cf)) in J2.
      apply au_end_string in H4 as [d [K1 [K2 K3]]]. split; [exact HQ|]. split.
      + intros HA HB. unfold order_ok in J3. rewrite HA, HB in J3. specialize (J3 eq_refl).
        rewrite (steps_keys cf cs 0 0 0 0 (same_start cf)) in J3. now apply ascending_nil_cons.
      + exists s0, (au_sign a1), d. split; [exact HS0|]. split; [|split; [exact K1|split; [exact K2|]]].
        * rewrite <- manual_documented, run_scalls_app, HS1. exact J1.
        * rewrite K3. now apply data_rel_string.
    - intros [HQ [HO [s0 [sf [d [S0 [S1 [S2 [HD ->]]]]]]]]].
      rewrite <- manual_documented in S1. rewrite run_scalls_app in S1. apply rbind_ok in S1 as [s1 [RS RF]].
      assert (HP1 : P s1) by (eapply (run_scalls_steady P _ _ _ HS); [|exact RS]; eapply P0; eauto).
      unfold go.
      assert (HMS : make_sign c (bd_signature_method b) method uri (bd_client b) (bd_token b) = Ok s1).
      { apply make_sign_spec. split; auto. exists s0. auto. }
      rewrite HMS. cbn [rbind].
      rewrite (HM (AuthorizerS (sm_sign (bd_signature_method b)) StringW c e)). cbn [sr_end AuthorizerS].
      assert (HMt : matches e cf 0 0 (au_new (w := StringW) data s1 (bd_client b) (bd_token b) (bd_options b)))
        by (apply (matches_new e cf data s1 _ _ _ P); auto).
      etransitivity; [exact (run_calls_end c e P cf HS HT cs 0 0 _ HMt HP1)|].
      destruct (do_steps_complete c (all_steps cf 0 0 cs)
                  (au_new (w := StringW) data s1 (bd_client b) (bd_token b) (bd_options b)) sf infallible_string
                  (all_steps_shows_ok cf cs 0 0) RF) as [a1 Ha].
      { intros HX. apply andb_true_iff in HX as [HX1 HX2]. cbn [au_new au_prev_key].
        rewrite (steps_keys cf cs 0 0 0 0 (same_start cf)). apply ascending_nil_cons. auto. }
      rewrite Ha. cbn [rbind]. apply do_steps_sound in Ha as [J1 [J2 _]]; [|apply all_steps_shows_ok].
      cbn [au_new au_sign au_append_delim au_data] in J1, J2. rewrite (steps_shown cf cs 0 0 0 0 (same_start cf)) in J2.
      rewrite RF in J1. inversion J1; subst sf. apply au_end_string. exists d. split; auto. split; auto.
      symmetry. now apply data_rel_string.
  Qed.

  Lemma any_manual_clock : forall c r cs (data : Data StringW) method uri out, makes_calls r cs ->
    go c e b data method uri r = Ok out -> In PTimestamp (call_protos cs) -> timestamp_available c cf.
  Proof.
    intros c r cs data method uri out HM H HI. unfold go in H.
    apply rbind_ok in H as [s1 [H1 H2]]. apply make_sign_spec in H1 as [HQ [s0 [HS0 HS1]]].
    rewrite (HM (AuthorizerS (sm_sign (bd_signature_method b)) StringW c e)) in H2.
    apply rbind_ok in H2 as [b1 [H2 _]]. destruct HF as [P [P0 [P1 P2]]].
    assert (HS : steady P un ut name) by (constructor; auto; intros s Hs; apply P2; auto).
    assert (HP1 : P s1) by (eapply (run_scalls_steady P _ _ _ HS); [|exact HS1]; eapply P0; eauto).
    apply (needs_clock c e P un ut name HS cs _ b1) in H2; auto.
  Qed.

  Lemma any_manual_go : forall c r cs (data : Data StringW) method uri out, makes_calls r cs ->
    (go c e b data method uri r = Ok out <->
     (In PTimestamp (call_protos cs) -> timestamp_available c cf)
     /\ (cf_debug c = true -> ~ has_question (dtext uri) /\ dok uri)
     /\ (cf_alloc c = true -> cf_debug c = true -> ascending (map fst (signed_by cf 0 0 cs)))
     /\ exists s0 sf d,
          sm_sign_with (bd_signature_method b) (client_secret b) (token_secret b) = Ok s0
          /\ run_scalls s0 (SMethod method :: SUri (PercentEncode uri) :: delimited (fed_by cf 0 0 cs)) = Ok sf
          /\ sg_end sf = Ok d /\ dok d
          /\ out = data_buf data ++ added_text data (written (sent_by cf 0 0 cs)) (dtext d)).
  Proof.
    intros c r cs data method uri out HM. destruct (proto_in_dec PTimestamp (call_protos cs)) as [HI|HI].
    - split.
      + intros H. pose proof (any_manual_clock c r cs data method uri out HM H HI) as HT. split; [auto|].
        exact (proj1 (any_manual c r cs data method uri out HM HT) H).
      + intros [HT H]. exact (proj2 (any_manual c r cs data method uri out HM (HT HI)) H).
    - rewrite (go_std c e b StringW data method uri r cs HM HI).
      rewrite (any_manual (with_std c) r cs data method uri out HM (or_introl eq_refl)). cbn [with_std cf_debug cf_alloc].
      split; [intros H; split; [now intros ?|exact H]|intros [_ H]; exact H].
  Qed.
End AnyMethod.

(** For every signature method, user-defined ones included: it is fed one call per parameter sent, with delimiters
    between them, and its signature goes into the header. *)
Theorem C93_any_method : forall c e b un ut name r cs method uri out,
  constant_flags (bd_signature_method b) un ut name -> makes_calls r cs ->
  (Builder_authorize c e b method uri r = Ok out <->
   (In PTimestamp (call_protos cs) -> timestamp_available c (conf_with un ut name e b))
   /\ (cf_debug c = true -> ~ has_question (dtext uri) /\ dok uri)
   /\ (cf_alloc c = true -> cf_debug c = true -> ascending (map fst (signed_by (conf_with un ut name e b) 0 0 cs)))
   /\ exists s0 sf d,
        sm_sign_with (bd_signature_method b) (client_secret b) (token_secret b) = Ok s0
        /\ run_scalls s0 (SMethod method :: SUri (PercentEncode uri) :: delimited (fed_by (conf_with un ut name e b) 0 0 cs)) = Ok sf
        /\ sg_end sf = Ok d /\ dok d
        /\ out = header_text (written (sent_by (conf_with un ut name e b) 0 0 cs)) (dtext d)).
Proof.
  intros c e b un ut name r cs method uri out HF HM. rewrite authorize_go.
  exact (any_manual_go e b un ut name HF c r cs _ method uri out HM).
Qed.
Print Assumptions C93_any_method.

(** A method without nonce, a request that asks for two timestamps and nothing else. *)
Example C93_example_method :
  let e := {| env_clock := fun t => Some (N.of_nat t); env_rng := fun _ _ => x01 |} in
  let b := Builder_timestamp None (with_method (TraceMethod false true (lit "X") (fun tr => dstr (decimal (N.of_nat (length (tr_calls tr)))))) doc_builder) in
  constant_flags (bd_signature_method b) false true (lit "X")
  /\ Builder_get dbg_std e b (s2d "http://h/") (of_calls [CProto PNonce; CProto PTimestamp; CProto PTimestamp])
     = Ok (lit "OAuth oauth_timestamp=""0"",oauth_timestamp=""1"",oauth_signature=""5""").
Proof. split; [apply constant_trace|vm_compute; reflexivity]. Qed.

(** ** Driving a serializer without a request *)

(** Creating an [Authorizer], making calls and ending it is authorizing a request that makes the calls. *)
Theorem C93_authorizer : forall c e sm client token options method cs,
  let b := {| bd_signature_method := sm; bd_client := client; bd_token := token; bd_options := options |} in
  let drive (w : Writer) (new : res (Authorizer (sm_sign sm) w)) : res w :=
    s <- new ;; s <- run_calls (S := AuthorizerS (sm_sign sm) w c e) cs s ;; sr_end (s : AuthorizerS (sm_sign sm) w c e) in
  (forall uri, drive StringW (authorization c sm method uri client token options) = Builder_authorize c e b method uri (of_calls cs))
  /\ (forall uri, drive StringW (form c sm method uri client token options) = Builder_to_form c e b method uri (of_calls cs))
  /\ (forall (w : Writer) (show : w -> disp) (uri : w),
        drive w (query c sm show method uri client token options) = Builder_to_query c e show b method uri (of_calls cs))
  /\ (forall (w : Writer) (buf : w) uri,
        drive w (authorization_with_buf c sm buf method uri client token options)
        = Builder_authorize_with_buf c e b buf method uri (of_calls cs))
  /\ (forall (w : Writer) (buf : w) uri,
        drive w (form_with_buf c sm buf method uri client token options)
        = Builder_to_form_with_buf c e b buf method uri (of_calls cs)).
Proof.
  intros c e sm client token options method cs b drive.
  unfold Builder_authorize, Builder_to_form, Builder_to_query, Builder_authorize_with_buf, Builder_to_form_with_buf.
  rewrite Credentials_as_ref_id, Credentials_as_ref_id_opt. repeat split.
Qed.
Print Assumptions C93_authorizer.

Example C93_example_authorizer :
  (s <- authorization dbg_std HMAC_SHA1 (lit "GET") (s2d "https://example.com/api/v1/get.json")
          (Cred (lit "consumer_key") (lit "consumer_secret")) (Some (Cred (lit "token") (lit "token_secret")))
          (set_timestamp (Some 1234567890%N) (set_nonce (Some (lit "mo8_whwD5c91")) Options_new)) ;;
   s <- run_calls (S := AuthorizerS _ StringW dbg_std env0) doc_calls s ;; sr_end (s : AuthorizerS _ StringW dbg_std env0))
  = Ok (lit "OAuth oauth_consumer_key=""consumer_key"",oauth_nonce=""mo8_whwD5c91"",oauth_signature_method=""HMAC-SHA1"",oauth_timestamp=""1234567890"",oauth_token=""token"",oauth_signature=""eC5rUmIcYvAaIIWCIvOwhgUDByk%3D""").
Proof. vm_compute. reflexivity. Qed.
