(** C100: which requests that RFC 5849 does not allow the example server serves. *)
From Coq Require Import String.
From Coq Require Import Lia Arith Sorted Permutation NArith ZifyN.
From Verif Require Import Bytes Crypto Spec MFmt MPercent MSerializer MSign MRequest MCredentials MAuth MBuilder
  SpecFmt SpecCalls SpecCalls2 SpecAuth SpecBuild SpecForm SpecServer SpecParams SpecSign SpecHttp
  LBytes LFmt LPercent LBase LBase2 LCrypto LAuth LForm LServer ModelTests MHttp LHttp LText MServer LGrammar SpecExample LExample LExample2 MClient LExample3
  PropsExample PropsHeader SpecValid.
Local Open Scope nat_scope.

(** ** Requests that are not valid are served *)

(** A request of this crate: the header has "oauth_version=1.0" and the query, where the parameters of the request are,
    has another version. *)
Definition c100_request : Request := AssertSorted true [kvs "oauth_version" "0.9"].
Definition c100_builder : Builder := Builder_version true echo_builder.
Definition c100_sent : http_request :=
  match Builder_authorize dbg_std env0 c100_builder (lit "GET") (dstr echo_uri) c100_request, to_query echo_uri c100_request with
  | Ok header, Ok uri => query_request (lit "GET") (lit "/echo") header (uri_query uri)
  | _, _ => query_request [] [] [] None
  end.

Lemma c100_parts : exists header, oauth_header false (rq_authorization c100_sent) header
  /\ In (lit "oauth_version", lit "1.0") header /\ rq_query c100_sent = Some (lit "oauth_version=0.9")
  /\ form_body c100_sent [].
Proof.
  destruct (collect_auth_params false (rq_authorization c100_sent)) as [h|] eqn:E; [|vm_compute in E; discriminate E].
  exists h. split; [now apply collect_auth_iff|]. split; [|split; [vm_compute; reflexivity|apply fb_other; vm_compute; discriminate]].
  assert (X : existsb (fun p => bseqb (fst p) (lit "oauth_version") && bseqb (snd p) (lit "1.0")) h = true).
  { assert (Y : match collect_auth_params false (rq_authorization c100_sent) with
                | Some h => existsb (fun p => bseqb (fst p) (lit "oauth_version") && bseqb (snd p) (lit "1.0")) h
                | None => false end = true) by (vm_compute; reflexivity). now rewrite E in Y. }
  apply existsb_exists in X as [[k v] [HI X]]. apply andb_prop in X as [X1 X2]. apply bseqb_eq in X1, X2. cbn [fst snd] in *. now subst.
Qed.

(** False: this request is served, though it has a parameter twice, in two places, and a version that is not "1.0". *)
Theorem C100_refuted : exists wd req l resp, libraries_ok wd /\ request_params (wd_empty_ok wd) req l
  /\ service wd req = Done_ resp /\ rs_status resp = StOk
  /\ ~ each_once l /\ ~ version_1 l /\ ~ one_place (wd_empty_ok wd) req.
Proof.
  destruct c100_parts as [header [H1 [H2 [H3 H4]]]].
  destruct (service (a_world true 1020 false) c100_sent) as [resp|] eqn:ES; [|vm_compute in ES; discriminate ES].
  assert (HQ : form_reads_as (match rq_query c100_sent with Some q => q | None => [] end) [(lit "oauth_version", lit "0.9")]).
  { rewrite H3. apply form_reads_iff. vm_compute. reflexivity. }
  exists (a_world true 1020 false), c100_sent, (header ++ [] ++ [(lit "oauth_version", lit "0.9")]), resp.
  split; [apply a_world_ok|]. split; [exists header, [], [(lit "oauth_version", lit "0.9")]; auto|].
  split; [exact ES|]. split.
  { assert (Y : match service (a_world true 1020 false) c100_sent with
                | Done_ r => match rs_status r with StOk => true | _ => false end | Crash _ => false end = true) by (vm_compute; reflexivity).
    rewrite ES in Y. destruct (rs_status resp); try discriminate Y. reflexivity. }
  assert (N : In (lit "oauth_version") oauth_names) by (vm_compute; tauto).
  split; [|split].
  - intros X. specialize (X _ N). rewrite filter_app, app_length in X. cbn [app filter] in X.
    change (has_key (lit "oauth_version") (lit "oauth_version", lit "0.9")) with true in X. cbv iota in X. cbn [length] in X.
    assert (Y : In (lit "oauth_version", lit "1.0") (filter (has_key (lit "oauth_version")) header)).
    { apply filter_In. split; [exact H2|reflexivity]. }
    destruct (filter _ header); [contradiction|cbn [length] in X; lia].
  - intros X. assert (Y : lit "0.9" = lit "1.0") by (apply X, in_app_iff; right; left; reflexivity). discriminate Y.
  - intros X. destruct (X _ _ _ H1 H4 HQ) as [_ [Y _]]. apply Y. split; exists (lit "oauth_version"); (split; [exact N|]).
    + apply in_map_iff. exists (lit "oauth_version", lit "1.0"). split; [reflexivity|exact H2].
    + left. reflexivity.
Qed.
Print Assumptions C100_refuted.

(** In general: whatever versions a request has, and whatever tokens it has besides the right one (none smaller), there is a
    signature with which it is served. *)
Definition with_extra (now : N) (versions tokens : list bytes) : list pair :=
  [(lit "oauth_consumer_key", lit "client"); (lit "oauth_nonce", lit "n"); (lit "oauth_signature_method", lit "HMAC-SHA1");
   (lit "oauth_timestamp", decimal now); (lit "oauth_token", lit "token")]
  ++ map (fun v => (lit "oauth_version", v)) versions ++ map (fun v => (lit "oauth_token", v)) tokens.

Theorem C100_any_refuted : forall wd now versions tokens, libraries_ok wd -> wd_now wd = Some now -> (now + 30 < 2 ^ 64)%N ->
  Forall utf8 versions -> Forall utf8 tokens -> Forall (fun t => bleb (lit "token") t = true) tokens ->
  exists req signature resp,
    request_params (wd_empty_ok wd) req ((lit "oauth_signature", signature) :: with_extra now versions tokens)
    /\ service wd req = Done_ resp /\ rs_status resp = StOk.
Proof.
  intros wd now versions tokens [HS HB] HN HL HV HT HM.
  set (l0 := with_extra now versions tokens).
  set (sig := base64 b64_std true (hmac_sha1 (plain_key (lit "client_secret") (lit "token_secret"))
                (raw_base_string (lit "GET") (origin ++ lit "/echo") l0))).
  set (l := (lit "oauth_signature", sig) :: l0).
  set (req := {| rq_method := lit "GET"; rq_path := lit "/echo"; rq_query := Some (urlencoded_to_string l);
                 rq_authorization := []; rq_content_type := None; rq_body := Some [] |}).
  assert (IM : forall (K : bytes) (xs : list bytes) k v, In (k, v) (map (fun v => (K, v)) xs) <-> k = K /\ In v xs).
  { intros K xs k v. rewrite in_map_iff. split.
    - intros [x [E H]]. inversion E. subst. auto.
    - intros [-> H]. exists v. auto. }
  assert (HI : forall k v, In (k, v) l <->
     (k = lit "oauth_signature" /\ v = sig) \/ (k = lit "oauth_consumer_key" /\ v = lit "client") \/ (k = lit "oauth_nonce" /\ v = lit "n")
     \/ (k = lit "oauth_signature_method" /\ v = lit "HMAC-SHA1") \/ (k = lit "oauth_timestamp" /\ v = decimal now)
     \/ (k = lit "oauth_token" /\ v = lit "token") \/ (k = lit "oauth_version" /\ In v versions) \/ (k = lit "oauth_token" /\ In v tokens)).
  { intros k v. unfold l, l0, with_extra. cbn [In app]. rewrite in_app_iff, !IM.
    assert (P : forall a b : bytes, (a, b) = (k, v) <-> k = a /\ v = b).
    { intros a b. split; [intros E; inversion E; auto|intros [-> ->]; reflexivity]. }
    rewrite !P. tauto. }
  assert (HD : forall x, In x sig -> (bn x <? 128)%N = true).
  { intros x Hx. apply base64_chars in Hx; [|reflexivity].
    assert (Y : forallb (fun x => (bn x <? 128)%N) (b64_std ++ lit "=") = true) by reflexivity.
    rewrite forallb_forall in Y. apply Y, in_app_iff. destruct Hx as [Hx|[_ Hx]]; [now left|]. right. rewrite Hx. now left. }
  pose proof (decimal_spec now) as [D1 [D2 [D3 _]]].
  assert (HU : Forall utf8_pair l).
  { apply Forall_forall. intros [k v] H. split; cbn [fst snd]; apply HI in H.
    - decompose [or and] H; subst; now apply utf8_text.
    - decompose [or and] H; subst; try now apply utf8_text.
      + now apply utf8_text, forallb_forall.
      + apply utf8_text, forallb_forall. intros x Hx. rewrite forallb_forall in D2. apply D2 in Hx. revert Hx. now destruct x.
      + rewrite Forall_forall in HV. auto.
      + rewrite Forall_forall in HT. auto. }
  assert (HP : request_params (wd_empty_ok wd) req l).
  { exists [], [], l. split; [constructor|]. split; [apply fb_other; discriminate|]. split; [|reflexivity].
    apply form_reads_iff. now apply form_parse_urlencoded. }
  assert (R : forall v, bleb v v = true) by apply bleb_refl.
  assert (W : without_signature l = l0).
  { unfold without_signature, l. cbn [filter]. change (negb (has_key _ _)) with false at 1. cbv iota.
    assert (Q : forall m : list pair, (forall k v, In (k, v) m -> has_key (lit "oauth_signature") (k, v) = false) ->
      filter (fun p => negb (has_key (lit "oauth_signature") p)) m = m).
    { induction m as [|[a b] m IH]; intros H; [reflexivity|]. cbn [filter]. rewrite (H a b) by now left. cbn [negb]. f_equal.
      apply IH. intros k v H'. apply H. now right. }
    apply Q. intros k v H. unfold l0, with_extra in H. cbn [In app] in H. rewrite in_app_iff, !IM in H.
    decompose [or and] H; try (match goal with E : (_, _) = _ |- _ => inversion E; subst end; reflexivity); subst; reflexivity. }
  assert (HA : authentic wd req (Cred (lit "client") (lit "client_secret")) (Some (Cred (lit "token") (lit "token_secret"))) None l).
  { assert (GV : forall k v, In (k, v) l -> (forall v', In (k, v') l -> bleb v v' = true) -> has_value l k (Some v)) by (intros; now split).
    assert (V1 : has_value l (lit "oauth_timestamp") (Some (decimal now))).
    { apply GV; [apply HI; tauto|]. intros v' H. apply HI in H. decompose [or and] H; subst; auto; discriminate. }
    assert (V2 : has_value l (lit "oauth_signature") (Some sig)).
    { apply GV; [apply HI; tauto|]. intros v' H. apply HI in H. decompose [or and] H; subst; auto; discriminate. }
    assert (V3 : has_value l (lit "oauth_nonce") (Some (lit "n"))).
    { apply GV; [apply HI; tauto|]. intros v' H. apply HI in H. decompose [or and] H; subst; auto; discriminate. }
    assert (V4 : has_value l (lit "oauth_signature_method") (Some (lit "HMAC-SHA1"))).
    { apply GV; [apply HI; tauto|]. intros v' H. apply HI in H. decompose [or and] H; subst; auto; discriminate. }
    constructor; auto.
    - apply GV; [apply HI; tauto|]. intros v' H. apply HI in H. decompose [or and] H; subst; auto; discriminate.
    - apply GV; [apply HI; cbn [cr_identifier]; tauto|]. intros v' H. apply HI in H. rewrite Forall_forall in HM.
      decompose [or and] H; subst; cbn [cr_identifier]; auto; discriminate.
    - intros v H. apply HI in H. decompose [or and] H; discriminate.
    - right. exists (decimal now), now. split; [exact V1|]. split.
      + exists (decimal now). repeat split; auto. lia.
      + exists now. split; auto. destruct (wd_debug wd); [lia|]. rewrite N.mod_small by lia. lia.
    - apply (so_hmac _ _ _ _ _ sig (decimal now) (lit "n")); auto.
      + unfold sig. rewrite base64_20 by apply hmac_length. lia.
      + rewrite W. unfold sig. apply HB. }
  destruct (C56_complete wd req l (sort_pairs l) HS) as [resp [E1 [E2 _]]].
  - apply sv_echo; auto. now left.
  - intros X. discriminate X.
  - exists req, sig, resp. auto.
Qed.
Print Assumptions C100_any_refuted.
Example C100_example_any : libraries_ok (a_world true 1020 false) /\ wd_now (a_world true 1020 false) = Some 1020%N
  /\ Forall utf8 [lit "2.0"; lit "1.0"; []] /\ Forall (fun t => bleb (lit "token") t = true) [lit "token"; lit "zzz"].
Proof.
  split; [apply a_world_ok|]. split; [reflexivity|]. split; repeat constructor; now apply utf8_text.
Qed.

(** ** What the server looks at *)

Lemma params_fun : forall eo req l l', request_params eo req l -> request_params eo req l' -> l = l'.
Proof.
  intros eo req l l' [h [f [q [H1 [H2 [H3 ->]]]]]] [h' [f' [q' [H1' [H2' [H3' ->]]]]]].
  apply collect_auth_iff in H1, H1'. rewrite H1 in H1'. inversion H1'; subst h'.
  apply form_body_iff in H2 as [x [X1 ->]]. apply form_body_iff in H2' as [x' [X1' ->]]. rewrite X1 in X1'. inversion X1'; subst x'.
  apply form_reads_iff in H3, H3'. now subst.
Qed.

Lemma served_params : forall wd req l answer, served wd req l answer -> request_params (wd_empty_ok wd) req l.
Proof. intros wd req l answer H. destruct H as [l _ _ H|l _ _ H _|l _ _ H]; exact (ac_params _ _ _ _ _ _ H). Qed.

(** Apart from the signature, the server looks at the smallest values of four parameters only, and at the endpoint for
    temporary credentials at the callback: if a request is served, any other with these and a right signature is. *)
Theorem C100_ignored_partial : forall wd req l resp req' l', search_ok (wd_search wd) ->
  service wd req = Done_ resp -> rs_status resp = StOk -> request_params (wd_empty_ok wd) req l ->
  rq_method req' = rq_method req -> rq_path req' = rq_path req -> request_params (wd_empty_ok wd) req' l' ->
  agree "oauth_consumer_key" l l' -> agree "oauth_token" l l' -> agree "oauth_verifier" l l' -> agree "oauth_timestamp" l l' ->
  (forall v, In (lit "oauth_callback", v) l' <-> In (lit "oauth_callback", v) l) -> one_callback req l ->
  (forall client token, signature_ok wd req client token l -> signature_ok wd req' client token l') ->
  exists resp', service wd req' = Done_ resp' /\ rs_status resp' = StOk.
Proof.
  intros wd req l resp req' l' SO HE HK HL HM HP HR A1 A2 A3 A4 HC HO HS.
  destruct (C56_sound wd req resp SO HE HK) as [l0 [answer [H _]]].
  pose proof (params_fun _ _ _ _ (served_params _ _ _ _ H) HL). subst l0.
  assert (HA : forall client token verifier, authentic wd req client token verifier l -> authentic wd req' client token verifier l').
  { intros client token verifier [B1 B2 B3 B4 B5 B6]. constructor; auto.
    - now apply A1.
    - now apply A2.
    - now apply A3.
    - destruct B5 as [[B5 B7]|[s [t [B5 B7]]]]; [left; split; [now apply A4|exact B7]|right; exists s, t; split; [now apply A4|exact B7]]. }
  assert (X : exists answer', served wd req' l' answer').
  { destruct H as [l H1 H2 H3|l H1 H2 H3 H4|l H1 H2 H3].
    - eexists. apply sv_echo; [rewrite HM; exact H1|rewrite HP; exact H2|auto].
    - eexists. apply sv_temporary; [rewrite HM; exact H1|rewrite HP; exact H2|auto|now apply HC].
    - eexists. apply sv_token; [rewrite HM; exact H1|rewrite HP; exact H2|auto]. }
  destruct X as [answer' X]. destruct (C56_complete wd req' l' answer' SO X) as [resp' [E1 [E2 _]]].
  - intros Y v HI. apply HO; [now rewrite <- HP|now apply HC].
  - exists resp'. auto.
Qed.
Print Assumptions C100_ignored_partial.

(** For instance, with PLAINTEXT any version can be added. *)
Theorem C100_version_partial : forall wd req l resp req' l' v, search_ok (wd_search wd) ->
  service wd req = Done_ resp -> rs_status resp = StOk -> request_params (wd_empty_ok wd) req l -> one_callback req l ->
  has_value l (lit "oauth_signature_method") (Some (lit "PLAINTEXT")) ->
  rq_method req' = rq_method req -> rq_path req' = rq_path req ->
  request_params (wd_empty_ok wd) req' l' -> Permutation l' ((lit "oauth_version", v) :: l) ->
  exists resp', service wd req' = Done_ resp' /\ rs_status resp' = StOk.
Proof.
  intros wd req l resp req' l' v SO HE HK HL HO HV HM HP HR HQ.
  assert (IN : forall k x, lit "oauth_version" <> lit k -> In (lit k, x) l' <-> In (lit k, x) l).
  { intros k x HN. transitivity (In (lit k, x) ((lit "oauth_version", v) :: l)).
    { split; apply Permutation_in; [exact HQ|now apply Permutation_sym]. }
    cbn [In]. split; [|auto]. intros [E|E]; [|exact E]. exfalso. apply HN. congruence. }
  assert (AG : forall k, lit "oauth_version" <> lit k -> agree k l l').
  { intros k HN o. destruct o as [x|]; cbn [has_value].
    - rewrite IN by exact HN. split; intros [A B]; (split; [exact A|]); intros x' HI; apply B; now apply IN.
    - split; intros A x HI; apply (A x); now apply IN. }
  apply (C100_ignored_partial wd req l resp req' _ SO HE HK HL HM HP HR).
  - apply AG. discriminate.
  - apply AG. discriminate.
  - apply AG. discriminate.
  - apply AG. discriminate.
  - intros x. apply IN. discriminate.
  - exact HO.
  - intros client token HS. inversion HS as [s t n S1 S2 S3 S4 S5 S6|s S1 S2].
    + pose proof (has_value_fun _ _ _ _ HV S1). discriminate.
    + apply (so_plaintext _ _ _ _ _ s); [apply AG; [discriminate|exact S1]|apply AG; [discriminate|exact S2]].
Qed.
Print Assumptions C100_version_partial.
Definition c100_plain (query : option bytes) : http_request :=
  query_request (lit "GET") (lit "/echo") (plaintext_header (lit "s")) query.
Example C100_example_version : forallb (fun q => match service (a_world true 1020 false) (c100_plain q) with
  | Done_ resp => match rs_status resp with StOk => true | _ => false end
  | Crash _ => false end) [None; Some (lit "oauth_version=2.0"); Some (lit "oauth_version=x&oauth_token=zzz")] = true.
Proof. vm_compute. reflexivity. Qed.

(** The value of a parameter that is there once is the value. *)
Theorem C100_value_partial : forall l k v, each_once l -> In k oauth_names -> (has_value l k (Some v) <-> In (k, v) l).
Proof.
  intros l k v HO HN. split; [now intros [H _]|]. intros H. split; [exact H|]. intros v' H'. specialize (HO k HN).
  assert (F : forall x, In (k, x) l -> In (k, x) (filter (has_key k) l)).
  { intros x Hx. apply filter_In. split; [exact Hx|]. unfold has_key. apply bseqb_refl. }
  apply F in H. apply F in H'. destruct (filter (has_key k) l) as [|a [|b m]]; [contradiction| |cbn [length] in HO; lia].
  destruct H as [->|[]]. destruct H' as [H'|[]]. inversion H'. apply bleb_refl.
Qed.
Print Assumptions C100_value_partial.

(** ** What this crate sends is valid *)

Local Notation hmac_conf e b := (conf_of (lit "HMAC-SHA1") e b).

Lemma no_oauth_names : forall l k, no_oauth_keys l -> In k oauth_names -> ~ In k (map fst l).
Proof.
  intros l k HO HN HI. apply in_map_iff in HI as [p [<- HI]]. unfold no_oauth_keys in HO. rewrite Forall_forall in HO.
  apply (HO p HI). revert HN. generalize (fst p). intros k H.
  assert (Y : forallb (fun k => existsb (bseqb k) oauth_keys) oauth_names = true) by (vm_compute; reflexivity).
  rewrite forallb_forall in Y. apply Y in H. apply existsb_exists in H as [k' [H1 H2]]. apply bseqb_eq in H2. now subst.
Qed.

Lemma flat_keys : forall (ps : list proto) (g : proto -> option bytes), NoDup (map proto_key ps) ->
  let l := flat_map (fun p => match g p with Some v => [(proto_key p, v)] | None => [] end) ps in
  NoDup (map fst l) /\ incl (map fst l) (map proto_key ps).
Proof.
  intros ps g. induction ps as [|p ps IH]; intros H; cbn [flat_map map]; [split; [constructor|intros x []]|].
  inversion H as [|x y H1 H2]; subst. destruct (IH H2) as [I1 I2]. destruct (g p) as [v|]; cbn [app map].
  - split; [constructor; auto|]. intros x [<-|Hx]; [now left|right; auto].
  - split; [auto|]. intros x Hx. right. auto.
Qed.

Lemma sent_nodup : forall cf sig, NoDup (map fst (sent_params cf sig)).
Proof.
  intros cf sig. unfold sent_params. rewrite map_app. cbn [map fst].
  destruct (flat_keys all_protos (sent cf 0 0)) as [H1 H2].
  { cbn [map all_protos]. repeat (constructor; [intros H; cbn [In] in H; decompose [or] H; try discriminate; contradiction|]). constructor. }
  eapply Permutation_NoDup; [apply Permutation_cons_append|]. constructor; [|exact H1]. intros X. apply H2 in X.
  cbn [map all_protos In] in X. decompose [or] X; try discriminate; contradiction.
Qed.

Lemma nodup_once : forall l k, NoDup (map fst l) -> length (filter (has_key k) l) <= 1.
Proof.
  induction l as [|[a b] l IH]; intros k H; [cbn; lia|]. cbn [map fst] in H. inversion H as [|x y H1 H2]; subst.
  cbn [filter]. unfold has_key at 1. cbn [fst]. destruct (bseqb a k) eqn:E; [|auto]. apply bseqb_eq in E. subst.
  cbn [length]. assert (Z : filter (has_key k) l = []); [|rewrite Z; cbn; lia].
  clear IH H H2. induction l as [|[a' b'] l IH]; [reflexivity|]. cbn [filter]. unfold has_key at 1. cbn [fst].
  destruct (bseqb a' k) eqn:E; [apply bseqb_eq in E; subst; exfalso; apply H1; now left|]. apply IH. intros X. apply H1. now right.
Qed.

Lemma absent_never : forall l k, ~ In k (map fst l) -> filter (has_key k) l = [].
Proof.
  induction l as [|[a b] l IH]; intros k H; [reflexivity|]. cbn [filter]. unfold has_key at 1. cbn [fst].
  destruct (bseqb a k) eqn:E; [apply bseqb_eq in E; subst; exfalso; apply H; now left|]. apply IH. intros X. apply H. now right.
Qed.

Lemma sent_version : forall cf sig, version_1 (sent_params cf sig).
Proof.
  intros cf sig v HI. unfold sent_params in HI. apply in_app_iff in HI as [HI|[HI|[]]]; [|discriminate HI].
  unfold protocol_pairs in HI. apply in_flat_map in HI as [p [_ HI]].
  destruct (sent cf 0 0 p) as [w|] eqn:EW; [|contradiction]. destruct HI as [HI|[]].
  destruct p; try discriminate HI. inversion HI; subst. cbn [sent] in EW.
  destruct (op_version _); [now inversion EW|discriminate].
Qed.

(** What a builder with HMAC-SHA1 or RSA-SHA1 writes is valid, in the header, the form and the query. *)
Theorem C100_sent_partial : forall c e b name f r cs method uri header body uri',
  builtin (bd_signature_method b) name true f ->
  makes_calls r cs -> call_protos cs = all_protos -> ~ In "?"%byte uri ->
  Builder_authorize c e b method (dstr uri) r = Ok header ->
  Builder_to_form c e b method (dstr uri) r = Ok body ->
  Builder_to_query c e (w := StringW) dstr b method uri r = Ok uri' ->
  exists l, parse_header header = Some l /\ parse_form body = Some l /\ parse_uri uri' = Some (uri, l)
    /\ each_once l /\ version_1 l.
Proof.
  intros c e b name f r cs method uri header body uri' HB HM HP HQ E1 E2 E3.
  destruct (C26_parse c e b name f r cs method uri header body uri' HB HM HP HQ E1 E2 E3) as [sig [X1 [X2 X3]]].
  exists (sent_params (conf_of name e b) sig). split; [exact X1|]. split; [exact X2|]. split; [exact X3|]. split.
  - intros k _. apply nodup_once, sent_nodup.
  - apply sent_version.
Qed.
Print Assumptions C100_sent_partial.
Example C100_example_sent :
  builtin (bd_signature_method c100_builder) (lit "HMAC-SHA1") true (fun cs ts text => Some (pct_encode (hmac_signature cs ts text)))
  /\ match Builder_authorize dbg_std env0 c100_builder (lit "POST") (dstr echo_uri) c55_request,
           Builder_to_form dbg_std env0 c100_builder (lit "POST") (dstr echo_uri) c55_request with
     | Ok header, Ok body => match parse_header header, parse_form body with
                             | Some l, Some l' => Nat.eqb (length l) 7 && Nat.eqb (length l') 7
                             | _, _ => false
                             end
     | _, _ => false
     end = true.
Proof. split; [|vm_compute; reflexivity]. exact bi_hmac. Qed.

(** The names of the request's own parameters aside (see C53), whatever the crate sends is valid, with any configuration. *)
Theorem C100_crate_partial : forall c e b wd r l method path d,
  compatible c e b wd -> raw_honest r l -> normal_method method -> Forall utf8_pair l ->
  plain_path path -> dok d -> dtext d = origin ++ path ->
  exists header body uri, Builder_authorize c e b method d r = Ok header /\ to_form r = Ok body
    /\ to_query (origin ++ path) r = Ok uri
    /\ forall req, req = form_request method path header body \/ req = query_request method path header (uri_query uri) ->
       one_place (wd_empty_ok wd) req
       /\ exists l', request_params (wd_empty_ok wd) req l' /\ each_once l' /\ version_1 l'.
Proof.
  intros c e b wd r l method path d HC HR HM HU HP HD ED.
  destruct (C55_form c e b wd r l method path d HC HR HM HU HP HD ED) as [h [body [sig [E1 [E2 [_ E3]]]]]].
  destruct (C55_query c e b wd r l method path d HC HR HM HU HP HD ED) as [h' [uri [sig' [E4 [E5 [_ [_ E6]]]]]]].
  rewrite E1 in E4. inversion E4; subst h'. exists h, body, uri. split; [exact E1|]. split; [exact E2|]. split; [exact E5|].
  pose proof HR as [cs [M [P [A [D [CA [S [O R]]]]]]]].
  assert (LS : search_ok (wd_search wd)) by exact (proj1 (un_libraries _ _ _ _ (cp_understandable _ _ _ _ HC))).
  assert (EV : forall s, each_once (sent_params (hmac_conf e b) s ++ l) /\ version_1 (sent_params (hmac_conf e b) s ++ l)).
  { intros s. split.
    - intros k HN. rewrite filter_app, app_length, (absent_never l k) by now apply no_oauth_names.
      rewrite Nat.add_0_r. apply nodup_once, sent_nodup.
    - intros v HI. apply in_app_iff in HI as [HI|HI].
      + exact (sent_version _ _ _ HI).
      + exfalso. apply (no_oauth_names l (lit "oauth_version") O); [vm_compute; tauto|]. apply in_map_iff. now exists (lit "oauth_version", v). }
  assert (EP : forall m m', Permutation m m' -> each_once m /\ version_1 m -> each_once m' /\ version_1 m').
  { intros m m' HE [X1 X2]. split.
    - intros k HN. specialize (X1 k HN). rewrite <- (Permutation_length (filter_perm (has_key k) _ _ HE)). exact X1.
    - intros v HI. apply X2. now apply (Permutation_in _ (Permutation_sym HE)). }
  assert (EA : forall req s, (forall handler, verify_and_then wd req (bd_client b) (bd_token b) (op_verifier (bd_options b)) handler
       = Done_ (handler (sort_pairs (sent_params (hmac_conf e b) s ++ l)) (understood (hmac_conf e b) s))) ->
    exists l', request_params (wd_empty_ok wd) req l' /\ each_once l' /\ version_1 l').
  { intros req s X.
    assert (DEC : forall x y : list pair, {x = y} + {x <> y}) by (apply list_eq_dec; decide equality; apply (list_eq_dec Byte.byte_eq_dec)).
    set (want := sort_pairs (sent_params (hmac_conf e b) s ++ l)) in X.
    assert (Y := X (fun params _ => if DEC params want then urlencoded_response [] else fail StUnauthorized)).
    assert (Z := X (fun _ _ => urlencoded_response [])). rewrite verify_verdict in Y, Z. cbv beta in Y, Z.
    destruct (verdict wd req (bd_client b) (bd_token b) (op_verifier (bd_options b))) as [[code|[params oa]]|] eqn:EX; try discriminate.
    destruct (DEC want want) as [_|N]; [|contradiction]. destruct (DEC params want) as [EW|N]; [|discriminate Y].
    apply verdict_accept in EX as [l' [[B1 _ _ _ _ _] [B2 _]]]; [|exact LS]. exists l'. split; [exact B1|].
    apply (EP (sent_params (hmac_conf e b) s ++ l)); [|apply EV].
    eapply Permutation_trans; [apply LBase.sort_perm|]. fold want. rewrite <- EW, B2. apply Permutation_sym, LBase.sort_perm. }
  assert (NO : forall m, m = l \/ m = [] -> ~ exists k, In k oauth_names /\ In k (map fst m)).
  { intros m [->| ->] [k [K1 K2]]; [now apply (no_oauth_names l k)|contradiction]. }
  assert (ONE : forall req, (forall form, form_body req form -> form = l \/ form = []) ->
     (form_parse (match rq_query req with Some q => q | None => [] end) = l
      \/ form_parse (match rq_query req with Some q => q | None => [] end) = []) -> one_place (wd_empty_ok wd) req).
  { intros req X1 X2 header form query _ Y2 Y3. apply form_reads_iff in Y3. rewrite Y3 in X2. apply X1 in Y2.
    cbv zeta. split; [|split]; intros [Z1 Z2]; [now apply (NO form)|now apply (NO query)|now apply (NO query)]. }
  intros req [->| ->]; (split; [|eapply EA; eauto]).
  - apply ONE; [|right; reflexivity]. intros form X. left. inversion X as [body' form' T1 T2 T3|T1]; subst.
    2: { exfalso. apply T1. reflexivity. }
    cbn [rq_body form_request] in T2. inversion T2; subst. apply form_reads_iff in T3 as <-.
    apply (to_form_exact r cs _ M) in E2 as [_ ->]. rewrite CA. now apply form_parse_text.
  - apply ONE.
    + intros form X. right. inversion X as [body' form' T1 T2 T3|T1]; subst; [discriminate T1|reflexivity].
    + left. cbn [rq_query query_request]. apply (to_query_exact r cs _ _ M) in E5 as [_ ->]. rewrite CA.
      destruct l as [|p l'].
      * cbn [map query_text]. now rewrite uri_query_none.
      * change (query_text (origin ++ path) (map enc_value (p :: l')))
          with ((origin ++ path) ++ lit "?" ++ form_text (map enc_value (p :: l'))).
        rewrite <- app_assoc. rewrite uri_query_some by (auto; now apply form_text_no_hash). now apply form_parse_text.
Qed.
Print Assumptions C100_crate_partial.
Example C100_example_crate : compatible dbg_std env0 c100_builder (a_world true 1020 false)
  /\ raw_honest c55_request [(lit "a", lit "1 2"); (lit "c", lit "&="); (lit "c", lit "z"); (lit "p", lit "q")].
Proof.
  split; [|exact C55_example_honest].
  assert (HI := echo_compatible dbg_std env0 (a_world true 1020 false) C55_example_in_step).
  destruct HI as [[U1 U2 U3 U4 U5 U6] HS1 HS2]. constructor; [|exact HS1|exact HS2]. constructor; auto.
  - vm_compute. repeat constructor; now apply utf8_text.
  - right. repeat constructor; vm_compute; discriminate.
Qed.
