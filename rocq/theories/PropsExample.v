(** Properties C55-C62: the example server and client. *)
From Coq Require Import String.
From Coq Require Import Lia Arith Sorted Permutation NArith ZifyN.
From Verif Require Import Bytes Crypto Spec MFmt MPercent MSerializer MSign MRequest MCredentials MAuth MBuilder MSerde MDerive
  ModelTests SpecFmt SpecCalls SpecCalls2 SpecAuth SpecBuild SpecForm SpecServer SpecParams SpecSign SpecDerive SpecHttp
  LBytes LFmt LPercent LTrace LCrypto LAuth LSign LBuild LForm LBase2 LReq LReq2 LPanic LTop LParams LServer LDerive
  LBase PropsServer PropsDerive
  MHttp LHttp LText MServer LGrammar SpecExample LExample LExample2 MClient LExample3.

(** ** A world: linear search, and base 64 decoding that accepts exactly the encodings *)

Fixpoint linear_search (key : bytes) (params : list pair) : nat :=
  match params with
  | [] => 0
  | p :: params' => if bltb (fst p) key then S (linear_search key params') else 0
  end.
Fixpoint index_in (b : byte) (l : bytes) (n : N) : N :=
  match l with [] => n | a :: l' => if beqb a b then n else index_in b l' (n + 1) end.
Definition sextet (b : byte) : N := index_in b b64_std 0.
Fixpoint unbase64 (s : bytes) : bytes :=
  match s with
  | a :: b :: c :: d :: r =>
      let x := sextet a in let y := sextet b in let z := sextet c in let w := sextet d in
      if beqb c "=" then [n2b (x * 4 + y / 16)]
      else if beqb d "=" then [n2b (x * 4 + y / 16); n2b ((y mod 16) * 16 + z / 4)]
      else n2b (x * 4 + y / 16) :: n2b ((y mod 16) * 16 + z / 4) :: n2b ((z mod 4) * 64 + w) :: unbase64 r
  | _ => []
  end.
Definition base64_decode (s : bytes) : option bytes :=
  let x := unbase64 s in if bseqb (base64 b64_std true x) s then Some x else None.

Definition a_world (debug : bool) (now : N) (empty_ok : bool) : world :=
  {| wd_debug := debug; wd_now := Some now; wd_search := linear_search; wd_base64 := base64_decode;
     wd_empty_ok := empty_ok |}.

Lemma linear_search_ok : search_ok linear_search.
Proof.
  intros key params HA.
  assert (HF : Forall (fun p => bltb (fst p) key = true) (firstn (linear_search key params) params)
    /\ linear_search key params <= length params
    /\ match nth_error params (linear_search key params) with Some p => bltb (fst p) key = false | None => True end).
  { clear HA. induction params as [|p params IH]; [cbn; auto|]. cbn [linear_search].
    destruct (bltb (fst p) key) eqn:E.
    - destruct IH as [I1 [I2 I3]]. cbn [firstn nth_error length]. split; [now constructor|]. split; [lia|exact I3].
    - cbn. split; [constructor|]. split; [lia|exact E]. }
  destruct HF as [H1 [H2 H3]]. destruct (nth_error params (linear_search key params)) as [[k v]|] eqn:EN.
  - cbn [fst] in H3. destruct (bseqb k key) eqn:E.
    + apply bseqb_eq in E. subst. left. now exists v.
    + right. split; [|auto]. intros HI. apply in_map_iff in HI as [[k' v'] [E' HI]]. cbn [fst] in E'. subst.
      apply nth_error_split in EN as [l1 [l2 [E1 E2]]].
      assert (EF : firstn (linear_search key params) params = l1).
      { rewrite <- E2. rewrite E1. rewrite firstn_app, Nat.sub_diag, firstn_all. cbn [firstn]. apply app_nil_r. }
      rewrite EF in H1. clear EF E2. subst params. apply in_app_iff in HI as [HI|[HI|HI]].
      * rewrite Forall_forall in H1. apply H1 in HI. cbn [fst] in HI. now rewrite bltb_irrefl in HI.
      * inversion HI; subst. now rewrite bseqb_refl in E.
      * assert (HL : bleb k key = true).
        { clear - HA HI. rewrite map_app in HA. induction (map fst l1) as [|x xs IH]; cbn [app] in HA.
          - cbn [map fst] in HA. inversion HA as [|? ? A1 A2]; subst. rewrite Forall_forall in A2.
            apply A2. apply (in_map fst) in HI. exact HI.
          - inversion HA; subst. auto. }
        apply bleb_lt_or_eq in HL as [HL| ->]; [congruence|]. now rewrite bseqb_refl in E.
  - right. split; [|auto]. intros HI. apply in_map_iff in HI as [[k' v'] [E' HI]]. cbn [fst] in E'. subst.
    apply nth_error_None in EN. rewrite firstn_all2 in H1 by exact EN. rewrite Forall_forall in H1.
    apply H1 in HI. cbn [fst] in HI. now rewrite bltb_irrefl in HI.
Qed.

Lemma sextet_digit : forall n, (n < 64)%N -> sextet (b64_digit b64_std n) = n /\ beqb (b64_digit b64_std n) "=" = false.
Proof.
  intros n H.
  assert (HB : forallb (fun n => N.eqb (sextet (b64_digit b64_std n)) n && negb (beqb (b64_digit b64_std n) "="))
    (map N.of_nat (seq 0 64)) = true) by reflexivity.
  rewrite forallb_forall in HB.
  assert (HI : In n (map N.of_nat (seq 0 64))).
  { apply in_map_iff. exists (N.to_nat n). split; [lia|]. apply in_seq. lia. }
  apply HB in HI. apply andb_true_iff in HI as [H1 H2]. apply N.eqb_eq in H1. split; auto. now destruct (beqb _ _).
Qed.

Lemma n2b_eq : forall n b, n = bn b -> n2b n = b.
Proof. intros n b ->. destruct b; reflexivity. Qed.

Lemma unbase64_base64 : forall x, unbase64 (base64 b64_std true x) = x.
Proof.
  induction x as [|a|a b|a b c r IH] using list_ind3; [reflexivity| | |].
  - pose proof (bn_bound a). cbn [base64 app unbase64].
    change (lit "==") with ["="; "="]%byte. cbv iota. change (beqb "=" "=") with true. cbv iota zeta.
    destruct (sextet_digit (bn a / 4)) as [-> _]; [lia|]. destruct (sextet_digit ((bn a mod 4) * 16)) as [-> _]; [lia|].
    f_equal. apply n2b_eq. lia.
  - pose proof (bn_bound a). pose proof (bn_bound b). cbn [base64 app unbase64].
    destruct (sextet_digit (bn a / 4)) as [-> _]; [lia|].
    destruct (sextet_digit ((bn a mod 4) * 16 + bn b / 16)) as [-> _]; [lia|].
    destruct (sextet_digit ((bn b mod 16) * 4)) as [-> ->]; [lia|].
    change (lit "=") with ["="]%byte. cbv iota. change (beqb "=" "=") with true. cbv iota zeta.
    f_equal; [|f_equal].
    + apply n2b_eq. lia.
    + apply n2b_eq. lia.
  - pose proof (bn_bound a). pose proof (bn_bound b). pose proof (bn_bound c). cbn [base64 app unbase64].
    destruct (sextet_digit (bn a / 4)) as [-> _]; [lia|].
    destruct (sextet_digit ((bn a mod 4) * 16 + bn b / 16)) as [-> _]; [lia|].
    destruct (sextet_digit ((bn b mod 16) * 4 + bn c / 64)) as [-> ->]; [lia|].
    destruct (sextet_digit (bn c mod 64)) as [-> ->]; [lia|]. cbv iota zeta.
    rewrite IH. f_equal; [|f_equal; [|f_equal]].
    + apply n2b_eq. lia.
    + apply n2b_eq. lia.
    + apply n2b_eq. lia.
Qed.

Lemma a_world_ok : forall debug now empty_ok, libraries_ok (a_world debug now empty_ok).
Proof.
  intros. split; [exact linear_search_ok|]. intros x. cbn [wd_base64 a_world]. unfold base64_decode.
  cbv zeta. now rewrite unbase64_base64, bseqb_refl.
Qed.

(** ** C55 The example server accepts what the library sends *)

(** For any credentials and any handler: the handler is called with all parameters in order, and
    with the values of the protocol parameters. *)
Theorem C55_form : forall c e b wd r l method path d,
  compatible c e b wd -> raw_honest r l -> normal_method method -> Forall utf8_pair l ->
  plain_path path -> dok d -> dtext d = origin ++ path ->
  exists header body sig, Builder_authorize c e b method d r = Ok header /\ to_form r = Ok body
    /\ sig = hmac_signature (client_secret b) (token_secret b)
               (raw_base_string method (origin ++ path) (protocol_pairs (hmac_conf e b) ++ l))
    /\ forall handler, verify_and_then wd (form_request method path header body) (bd_client b) (bd_token b)
                         (op_verifier (bd_options b)) handler
       = Done_ (handler (sort_pairs (sent_params (hmac_conf e b) sig ++ l)) (understood (hmac_conf e b) sig)).
Proof.
  intros c e b wd r l method path d HC HR HM HU HP HD ED.
  destruct (sent_form c e b wd HC r l method path d HR HM HU HP HD ED) as [h [body [E1 [E2 E3]]]].
  exists h, body. eexists. split; [exact E1|]. split; [exact E2|]. split; [reflexivity|]. exact E3.
Qed.
Print Assumptions C55_form.

Theorem C55_query : forall c e b wd r l method path d,
  compatible c e b wd -> raw_honest r l -> normal_method method -> Forall utf8_pair l ->
  plain_path path -> dok d -> dtext d = origin ++ path ->
  exists header uri sig, Builder_authorize c e b method d r = Ok header /\ to_query (origin ++ path) r = Ok uri
    /\ uri_path uri = path
    /\ sig = hmac_signature (client_secret b) (token_secret b)
               (raw_base_string method (origin ++ path) (protocol_pairs (hmac_conf e b) ++ l))
    /\ forall handler, verify_and_then wd (query_request method path header (uri_query uri)) (bd_client b) (bd_token b)
                         (op_verifier (bd_options b)) handler
       = Done_ (handler (sort_pairs (sent_params (hmac_conf e b) sig ++ l)) (understood (hmac_conf e b) sig)).
Proof.
  intros c e b wd r l method path d HC HR HM HU HP HD ED.
  destruct (sent_query c e b wd HC r l method path d HR HM HU HP HD ED) as [h [u [E1 [E2 [E3 E4]]]]].
  exists h, u. eexists. split; [exact E1|]. split; [exact E2|]. split; [exact E3|]. split; [reflexivity|]. exact E4.
Qed.
Print Assumptions C55_query.

(** The echo is the list of all parameters, which can be read back from the response. *)
Theorem C55_echo : forall c e wd r l, in_step c e wd -> raw_honest r l -> Forall utf8_pair l ->
  exists header body resp sig,
    Builder_authorize c e echo_builder (lit "POST") (dstr echo_uri) r = Ok header /\ to_form r = Ok body
    /\ service wd (form_request (lit "POST") (lit "/echo") header body) = Done_ resp
    /\ rs_status resp = StOk
    /\ form_reads_as (rs_body resp) (sort_pairs (sent_params (hmac_conf e echo_builder) sig ++ l)).
Proof.
  intros c e wd r l HI HR HU.
  assert (HPP : plain_path (lit "/echo")) by (apply plain_path_check; reflexivity).
  destruct (C55_form c e echo_builder wd r l (lit "POST") (lit "/echo") (dstr echo_uri) (echo_compatible c e wd HI) HR
    normal_post HU HPP (dok_dstr _) (dtext_dstr _)) as [h [body [sig [E1 [E2 [E3 E4]]]]]].
  exists h, body. eexists. exists sig. split; [exact E1|]. split; [exact E2|].
  change (service wd ?q) with (echo wd q). unfold echo.
  change MServer.CLIENT with (bd_client echo_builder). change (Some TOKEN) with (bd_token echo_builder).
  change (@None bytes) with (op_verifier (bd_options echo_builder)). rewrite E4. split; [reflexivity|].
  split; [reflexivity|]. cbn [urlencoded_response rs_body]. apply form_reads_iff, form_parse_urlencoded.
  apply (Permutation_Forall (LBase.sort_perm _)). apply Forall_app. split; [|exact HU]. unfold sent_params. apply Forall_app. split.
  - apply (un_text _ _ _ _ (cp_understandable _ _ _ _ (echo_compatible c e wd HI))).
  - constructor; [|constructor]. split; [now apply utf8_text|]. cbn [snd]. rewrite E3. unfold hmac_signature.
    apply utf8_ascii, Forall_forall. intros x Hx. apply base64_chars in Hx; [|reflexivity].
    assert (HB : forallb (fun x => (bn x <? 128)%N) (b64_std ++ lit "=") = true) by reflexivity.
    rewrite forallb_forall in HB. apply N.ltb_lt, HB. apply in_app_iff.
    destruct Hx as [Hx|[_ Hx]]; [now left|]. right. rewrite Hx. now left.
Qed.
Print Assumptions C55_echo.

(** Any request of the crate whose pairs are in ascending order is of this kind. *)
Theorem C55_crate_requests : forall r l, crate_request r l ->
  Forall (fun p => dok (snd p)) l -> safe_keys (texts l) -> no_oauth_keys (texts l) ->
  StronglySorted pair_le (texts l) -> raw_honest r (texts l).
Proof.
  intros r l H HD HS HO HR. exists (calls_of l).
  assert (HA : ascending (map fst l)).
  { apply sorted_ascending in HR. unfold texts in HR. rewrite map_map in HR. exact HR. }
  split; [now apply crate_request_calls|]. split; [apply call_protos_calls_of|].
  split; [now apply calls_of_ascending|]. split; [now apply displays_calls_of|].
  split; [|auto]. unfold carries. rewrite form_fields_calls_of. unfold texts. now rewrite map_map.
Qed.
Print Assumptions C55_crate_requests.

Definition c55_request : Request := AssertSorted true [kvs "a" "1 2"; kvs "c" "&="; kvs "c" "z"; kvs "p" "q"].
Example C55_example_honest : raw_honest c55_request
    [(lit "a", lit "1 2"); (lit "c", lit "&="); (lit "c", lit "z"); (lit "p", lit "q")].
Proof.
  apply (C55_crate_requests _ [kvs "a" "1 2"; kvs "c" "&="; kvs "c" "z"; kvs "p" "q"]).
  - apply cq_sorted.
  - repeat constructor.
  - repeat (constructor; [apply safe_name; reflexivity|]). constructor.
  - repeat (constructor; [intros H; vm_compute in H; intuition discriminate|]). constructor.
  - repeat (constructor; [|repeat constructor]). constructor.
Qed.
Example C55_example_in_step : in_step dbg_std env0 (a_world true 1020 false).
Proof.
  constructor.
  - reflexivity.
  - right. discriminate.
  - exists 1020%N. split; [reflexivity|]. split; vm_compute; congruence.
  - apply a_world_ok.
Qed.
Example C55_example :
  match Builder_authorize dbg_std env0 echo_builder (lit "POST") (dstr echo_uri) c55_request, to_form c55_request with
  | Ok header, Ok body =>
      match service (a_world true 1020 false) (form_request (lit "POST") (lit "/echo") header body) with
      | Done_ resp => match rs_status resp with
                      | StOk => bseqb (firstn 20 (rs_body resp)) (lit "a=1+2&c=%26%3D&c=z&o")
                      | _ => false
                      end
      | Crash _ => false
      end
  | _, _ => false
  end = true.
Proof. vm_compute. reflexivity. Qed.

(** ** C56 It accepts nothing else *)

(** What is served is text, which is read back from the body. *)
Lemma request_params_text : forall eo req l, request_params eo req l -> Forall utf8_pair l.
Proof.
  intros eo req l [header [form [query [H1 [H2 [H3 ->]]]]]].
  assert (HF : forall f l, form_reads_as f l -> Forall utf8_pair l).
  { intros f l' H. apply form_reads_iff in H as <-. unfold form_parse. rewrite form_loop_split by lia.
    apply Forall_map, Forall_forall. intros x _. unfold field_of. destruct (splitn2 "=" x). split; apply utf8_lossy. }
  apply Forall_app. split; [|apply Forall_app; split].
  - induction H1 as [|h hs l _ _ IH|h hs l l' _ _ H]; [constructor|exact IH|]. apply pairs_read_iff in H as <-.
    apply Forall_map, Forall_forall. intros x _. split; apply utf8_lossy.
  - destruct H2 as [body l _ _ H|_]; [now apply (HF body)|constructor].
  - now apply (HF _ _ H3).
Qed.
Lemma served_readable : forall wd req l answer, served wd req l answer -> form_reads_as (urlencoded_to_string answer) answer.
Proof.
  intros wd req l answer H. apply form_reads_iff, form_parse_urlencoded.
  destruct H as [l _ _ H|l _ _ _ _|l _ _ _].
  - apply (Permutation_Forall (LBase.sort_perm _)). exact (request_params_text _ _ _ (ac_params _ _ _ _ _ _ H)).
  - unfold REQUEST_ANSWER. repeat constructor; now apply utf8_text.
  - unfold TOKEN_ANSWER. repeat constructor; now apply utf8_text.
Qed.

Theorem C56_sound : forall wd req resp, search_ok (wd_search wd) ->
  service wd req = Done_ resp -> rs_status resp = StOk ->
  exists l answer, served wd req l answer
    /\ rs_content_type resp = Some (lit "application/x-www-form-urlencoded") /\ form_reads_as (rs_body resp) answer.
Proof.
  intros wd req resp HS H HO.
  assert (X : exists l answer, served wd req l answer /\ resp = urlencoded_response answer).
  2: { destruct X as [l [answer [X1 ->]]]. exists l, answer. split; [exact X1|]. split; [reflexivity|]. apply (served_readable _ _ _ _ X1). }
  unfold service in H.
  assert (HV : forall client token verifier f, verify_and_then wd req client token verifier f = Done_ resp ->
    exists l oa, authentic wd req client token verifier l /\ told l oa /\ resp = f (sort_pairs l) oa).
  { intros client token verifier f E. rewrite verify_verdict in E.
    destruct (verdict wd req client token verifier) as [[code|[params oa]]|] eqn:EV; [|inversion E; subst|discriminate].
    - inversion E; subst. apply verdict_status in EV. cbn in HO. congruence.
    - apply verdict_accept in EV as [l [A1 [-> A2]]]; auto. exists l, oa. auto. }
  destruct (bseqb (rq_method req) (lit "GET")) eqn:EG; destruct (bseqb (rq_method req) (lit "POST")) eqn:EP; cbn [orb andb] in H.
  1: apply bseqb_eq in EG, EP; rewrite EG in EP; discriminate EP.
  3: inversion H; subst; discriminate.
  - apply bseqb_eq in EG. destruct (bseqb (rq_path req) (lit "/echo")) eqn:E; [|inversion H; subst; discriminate].
    apply bseqb_eq in E. apply HV in H as [l [oa [A1 [A2 ->]]]]. exists l, (sort_pairs l). split; [|reflexivity].
    apply sv_echo; auto. left. auto.
  - apply bseqb_eq in EP. destruct (bseqb (rq_path req) (lit "/echo")) eqn:E.
    { apply bseqb_eq in E. apply HV in H as [l [oa [A1 [A2 ->]]]]. exists l, (sort_pairs l). split; [|reflexivity].
      apply sv_echo; auto. right. left. auto. }
    destruct (bseqb (rq_path req) (lit "/request_temp_credentials")) eqn:E2.
    { apply bseqb_eq in E2. apply HV in H as [l [oa [A1 [A2 ->]]]]. exists l, REQUEST_ANSWER.
      pose proof (td_callback _ _ A2) as HC. destruct (oa_callback oa) as [cb|]; [|discriminate HO].
      destruct (bseqb cb (lit "oob")) eqn:EB; [|discriminate HO]. apply bseqb_eq in EB. subst.
      split; [|reflexivity]. apply sv_temporary; auto. }
    destruct (bseqb (rq_path req) (lit "/request_token")) eqn:E3; [|inversion H; subst; discriminate].
    apply bseqb_eq in E3. apply HV in H as [l [oa [A1 [A2 ->]]]]. exists l, TOKEN_ANSWER. split; [|reflexivity].
    apply sv_token; auto.
Qed.
Print Assumptions C56_sound.

(** Several different callbacks aside, of which the server takes any one (a binary search does not say
    which it finds); they matter only at the endpoint for temporary credentials. *)
Definition one_callback (req : http_request) (l : list pair) : Prop :=
  rq_path req = lit "/request_temp_credentials" -> forall v, In (lit "oauth_callback", v) l -> v = lit "oob".

Theorem C56_complete : forall wd req l answer, search_ok (wd_search wd) -> served wd req l answer -> one_callback req l ->
  exists resp, service wd req = Done_ resp /\ rs_status resp = StOk /\ form_reads_as (rs_body resp) answer.
Proof.
  intros wd req l answer HS H HC.
  assert (X : exists resp, service wd req = Done_ resp /\ rs_status resp = StOk /\ rs_body resp = urlencoded_to_string answer).
  2: { destruct X as [resp [X1 [X2 X3]]]. exists resp. rewrite X3. repeat split; auto. apply (served_readable _ _ _ _ H). }
  destruct H as [l HM HP HA|l HM HP HA HI|l HM HP HA]; unfold service.
  - assert (E : bseqb (rq_method req) (lit "GET") || bseqb (rq_method req) (lit "POST") = true).
    { destruct HM as [<-|[<-|[]]]; rewrite bseqb_refl; auto using orb_true_r. }
    rewrite E, HP, bseqb_refl. cbn [andb]. unfold echo. rewrite verify_verdict.
    destruct (authentic_accept _ _ _ _ _ _ HS HA) as [oa [EV HT]].
    change (Cred (lit "client") (lit "client_secret")) with MServer.CLIENT in EV.
    change (Cred (lit "token") (lit "token_secret")) with TOKEN in EV. rewrite EV. eexists. repeat split.
  - rewrite HM, HP. cbn [andb orb]. change (bseqb (lit "GET") (lit "GET")) with true.
    change (bseqb (lit "/request_temp_credentials") (lit "/echo")) with false. rewrite andb_false_r, !bseqb_refl. cbn [andb].
    unfold post_request_temp_credentials. rewrite verify_verdict.
    destruct (authentic_accept _ _ _ _ _ _ HS HA) as [oa [EV HT]].
    change (Cred (lit "client") (lit "client_secret")) with MServer.CLIENT in EV. rewrite EV.
    pose proof (td_callback _ _ HT) as HB. destruct (oa_callback oa) as [cb|]; [|now apply HB in HI].
    rewrite (HC HP cb HB), bseqb_refl. eexists. repeat split.
  - rewrite HM, HP. change (bseqb (lit "/request_token") (lit "/echo")) with false.
    change (bseqb (lit "/request_token") (lit "/request_temp_credentials")) with false.
    rewrite !andb_false_r, !bseqb_refl. cbn [andb].
    unfold post_request_token. rewrite verify_verdict.
    destruct (authentic_accept _ _ _ _ _ _ HS HA) as [oa [EV HT]].
    change (Cred (lit "client") (lit "client_secret")) with MServer.CLIENT in EV.
    change (Cred (lit "request") (lit "request_secret")) with REQUEST in EV.
    change (Some (lit "verifier")) with (Some VERIFIER) in EV. rewrite EV. eexists. repeat split.
Qed.
Print Assumptions C56_complete.

(** So the answer 200 is given exactly to these requests, and what is read in its body is what they are to be answered. *)
Theorem C56_exact : forall wd req, search_ok (wd_search wd) ->
  (forall l, request_params (wd_empty_ok wd) req l -> one_callback req l) ->
  forall answer,
  (exists resp, service wd req = Done_ resp /\ rs_status resp = StOk /\ form_reads_as (rs_body resp) answer)
  <-> exists l, served wd req l answer.
Proof.
  intros wd req HS HC answer. split.
  - intros [resp [H1 [H2 H3]]]. destruct (C56_sound wd req resp HS H1 H2) as [l [a [H4 [_ H5]]]]. exists l.
    apply form_reads_iff in H3. apply form_reads_iff in H5. now rewrite <- H3, H5.
  - intros [l H]. apply (C56_complete wd req l answer HS H). apply HC.
    destruct H; match goal with A : authentic _ _ _ _ _ _ |- _ => exact (ac_params _ _ _ _ _ _ A) end.
Qed.
Print Assumptions C56_exact.

(** The text that the HMAC is computed over determines the method (up to case), the path and the
    parameters. *)
Theorem C56_signed_text : forall m p l m' p' l',
  raw_base_string m (origin ++ p) l = raw_base_string m' (origin ++ p') l' ->
  map to_upper m = map to_upper m' /\ p = p' /\ Permutation l l'.
Proof.
  intros m p l m' p' l' E. unfold raw_base_string in E. change (lit "&") with ["&"%byte] in E. cbn [app] in E.
  pose proof (f_equal (split_at "&") E) as E1.
  rewrite !split_at_app in E1 by (apply enc_no; [reflexivity|discriminate]). inversion E1 as [[EM ER]].
  pose proof (f_equal (split_at "&") ER) as E2.
  rewrite !split_at_app in E2 by (apply enc_no; [reflexivity|discriminate]). inversion E2 as [[EU EN]].
  apply pct_encode_inj in EM, EU, EN. split; auto. split; [exact EU|].
  unfold raw_normalize in EN. change (fun p : bytes * bytes => fst p ++ lit "=" ++ snd p) with form_pair in EN.
  apply (form_text_inj (map encode_pair (sort_pairs l)) (map encode_pair (sort_pairs l'))) in EN.
  - assert (EQ : Permutation (sort_pairs l) (sort_pairs l')).
    { apply (perm_map_inj encode_pair encode_pair_inj). now rewrite EN. }
    now rewrite <- !LBase.sort_perm in EQ.
  - apply Forall_map, Forall_forall. intros q _. repeat split; apply enc_no; try reflexivity; discriminate.
  - apply Forall_map, Forall_forall. intros q _. repeat split; apply enc_no; try reflexivity; discriminate.
Qed.
Print Assumptions C56_signed_text.

(** Whatever the bytes of a form are, they can be read, in one way. *)
Theorem C56_readable : forall form, exists l, form_reads_as form l /\ forall l', form_reads_as form l' -> l' = l.
Proof.
  intros form. exists (form_parse form). split; [now apply form_reads_iff|]. intros l' H. now apply form_reads_iff in H as <-.
Qed.
Print Assumptions C56_readable.
Example C56_readable_example : forall l,
  form_reads_as (lit "a%zz%4a=%f0%9f%98x%e2%82%e2%82%ac=&&b+c&%c3") l <->
  l = [(lit "a%zzJ", lit "�x�€="); (lit "b c", []); (lit "�", [])].
Proof. intros l. rewrite form_reads_iff. split; [intros <-|intros ->]; vm_compute; reflexivity. Qed.

(** A served request, and what happens if one of its parts is changed. *)
Definition tampered (f : http_request -> http_request) : bool :=
  match Builder_authorize dbg_std env0 echo_builder (lit "POST") (dstr echo_uri) c55_request, to_form c55_request with
  | Ok header, Ok body =>
      match service (a_world true 1020 false) (f (form_request (lit "POST") (lit "/echo") header body)) with
      | Done_ resp => match rs_status resp with StOk => true | _ => false end
      | Crash _ => false
      end
  | _, _ => false
  end.
Example C56_example :
  tampered (fun r => r) = true
  /\ tampered (fun r => {| rq_method := lit "GET"; rq_path := rq_path r; rq_query := rq_query r;
       rq_authorization := rq_authorization r; rq_content_type := rq_content_type r; rq_body := rq_body r |}) = false
  /\ tampered (fun r => {| rq_method := rq_method r; rq_path := rq_path r; rq_query := Some (lit "x=1");
       rq_authorization := rq_authorization r; rq_content_type := rq_content_type r; rq_body := rq_body r |}) = false
  /\ tampered (fun r => {| rq_method := rq_method r; rq_path := rq_path r; rq_query := rq_query r;
       rq_authorization := rq_authorization r; rq_content_type := None; rq_body := rq_body r |}) = false.
Proof. repeat apply conj; vm_compute; reflexivity. Qed.

(** ** C57 PLAINTEXT signatures are checked *)

(** A GET request for the echo whose header names the client and the token, but no secret. *)
Definition plaintext_header (signature : bytes) : bytes :=
  lit "OAuth oauth_consumer_key=client,oauth_signature=" ++ signature
  ++ lit ",oauth_signature_method=PLAINTEXT,oauth_token=token".
Definition plaintext_request (signature : bytes) : http_request :=
  query_request (lit "GET") (lit "/echo") (plaintext_header signature) None.

(** False: any signature will do. *)
Theorem C57_refuted : forall wd s, search_ok (wd_search wd) -> wd_now wd <> None -> uri_safe s -> s <> [] ->
  exists resp, service wd (plaintext_request s) = Done_ resp /\ rs_status resp = StOk.
Proof.
  intros wd s HS HN HU HE.
  set (l := [(lit "oauth_consumer_key", lit "client"); (lit "oauth_signature", s);
             (lit "oauth_signature_method", lit "PLAINTEXT"); (lit "oauth_token", lit "token")]).
  assert (HK : forall k v : bytes, In (k, v) l -> (k, v) = (lit "oauth_consumer_key", lit "client") \/ (k, v) = (lit "oauth_signature", s)
    \/ (k, v) = (lit "oauth_signature_method", lit "PLAINTEXT") \/ (k, v) = (lit "oauth_token", lit "token")).
  { intros k v H. cbn in H. intuition. }
  assert (HV : forall k v, In (k, v) l -> has_value l k (Some v)).
  { intros k v H. split; [exact H|]. intros v' H'. apply HK in H, H'.
    assert (v = v'); [|subst; apply bleb_refl].
    destruct H as [H|[H|[H|H]]], H' as [H'|[H'|[H'|H']]]; inversion H; inversion H'; subst; auto; discriminate. }
  assert (HA : forall k, ~ In k [lit "oauth_consumer_key"; lit "oauth_signature"; lit "oauth_signature_method"; lit "oauth_token"] ->
    has_value l k None).
  { intros k H v HI. apply (in_map fst) in HI. apply H. exact HI. }
  assert (HT : authentic wd (plaintext_request s) (Cred (lit "client") (lit "client_secret"))
      (Some (Cred (lit "token") (lit "token_secret"))) None l).
  { assert (TS : token_text s) by now apply safe_token.
    assert (TK : forall k, k <> [] -> forallb is_tchar k = true -> token_text k) by (intros; now apply token_check).
    assert (AP : forall k v, token_text k -> token_text v -> auth_param_text (wd_empty_ok wd) (k ++ lit "=" ++ v) (k, v)).
    { intros k v K1 K2. apply (ap_token _ k [] [] v); auto; constructor. }
    constructor.
    - exists l, [], []. split; [|split; [apply fb_other; discriminate|split; [now apply form_reads_iff|reflexivity]]].
      assert (EL : Forall2 pair_decodes_to l l).
      { assert (ED : forall k v, uri_safe k -> uri_safe v -> pair_decodes_to (k, v) (k, v)).
        { intros k v K1 K2. apply pair_reads_iff. cbn [fst snd]. now rewrite !decode_safe. }
        unfold l. repeat constructor; apply ED; auto; now apply safe_check. }
      cbn [rq_authorization plaintext_request query_request]. apply (hp_oauth _ _ _ l); [| |exact EL].
      + split; [apply TK; [discriminate|reflexivity]|]. eexists. split; [reflexivity|]. apply stops_tchar. reflexivity.
      + unfold plaintext_header.
        change (lit "OAuth oauth_consumer_key=client,oauth_signature=")
          with (lit "OAuth" ++ repeat " "%byte 1 ++ (lit "oauth_consumer_key" ++ lit "=" ++ lit "client")
                ++ lit "," ++ lit "oauth_signature" ++ lit "=").
        change (lit ",oauth_signature_method=PLAINTEXT,oauth_token=token")
          with (lit "," ++ (lit "oauth_signature_method" ++ lit "=" ++ lit "PLAINTEXT")
                ++ lit "," ++ (lit "oauth_token" ++ lit "=" ++ lit "token")).
        rewrite <- !app_assoc. apply at_params; [lia|].
        match goal with |- params_list_text _ ?t _ =>
          replace t with ((lit "oauth_consumer_key" ++ lit "=" ++ lit "client")
            ++ ([] ++ lit "," ++ [] ++ (lit "oauth_signature" ++ lit "=" ++ s)
               ++ ([] ++ lit "," ++ [] ++ (lit "oauth_signature_method" ++ lit "=" ++ lit "PLAINTEXT")
               ++ ([] ++ lit "," ++ [] ++ (lit "oauth_token" ++ lit "=" ++ lit "token") ++ [])))) end.
        2: { cbn [app]. rewrite <- !app_assoc, ?app_nil_r. reflexivity. }
        apply as_cons; [apply AP; apply TK; try discriminate; reflexivity|].
        apply mp_cons; [constructor|constructor|apply AP; auto; apply TK; try discriminate; reflexivity|].
        apply mp_cons; [constructor|constructor|apply AP; apply TK; try discriminate; reflexivity|].
        apply mp_cons; [constructor|constructor|apply AP; apply TK; try discriminate; reflexivity|].
        constructor.
    - apply HV. now left.
    - apply HV. right. right. right. now left.
    - apply HA. intros H. vm_compute in H. intuition discriminate.
    - left. split; auto. apply HA. intros H. vm_compute in H. intuition discriminate.
    - apply (so_plaintext _ _ _ _ _ s); apply HV; [right; right; now left|right; now left]. }
  destruct (C56_complete wd (plaintext_request s) l (sort_pairs l) HS) as [resp [E1 [E2 _]]].
  - apply sv_echo; auto. now left.
  - intros _ v HI. apply (in_map fst) in HI. vm_compute in HI. intuition discriminate.
  - now exists resp.
Qed.
Print Assumptions C57_refuted.

Example C57_example :
  match service (a_world true 1020 false) (plaintext_request (lit "wrong")) with
  | Done_ resp => match rs_status resp with StOk => true | _ => false end
  | Crash _ => false
  end = true.
Proof. vm_compute. reflexivity. Qed.

(** Exactly: with PLAINTEXT the handler is called if, and only if, there is a signature and everything
    else is right. *)
Theorem C57_exact_partial : forall wd req client token verifier l, search_ok (wd_search wd) ->
  request_params (wd_empty_ok wd) req l -> has_value l (lit "oauth_signature_method") (Some (lit "PLAINTEXT")) ->
  ((exists params oa, forall handler, verify_and_then wd req client token verifier handler = Done_ (handler params oa))
   <-> (exists s, has_value l (lit "oauth_signature") (Some s))
       /\ has_value l (lit "oauth_consumer_key") (Some (cr_identifier client))
       /\ has_value l (lit "oauth_token") (option_map cr_identifier token)
       /\ has_value l (lit "oauth_verifier") verifier /\ timely wd l).
Proof.
  intros wd req client token verifier l HS HP HM. split.
  - intros [params [oa H]]. destruct (verdict wd req client token verifier) as [[code|[params' oa']]|p] eqn:EV.
    + pose proof (H (fun _ _ => fail StOk)) as H1. pose proof (H (fun _ _ => fail StBadRequest)) as H2.
      rewrite verify_verdict, EV in H1, H2. rewrite H1 in H2. discriminate.
    + apply verdict_accept in EV as [l' [HA [-> _]]]; auto.
      assert (E : sort_pairs l = sort_pairs l').
      { assert (E1 : params_of wd req = Some (sort_pairs l)) by (apply params_of_iff; eauto).
        assert (E2 : params_of wd req = Some (sort_pairs l')) by (apply params_of_iff; eauto using ac_params). congruence. }
      assert (HV : forall k o, has_value l' k o <-> has_value l k o).
      { intros k o. rewrite !has_value_iff, E. reflexivity. }
      destruct HA as [A1 A2 A3 A4 A5 A6]. rewrite HV in A2, A3, A4. split; [|split; [|split; [|split]]]; auto.
      * destruct A6 as [s t n B1 B2 B3 B4 B5 B6|s B1 B2]; rewrite HV in B2; eauto.
      * destruct A5 as [[A5 A5']|[s [t [A5 A5']]]]; rewrite HV in A5; [left|right]; eauto.
    + pose proof (H (fun _ _ => fail StOk)) as H1. rewrite verify_verdict, EV in H1. discriminate.
  - intros [[s H1] [H2 [H3 [H4 H5]]]].
    destruct (authentic_accept wd req client token verifier l HS) as [oa [EV _]].
    { constructor; auto. now apply (so_plaintext _ _ _ _ _ s). }
    exists (sort_pairs l), oa. intros handler. now rewrite verify_verdict, EV.
Qed.
Print Assumptions C57_exact_partial.

(** ** C58 Secrets with reserved characters *)

Definition c58_builder (secret : string) : Builder := Builder_new (Cred (lit "id") (lit secret)) HMAC_SHA1.
Definition c58_status (secret : string) : option status :=
  match Builder_authorize dbg_std env0 (c58_builder secret) (lit "POST") (dstr echo_uri) c55_request, to_form c55_request with
  | Ok header, Ok body =>
      match verify_and_then (a_world true 1020 false) (form_request (lit "POST") (lit "/echo") header body)
              (Cred (lit "id") (lit secret)) None None (fun params _ => urlencoded_response params) with
      | Done_ resp => Some (rs_status resp)
      | Crash _ => None
      end
  | _, _ => None
  end.

(** False: the server does not encode the secrets when it builds the HMAC key. *)
Theorem C58_refuted : exists secret, c58_status secret = Some StUnauthorized.
Proof. exists "a&b"%string. vm_compute. reflexivity. Qed.
Print Assumptions C58_refuted.

Example C58_example : c58_status "ab" = Some StOk.
Proof. vm_compute. reflexivity. Qed.

(** The server accepts exactly if its key gives the same signature as the key of RFC 5849, for any
    secrets on either side; otherwise it answers 401. *)
Theorem C58_accepted_partial : forall c e b wd r l method path d client token,
  understandable c e b wd -> raw_honest r l -> normal_method method -> Forall utf8_pair l ->
  plain_path path -> dok d -> dtext d = origin ++ path ->
  cr_identifier client = cr_identifier (bd_client b) ->
  option_map cr_identifier token = option_map cr_identifier (bd_token b) ->
  exists header body uri, Builder_authorize c e b method d r = Ok header /\ to_form r = Ok body
    /\ to_query (origin ++ path) r = Ok uri
    /\ let text := raw_base_string method (origin ++ path) (protocol_pairs (hmac_conf e b) ++ l) in
       let sig := hmac_signature (client_secret b) (token_secret b) text in
       let same := hmac_sha1 (signing_key (client_secret b) (token_secret b)) text
                   = hmac_sha1 (plain_key (cr_secret client) (secret_of token)) text in
       forall handler,
       let answer := verify_and_then wd (form_request method path header body) client token (op_verifier (bd_options b)) handler in
       let answer' := verify_and_then wd (query_request method path header (uri_query uri)) client token
                        (op_verifier (bd_options b)) handler in
       let ok := Done_ (handler (sort_pairs (sent_params (hmac_conf e b) sig ++ l)) (understood (hmac_conf e b) sig)) in
       (same -> answer = ok /\ answer' = ok)
       /\ (~ same -> answer = Done_ (fail StUnauthorized) /\ answer' = Done_ (fail StUnauthorized)).
Proof.
  intros c e b wd r l method path d client token HC HR HM HU HP HD ED EC ET.
  destruct (decided_form c e b wd HC r l method path d HR HM HU HP HD ED) as [h [body [E1 [E2 E3]]]].
  destruct (decided_query c e b wd HC r l method path d HR HM HU HP HD ED) as [h' [u [E4 [E5 [_ E6]]]]].
  rewrite E1 in E4. inversion E4; subst h'. exists h, body, u. split; [exact E1|]. split; [exact E2|]. split; [exact E5|].
  cbv zeta. intros handler. rewrite (E3 _ _ handler EC ET), (E6 _ _ handler EC ET). unfold agrees.
  change (conf_of (lit "HMAC-SHA1") e b) with (hmac_conf e b).
  match goal with |- (?x = ?y -> _) /\ _ => destruct (bseqb x y) eqn:EB end; split; intros H.
  - split; reflexivity.
  - apply bseqb_eq in EB. contradiction.
  - rewrite H, bseqb_refl in EB. discriminate.
  - split; reflexivity.
Qed.
Print Assumptions C58_accepted_partial.

Example C58_example_understandable : forall secret, understandable dbg_std env0 (c58_builder secret) (a_world true 1020 false).
Proof.
  intros secret.
  assert (H : compatible dbg_std env0 (c58_builder "ab") (a_world true 1020 false)).
  { apply in_step_compatible; try reflexivity; try exact I; [exact C55_example_in_step|].
    split; [apply plain_check; [discriminate|reflexivity]|now apply safe_check]. }
  destruct H as [[H1 H2 H3 H4 H5 H6] _ _]. constructor; assumption.
Qed.

(** The token secret, empty if there is no token. *)
Definition token_bytes (token : option bytes) : bytes := match token with Some t => t | None => [] end.

(** The keys are equal exactly when neither secret needs encoding. *)
Theorem C58_keys_partial : forall client token,
  signing_key client token = plain_key client (token_bytes token) <-> uri_safe client /\ uri_safe (token_bytes token).
Proof.
  intros client token. unfold signing_key, plain_key. change (match token with Some t => t | None => [] end) with (token_bytes token).
  set (t := token_bytes token). split.
  - intros E. apply (f_equal (@length _)) in E. rewrite !app_length in E. change (length (lit "&")) with 1 in E.
    destruct (pct_encode_longer client) as [L1 L2]. destruct (pct_encode_longer t) as [L3 L4].
    split; [apply L2|apply L4]; lia.
  - intros [H1 H2]. now rewrite !pct_encode_safe.
Qed.
Print Assumptions C58_keys_partial.

(** ** C59 No request makes the server panic *)

Definition overflow_request : http_request :=
  query_request (lit "GET") (lit "/echo")
    (lit "OAuth oauth_consumer_key=x,oauth_signature=x,oauth_signature_method=x,oauth_timestamp=18446744073709551615") None.

(** False for debug builds: the age of the largest timestamps cannot be computed.  The request needs
    no valid credentials. *)
Theorem C59_refuted : forall now empty_ok, service (a_world true now empty_ok) overflow_request = Crash TimestampOverflow.
Proof. intros now []; vm_compute; reflexivity. Qed.
Print Assumptions C59_refuted.

(** This is the only way, apart from a broken connection and a clock before the epoch. *)
Inductive crash_reason (wd : world) (req : http_request) : crash -> Prop :=
  | cr_body : rq_content_type req = Some (lit "application/x-www-form-urlencoded") -> rq_body req = None ->
      crash_reason wd req BodyFailed
  | cr_clock : wd_now wd = None -> crash_reason wd req ClockBackwards
  | cr_overflow : forall l s t, wd_debug wd = true -> request_params (wd_empty_ok wd) req l ->
      has_value l (lit "oauth_timestamp") (Some s) -> number s t -> (2 ^ 64 <= t + 30)%N ->
      crash_reason wd req TimestampOverflow.

Theorem C59_reasons_partial : forall wd req p, search_ok (wd_search wd) ->
  service wd req = Crash p -> crash_reason wd req p.
Proof.
  intros wd req p HS H.
  assert (HV : forall client token verifier f, verify_and_then wd req client token verifier f = Crash p -> crash_reason wd req p).
  { intros client token verifier f E. rewrite verify_verdict in E.
    assert (EV : verdict wd req client token verifier = Crash p).
    { destruct (verdict wd req client token verifier) as [[code|[params oa]]|]; congruence. }
    clear E. unfold verdict in EV.
    assert (HP : params_of wd req = match form_of req with
      | Some form => collect_params (wd_empty_ok wd) req form | None => None end) by reflexivity.
    destruct (form_of req) as [form|] eqn:EF.
    - destruct (collect_params (wd_empty_ok wd) req form) as [ps|]; [|discriminate].
      apply params_of_iff in HP as [l [HR ->]].
      destruct (collect_any _ (sort_pairs l) HS (sorted_ascending _ (sort_sorted l))) as [cb [HC EC]].
      rewrite EC in EV. destruct (read_params cb (sort_pairs l)) as [oa|] eqn:ER; [|discriminate].
      assert (HC' : some_value l (lit "oauth_callback") cb).
      { destruct cb as [v|]; cbn in *.
        - eapply Permutation_in; [|exact HC]. symmetry. apply LBase.sort_perm.
        - intros v HI. apply (HC v). eapply Permutation_in; [|exact HI]. apply LBase.sort_perm. }
      pose proof (td_timestamp _ _ (read_params_told cb l oa HC' ER)) as HT.
      destruct (inner wd req (sort_pairs l) oa client token verifier) as [[s|]|q] eqn:EI; try discriminate.
      inversion EV; subst q. unfold inner in EI.
      destruct (check_time wd (oa_timestamp oa)) as [x|q] eqn:ET; [discriminate|]. inversion EI; subst q.
      unfold check_time in ET. destruct (wd_now wd) as [now|] eqn:EN; [|inversion ET; subst; now constructor].
      destruct (oa_timestamp oa) as [t|]; [|discriminate].
      destruct (N.ltb_spec (t + 30) (2 ^ 64)) as [HL|HL]; [discriminate|].
      destruct (wd_debug wd) eqn:EDB; [|discriminate]. inversion ET; subst.
      destruct HT as [s [HT1 HT2]]. eapply cr_overflow; eauto.
    - inversion EV; subst. unfold form_of in EF. destruct (rq_content_type req) as [v|] eqn:ECT; [|discriminate].
      destruct (bseqb v APPLICATION_WWW_FORM_URLENCODED) eqn:EB; [|discriminate]. apply bseqb_eq in EB. subst.
      now apply cr_body. }
  unfold service, echo, post_request_temp_credentials, post_request_token in H.
  destruct ((bseqb (rq_method req) (lit "GET") || bseqb (rq_method req) (lit "POST")) && bseqb (rq_path req) (lit "/echo")); [eauto|].
  destruct (bseqb (rq_method req) (lit "POST") && bseqb (rq_path req) (lit "/request_temp_credentials")); [eauto|].
  destruct (bseqb (rq_method req) (lit "POST") && bseqb (rq_path req) (lit "/request_token")); [eauto|discriminate].
Qed.
Print Assumptions C59_reasons_partial.

(** ** C60 The server reads the documented header grammar *)

Definition c60_status (empty_ok : bool) (header : bytes) : option status :=
  match service (a_world true 1020 empty_ok) (query_request (lit "GET") (lit "/echo") header None) with
  | Done_ resp => Some (rs_status resp)
  | Crash _ => None
  end.

(** False: two spaces after the scheme; and, with nom 6, an empty quoted string. *)
Definition two_spaces : bytes :=
  lit "OAuth  oauth_consumer_key=client,oauth_signature=x,oauth_signature_method=PLAINTEXT,oauth_token=token".
Definition one_space : bytes :=
  lit "OAuth oauth_consumer_key=client,oauth_signature=x,oauth_signature_method=PLAINTEXT,oauth_token=token".
Definition empty_quoted : bytes :=
  lit "OAuth oauth_consumer_key=client,oauth_signature="""",oauth_signature_method=PLAINTEXT,oauth_token=token".

Lemma header_text_check : forall eo s l, hash eo s = (l, []) -> forall m, 1 <= m ->
  authorization_text eo (lit "OAuth") m (lit "OAuth" ++ repeat " "%byte m ++ s) l.
Proof. intros eo s l H m Hm. apply at_params; [lia|]. now apply hash_iff. Qed.

Theorem C60_refuted :
  (exists l, authorization_text true (lit "OAuth") 2 two_spaces l)
  /\ c60_status true two_spaces = Some StBadRequest /\ c60_status true one_space = Some StOk
  /\ (exists l, authorization_text true (lit "OAuth") 1 empty_quoted l)
  /\ c60_status false empty_quoted = Some StBadRequest /\ c60_status true empty_quoted = Some StOk.
Proof.
  split; [eexists; apply (header_text_check true (skipn 7 two_spaces)); [reflexivity|lia]|].
  split; [vm_compute; reflexivity|]. split; [vm_compute; reflexivity|].
  split; [eexists; apply (header_text_check true (skipn 6 empty_quoted)); [reflexivity|lia]|].
  split; vm_compute; reflexivity.
Qed.
Print Assumptions C60_refuted.

(** Apart from that it is so ([request_params] are the parameters in the header, according to the grammar, in the form and
    in the query).  A header that does not follow the grammar is a bad request, ... *)
Theorem C60_rejected_partial : forall wd req, rq_body req <> None ->
  (forall l, ~ request_params (wd_empty_ok wd) req l) ->
  forall client token verifier handler, verify_and_then wd req client token verifier handler = Done_ (fail StBadRequest).
Proof.
  intros wd req HB HN client token verifier handler. rewrite verify_verdict. unfold verdict.
  destruct (form_of req) as [form|] eqn:EF.
  2:{ exfalso. unfold form_of in EF. destruct (match rq_content_type req with Some v => _ | None => _ end); congruence. }
  destruct (collect_params (wd_empty_ok wd) req form) as [params|] eqn:EC; [|reflexivity].
  assert (E : params_of wd req = Some params) by (unfold params_of; now rewrite EF).
  apply params_of_iff in E as [l [H _]]. exfalso. now apply (HN l).
Qed.
Print Assumptions C60_rejected_partial.

(** ... from one that does exactly these parameters are read and passed on, ... *)
Theorem C60_read_partial : forall wd req l client token verifier,
  request_params (wd_empty_ok wd) req l ->
  (exists oa, forall handler, verify_and_then wd req client token verifier handler = Done_ (handler (sort_pairs l) oa))
  \/ (exists code, code <> StOk /\ forall handler, verify_and_then wd req client token verifier handler = Done_ (fail code))
  \/ (exists p, forall handler, verify_and_then wd req client token verifier handler = Crash p).
Proof.
  intros wd req l client token verifier HL.
  destruct (verdict wd req client token verifier) as [[code|[params oa]]|p] eqn:EV.
  - right. left. exists code. split; [now apply (verdict_status _ _ _ _ _ _ EV)|]. intros handler. now rewrite verify_verdict, EV.
  - left. exists oa. intros handler. rewrite verify_verdict, EV. do 2 f_equal.
    assert (E : params_of wd req = Some (sort_pairs l)) by (apply params_of_iff; eauto).
    unfold params_of in E. unfold verdict in EV. destruct (form_of req) as [form|]; [|discriminate].
    rewrite E in EV. destruct (collect_oauth_params _ _); [|discriminate].
    destruct (inner _ _ _ _ _ _ _) as [[code|]|]; try discriminate. now inversion EV.
  - right. right. exists p. intros handler. now rewrite verify_verdict, EV.
Qed.
Print Assumptions C60_read_partial.

(** ... and nothing but they (and method and path) matters: however the header is written and wherever a parameter
    stands, the outcome is the same. *)
Theorem C60_same_partial : forall wd req req' l l' client token verifier handler,
  request_params (wd_empty_ok wd) req l -> request_params (wd_empty_ok wd) req' l' -> Permutation l l' ->
  rq_method req = rq_method req' -> rq_path req = rq_path req' ->
  verify_and_then wd req client token verifier handler = verify_and_then wd req' client token verifier handler.
Proof.
  intros wd req req' l l' client token verifier handler HL HL' HP EM EP.
  assert (E : params_of wd req = Some (sort_pairs l)) by (apply params_of_iff; eauto).
  assert (E' : params_of wd req' = Some (sort_pairs l)) by (apply params_of_iff; exists l'; split; [exact HL'|now apply sort_unique]).
  rewrite !verify_verdict. unfold verdict. unfold params_of in E, E'.
  destruct (form_of req) as [form|]; [|discriminate]. destruct (form_of req') as [form'|]; [|discriminate].
  rewrite E, E'. destruct (collect_oauth_params (wd_search wd) (sort_pairs l)) as [oa|]; [|reflexivity].
  assert (EI : inner wd req (sort_pairs l) oa client token verifier = inner wd req' (sort_pairs l) oa client token verifier).
  { unfold inner. destruct (check_time wd (oa_timestamp oa)); [|reflexivity].
    assert (ES : check_signature wd req (sort_pairs l) oa client token = check_signature wd req' (sort_pairs l) oa client token).
    { unfold check_signature, check_hmac, create_base_string. now rewrite EM, EP. }
    now rewrite ES. }
  now rewrite EI.
Qed.
Print Assumptions C60_same_partial.

(** Two ways to write the same parameters (both are served), and a header that does not follow the grammar. *)
Definition other_way : bytes :=
  lit "OAuth oauth_consumer_key = ""cl\ient"" , oauth_signature=x,oauth_signature_method=""PLAINTEXT"",oauth_token=token".
Definition with_header (h : bytes) : http_request := query_request (lit "GET") (lit "/echo") h None.
Example C60_example :
  (exists l, request_params false (with_header one_space) l /\ request_params false (with_header other_way) l)
  /\ c60_status false one_space = Some StOk /\ c60_status false other_way = Some StOk
  /\ (forall l, ~ request_params false (with_header two_spaces) l).
Proof.
  assert (D : forall h l, collect_auth_params false [h] = Some l -> request_params false (with_header h) l).
  { intros h l H. exists l, [], []. split; [now apply collect_auth_iff|]. split; [now apply fb_other|].
    split; [now apply form_reads_iff|]. now rewrite app_nil_r. }
  split; [eexists; split; apply D; [vm_compute; reflexivity|vm_compute; reflexivity]|].
  split; [vm_compute; reflexivity|]. split; [vm_compute; reflexivity|].
  intros l [header [form [query [H _]]]]. apply collect_auth_iff in H. vm_compute in H. discriminate H.
Qed.

(** ** C61 A request is accepted only once *)

(** False: the server does not remember nonces, and accepts timestamps from the future. *)
Definition replay (now : N) : bool :=
  match Builder_authorize dbg_std env0 echo_builder (lit "POST") (dstr echo_uri) c55_request, to_form c55_request with
  | Ok header, Ok body =>
      match service (a_world true now false) (form_request (lit "POST") (lit "/echo") header body) with
      | Done_ resp => match rs_status resp with StOk => true | _ => false end
      | Crash _ => false
      end
  | _, _ => false
  end.
Theorem C61_refuted : replay 1000 = true /\ replay 1030 = true /\ replay 0 = true.
Proof. repeat apply conj; vm_compute; reflexivity. Qed.
Print Assumptions C61_refuted.

(** In general: whatever is served is served again, as long as its timestamp, if any, is not more
    than 30 seconds old, ... *)
Theorem C61_again_refuted : forall wd wd' req l answer, served wd req l answer ->
  wd_empty_ok wd' = wd_empty_ok wd -> wd_base64 wd' = wd_base64 wd -> timely wd' l -> served wd' req l answer.
Proof.
  intros wd wd' req l answer H EE EB HT.
  assert (HA : forall client token verifier, authentic wd req client token verifier l -> authentic wd' req client token verifier l).
  { intros client token verifier [A1 A2 A3 A4 A5 A6]. constructor; auto.
    - now rewrite EE.
    - destruct A6 as [s t n B1 B2 B3 B4 B5 B6|s B1 B2]; [|now apply (so_plaintext _ _ _ _ _ s)].
      apply (so_hmac _ _ _ _ _ s t n); auto. now rewrite EB. }
  destruct H; [apply sv_echo|apply sv_temporary|apply sv_token]; auto.
Qed.
Print Assumptions C61_again_refuted.

(** ... and not after that (up to the overflow of C59). *)
Theorem C61_expires_partial : forall wd req resp now, search_ok (wd_search wd) -> wd_now wd = Some now ->
  service wd req = Done_ resp -> rs_status resp = StOk ->
  exists l answer, served wd req l answer
    /\ forall s t, has_value l (lit "oauth_timestamp") (Some s) -> number s t -> (now <= t + 30)%N.
Proof.
  intros wd req resp now HS HN H HO. destruct (C56_sound wd req resp HS H HO) as [l [answer [H1 _]]].
  exists l, answer. split; auto. intros s t HV HT.
  assert (HTM : timely wd l) by (destruct H1; now apply (ac_time _ _ _ _ _ _ H1) || now apply (ac_time _ _ _ _ _ _ H2)).
  destruct HTM as [[X _]|[s' [t' [V [T [n [EN L]]]]]]]; [pose proof (has_value_fun _ _ _ _ X HV); discriminate|].
  pose proof (has_value_fun _ _ _ _ V HV) as E. inversion E; subst. apply number_iff in T, HT. rewrite T in HT.
  inversion HT; subst. rewrite HN in EN. inversion EN; subst. destruct (wd_debug wd); [lia|].
  pose proof (N.mod_le (t + 30) (2 ^ 64)). lia.
Qed.
Print Assumptions C61_expires_partial.

(** Exactly: a request that was served is served at another time if and only if it is timely then (a
    request with several callbacks aside, see C56). *)
Theorem C61_exact_partial : forall wd wd' req l answer, served wd req l answer ->
  search_ok (wd_search wd') -> wd_empty_ok wd' = wd_empty_ok wd -> wd_base64 wd' = wd_base64 wd -> one_callback req l ->
  ((exists resp, service wd' req = Done_ resp /\ rs_status resp = StOk) <-> timely wd' l).
Proof.
  intros wd wd' req l answer H HS EE EB HC. split.
  - intros [resp [H1 H2]]. destruct (C56_sound wd' req resp HS H1 H2) as [l' [answer' [H3 _]]].
    assert (G : forall w req l a, served w req l a -> request_params (wd_empty_ok w) req l /\ timely w l).
    { intros w q x a G. destruct G; match goal with A : authentic _ _ _ _ _ _ |- _ => now destruct A end. }
    destruct (G _ _ _ _ H) as [P _]. destruct (G _ _ _ _ H3) as [P' T']. rewrite EE in P'.
    assert (E : sort_pairs l = sort_pairs l').
    { assert (E1 : params_of wd req = Some (sort_pairs l)) by (apply params_of_iff; eauto).
      assert (E2 : params_of wd req = Some (sort_pairs l')) by (apply params_of_iff; eauto).
      rewrite E1 in E2. now inversion E2. }
    assert (HV : forall k o, has_value l' k o <-> has_value l k o).
    { intros k o. rewrite !has_value_iff, E. reflexivity. }
    destruct T' as [[T1 T2]|[x [t [T1 T2]]]]; rewrite HV in T1; [left|right]; eauto.
  - intros HT. pose proof (C61_again_refuted wd wd' req l answer H EE EB HT) as H'.
    destruct (C56_complete wd' req l answer HS H' HC) as [resp [R1 [R2 _]]]. eauto.
Qed.
Print Assumptions C61_exact_partial.

(** A request that is served at 1030 and no longer at 1031. *)
Example C61_example : replay 1030 = true /\ replay 1031 = false.
Proof. split; vm_compute; reflexivity. Qed.

(** ** C62 The handshake *)

(** For any two requests of the right kind, if the first one fits in a URI. *)
Definition fits (uri : bytes) (l : list pair) : Prop :=
  (N.of_nat (length (query_text uri (map enc_value l))) <= 65534)%N.

Theorem C62_handshake : forall c envs wds valid_uri r1 l1 r2 l2,
  (forall n, n < 4 -> in_step c (envs n) (wds n)) -> uri_library valid_uri ->
  raw_honest r1 l1 -> Forall utf8_pair l1 -> raw_honest r2 l2 -> Forall utf8_pair l2 ->
  fits (lit "http://127.0.0.1:8080/echo") l1 ->
  exists body1 body2 sig1 sig2,
    main c envs (fun n => service (wds n)) valid_uri r1 r2 = inl (body1, body2)
    /\ form_reads_as body1 (sort_pairs (sent_params (hmac_conf (envs 2) echo_builder) sig1 ++ l1))
    /\ form_reads_as body2 (sort_pairs (sent_params (hmac_conf (envs 3) echo_builder) sig2 ++ l2)).
Proof.
  intros c envs wds vu r1 l1 r2 l2 HI HV H1 U1 H2 U2 HL.
  do 4 eexists. split.
  { rewrite (handshake c envs wds vu r1 l1 r2 l2) by auto. rewrite valid_fits; [|exact HV|destruct H1 as [cs HX]; tauto].
    unfold fits in HL. apply N.leb_le in HL. change (lit "http://127.0.0.1:8080/echo") with echo_uri in HL.
    change 65534%N with max_uri in HL. rewrite HL. reflexivity. }
  assert (HF : forall e wd method l, in_step c e wd -> Forall utf8_pair l ->
    form_reads_as (urlencoded_to_string (echoed e method l))
      (sort_pairs (sent_params (hmac_conf e echo_builder) (raw_sig e echo_builder l method echo_uri) ++ l))).
  { intros e wd method l HS HU. apply form_reads_iff. rewrite form_parse_urlencoded; [reflexivity|]. unfold echoed.
    apply (Permutation_Forall (LBase.sort_perm _)). apply Forall_app. split; [|exact HU]. unfold sent_params. apply Forall_app. split.
    - apply (un_text _ _ _ _ (cp_understandable _ _ _ _ (echo_compatible c e wd HS))).
    - constructor; [|constructor]. split; [now apply utf8_text|]. cbn [snd]. unfold raw_sig, hmac_signature.
      apply utf8_ascii, Forall_forall. intros x Hx. apply base64_chars in Hx; [|reflexivity].
      assert (HB : forallb (fun x => (bn x <? 128)%N) (b64_std ++ lit "=") = true) by reflexivity.
      rewrite forallb_forall in HB. apply N.ltb_lt, HB. apply in_app_iff.
      destruct Hx as [Hx|[_ Hx]]; [now left|]. right. rewrite Hx. now left. }
  split; [apply (HF _ (wds 2))|apply (HF _ (wds 3))]; auto.
Qed.
Print Assumptions C62_handshake.

(** If it does not, the client panics before that request is sent. *)
Theorem C62_too_long : forall c envs wds valid_uri r1 l1 r2 l2,
  (forall n, n < 4 -> in_step c (envs n) (wds n)) -> uri_library valid_uri ->
  raw_honest r1 l1 -> Forall utf8_pair l1 -> raw_honest r2 l2 -> Forall utf8_pair l2 ->
  ~ fits (lit "http://127.0.0.1:8080/echo") l1 ->
  main c envs (fun n => service (wds n)) valid_uri r1 r2 = inr BadUri.
Proof.
  intros c envs wds vu r1 l1 r2 l2 HI HV H1 U1 H2 U2 HL.
  rewrite (handshake c envs wds vu r1 l1 r2 l2) by auto. rewrite valid_fits; [|exact HV|destruct H1 as [cs HX]; tauto].
  destruct (N.leb _ max_uri) eqn:E; [|reflexivity]. apply N.leb_le in E. exfalso. apply HL. exact E.
Qed.
Print Assumptions C62_too_long.

(** Derived requests are of this kind. *)
Lemma strict_raw : forall l : list pair, strictly_ascending (map fst l) -> StronglySorted pair_le l.
Proof.
  unfold strictly_ascending. induction l as [|[k v] l IH]; intros H; [constructor|]. cbn [map fst] in H.
  inversion H as [|? ? A1 A2]; subst. constructor; [now apply IH|]. rewrite Forall_forall in *. intros q Hq.
  unfold pair_le, pair_leb. cbn [fst snd]. pose proof (A2 _ (in_map fst _ _ Hq)) as L. apply bltb_lt in L. now rewrite L.
Qed.

Theorem C62_derived : forall {V} (pg : program V) self sy dbg found attrs fs krate body callss l0,
  expand sy dbg found (decl attrs fs) = Ok (Impl krate body) ->
  Forall2 (emits pg self sy) fs callss -> no_reserved sy fs ->
  Forall displays_ok (concat callss) -> carries (concat callss) l0 -> safe_keys l0 -> no_oauth_keys l0 ->
  exists (r : Request) l,
    (forall (S : MSerializer.Serializer) (s : S), exec_body pg self body S s = Some (r S s))
    /\ raw_honest r l /\ Permutation l l0.
Proof.
  intros V pg self sy dbg found attrs fs krate body callss l0 HE HF HK HD HC HS HO.
  destruct (derived_calls _ _ _ _ _ _ _ _ _ _ HE HF HK) as [cs [H1 [H2 [H3 [H4 H5]]]]].
  assert (PF : Permutation (form_fields (concat callss)) (form_fields cs)).
  { rewrite (form_fields_filter cs). unfold form_fields. apply flat_map_perm. now apply Permutation_sym. }
  unfold carries in HC. rewrite HC in PF. apply enc_perm in PF as [l [EL PL]].
  exists (fun S s => s <- run_calls cs s ;; sr_end s), l. split; [exact H1|]. split; [|now apply Permutation_sym].
  exists cs. split; [intros S s; reflexivity|]. split; [exact H3|]. split; [exact H4|]. split; [|split; [exact EL|split; [|split]]].
  - rewrite Forall_forall in *. intros c Hc. destruct (is_param c) eqn:EP; [|destruct c; try discriminate EP; exact I].
    apply HD. eapply Permutation_in; [exact H2|]. apply filter_In. auto.
  - unfold safe_keys in *. apply (Permutation_Forall PL HS).
  - unfold no_oauth_keys in *. apply (Permutation_Forall PL HO).
  - apply strict_raw. rewrite <- (form_fields_keys cs) in H5. rewrite EL, map_map in H5. cbn [enc_value fst] in H5. exact H5.
Qed.
Print Assumptions C62_derived.

(** The program of the example, with any texts in the fields of its two structs. *)
Definition derived_from (d : derive_input) (fields : list (bytes * bytes)) (r : Request) : Prop :=
  exists sy dbg found krate body, expand sy dbg found d = Ok (Impl krate body)
    /\ forall (S : MSerializer.Serializer) (s : S), exec_body str_program (struct_of fields) body S s = Some (r S s).

Lemma echo_field_emits : forall sy fields n v, struct_of fields n = Some v ->
  emits str_program (struct_of fields) sy (echo_field n) [CParam n (dstr v)].
Proof.
  intros sy fields n v E.
  apply (em_param str_program (struct_of fields) sy (echo_field n) v (dstr v)); try reflexivity.
  apply co_plain; [|exact E]. intros X. apply treated_spec in X. discriminate X.
Qed.

Lemma raw_honest_ext : forall (r r' : Request) l, (forall S s, r S s = r' S s) -> raw_honest r l -> raw_honest r' l.
Proof.
  intros r r' l H [cs [H1 H2]]. exists cs. split; [|exact H2]. intros S s. rewrite <- H. apply H1.
Qed.

Lemma get_echo_honest : forall foo r, derived_from GetEcho_decl [(lit "foo", foo)] r -> raw_honest r [(lit "foo", foo)].
Proof.
  intros foo r [sy [dbg [found [krate [body [HE HX]]]]]].
  destruct (C62_derived str_program (struct_of [(lit "foo", foo)]) sy dbg found [] [echo_field (lit "foo")] krate body
    [[CParam (lit "foo") (dstr foo)]] [(lit "foo", foo)] HE) as [r' [l [H1 [H2 H3]]]].
  - constructor; [|constructor]. now apply echo_field_emits.
  - intros f [<-|[]] _. reflexivity.
  - constructor; [apply dok_dstr|constructor].
  - unfold carries. cbn [concat app form_fields flat_map map enc_value fst snd]. now rewrite !dtext_dstr.
  - constructor; [apply safe_name; reflexivity|constructor].
  - constructor; [intros H; vm_compute in H; intuition discriminate|constructor].
  - apply Permutation_sym, Permutation_length_1_inv in H3. subst l. revert H2. apply raw_honest_ext. intros S s.
    specialize (H1 S s). rewrite HX in H1. congruence.
Qed.

Lemma post_echo_honest : forall bar baz r, derived_from PostEcho_decl [(lit "bar", bar); (lit "baz", baz)] r ->
  raw_honest r [(lit "bar", bar); (lit "baz", baz)].
Proof.
  intros bar baz r [sy [dbg [found [krate [body [HE HX]]]]]].
  destruct (C62_derived str_program (struct_of [(lit "bar", bar); (lit "baz", baz)]) sy dbg found []
    [echo_field (lit "bar"); echo_field (lit "baz")] krate body
    [[CParam (lit "bar") (dstr bar)]; [CParam (lit "baz") (dstr baz)]] [(lit "bar", bar); (lit "baz", baz)] HE) as [r' [l [H1 [H2 H3]]]].
  - constructor; [|constructor; [|constructor]]; now apply echo_field_emits.
  - intros f [<-|[<-|[]]] _; reflexivity.
  - constructor; [apply dok_dstr|]. constructor; [apply dok_dstr|constructor].
  - unfold carries. cbn [concat app form_fields flat_map map enc_value fst snd]. now rewrite !dtext_dstr.
  - constructor; [apply safe_name; reflexivity|]. constructor; [apply safe_name; reflexivity|constructor].
  - constructor; [intros H; vm_compute in H; intuition discriminate|].
    constructor; [intros H; vm_compute in H; intuition discriminate|constructor].
  - apply Permutation_sym, Permutation_length_2_inv in H3 as [->| ->].
    + revert H2. apply raw_honest_ext. intros S s. specialize (H1 S s). rewrite HX in H1. congruence.
    + exfalso. destruct H2 as [cs H2]. destruct H2 as [_ [_ [_ [_ [_ [_ [_ H2]]]]]]].
      inversion H2 as [|? ? _ A]; subst. inversion A as [|? ? B _]; subst. vm_compute in B. discriminate B.
Qed.

Theorem C62_client : forall c envs wds valid_uri foo bar baz r1 r2,
  (forall n, n < 4 -> in_step c (envs n) (wds n)) -> uri_library valid_uri ->
  derived_from GetEcho_decl [(lit "foo", foo)] r1 -> derived_from PostEcho_decl [(lit "bar", bar); (lit "baz", baz)] r2 ->
  utf8 foo -> utf8 bar -> utf8 baz ->
  (N.of_nat (length (lit "http://127.0.0.1:8080/echo?foo=" ++ pct_encode foo)) <= 65534)%N ->
  exists body1 body2 sig1 sig2,
    main c envs (fun n => service (wds n)) valid_uri r1 r2 = inl (body1, body2)
    /\ form_reads_as body1 (sort_pairs (sent_params (hmac_conf (envs 2) echo_builder) sig1 ++ [(lit "foo", foo)]))
    /\ form_reads_as body2 (sort_pairs (sent_params (hmac_conf (envs 3) echo_builder) sig2 ++ [(lit "bar", bar); (lit "baz", baz)])).
Proof.
  intros c envs wds vu foo bar baz r1 r2 HI HV H1 H2 U1 U2 U3 HL. apply C62_handshake; auto.
  - now apply get_echo_honest.
  - constructor; [|constructor]. split; [now apply utf8_text|exact U1].
  - now apply post_echo_honest.
  - constructor; [|constructor; [|constructor]]; (split; [now apply utf8_text|assumption]).
Qed.
Print Assumptions C62_client.

Definition c62_request (d : derive_input) (fields : list (bytes * bytes)) : Request := fun S s =>
  match expand toy true (CrateName (lit "oauth1_request")) d with
  | Ok (Impl _ body) => match exec_body str_program (struct_of fields) body S s with Some r => r | None => Panic PFuel end
  | _ => Panic PFuel
  end.
(** There are such requests, for any texts. *)
Example C62_example_derived : forall foo,
  derived_from GetEcho_decl [(lit "foo", foo)] (c62_request GetEcho_decl [(lit "foo", foo)]).
Proof.
  intros foo.
  assert (HE : exists krate body, expand toy true (CrateName (lit "oauth1_request")) GetEcho_decl = Ok (Impl krate body))
    by (do 2 eexists; reflexivity).
  destruct HE as [krate [body HE]].
  destruct (C62_derived str_program (struct_of [(lit "foo", foo)]) toy true (CrateName (lit "oauth1_request")) []
    [echo_field (lit "foo")] krate body [[CParam (lit "foo") (dstr foo)]] [(lit "foo", foo)] HE) as [r' [l [H1 _]]].
  - constructor; [|constructor]. now apply echo_field_emits.
  - intros f [<-|[]] _. reflexivity.
  - constructor; [apply dok_dstr|constructor].
  - unfold carries. cbn [concat app form_fields flat_map map enc_value fst snd]. now rewrite !dtext_dstr.
  - constructor; [apply safe_name; reflexivity|constructor].
  - constructor; [intros H; vm_compute in H; intuition discriminate|constructor].
  - exists toy, true, (CrateName (lit "oauth1_request")), krate, body. split; [exact HE|]. intros S s. unfold c62_request.
    rewrite HE, H1. reflexivity.
Qed.
Definition short_uri (u : bytes) : bool := (N.of_nat (length u) <=? max_uri)%N.
Example C62_example_uri : uri_library short_uri.
Proof. intros rest _. reflexivity. Qed.
Example C62_example :
  match main dbg_std (fun _ => env0) (fun _ => service (a_world true 1020 false)) short_uri
    (c62_request GetEcho_decl [(lit "foo", lit "GET")])
    (c62_request PostEcho_decl [(lit "bar", lit "POST"); (lit "baz", lit "＆POST")]) with
  | inl (b1, b2) => existsb (fun p => bseqb (fst p) (lit "foo") && bseqb (snd p) (lit "GET")) (form_parse b1)
      && existsb (fun p => bseqb (fst p) (lit "baz") && bseqb (snd p) (lit "＆POST")) (form_parse b2)
  | inr _ => false
  end = true.
Proof. vm_compute. reflexivity. Qed.
