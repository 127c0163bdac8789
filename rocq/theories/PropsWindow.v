(** C96: requests at a provider with a time window. *)
From Coq Require Import String.
From Coq Require Import Lia Arith Sorted Permutation.
From Verif Require Import Bytes Crypto Spec MFmt MPercent MSerializer MSign MRequest MCredentials MAuth MBuilder ModelTests
  SpecFmt SpecCalls SpecCalls2 SpecAuth SpecBuild SpecForm SpecServer SpecServer2 SpecParams SpecSign SpecReplay SpecWindow
  LBytes LFmt LPercent LTrace LAuth LSign LBuild LForm LBase LReq LReq2 LPanic LTop LParams LServer LCrypto
  Rsa LRsa PropsServer PropsHeader PropsSign PropsServer2 PropsRsa PropsForge PropsReplay.
Local Open Scope nat_scope.

(** The time that a job sends is at most [w] seconds from [now]. *)
Definition arrives_in_time (w now : N) (j : job) : Prop :=
  (now <= time_sent (jb_env j) (jb_builder j) + w /\ time_sent (jb_env j) (jb_builder j) <= now + w)%N.

(** A provider that never forgets. *)
Definition forget_nothing (now : N) (seen : list use) : list use := seen.
(** One that forgets as soon as it may. *)
Definition forget_old (w now : N) (seen : list use) : list use := filter (recent w now) seen.

(** ** Lemmas *)

Lemma window_recent : forall w now u, in_window w now u = true -> recent w now u = true.
Proof. intros w now u. unfold in_window, recent. destruct (read_decimal _); [|discriminate]. intros H. now apply andb_prop in H as [-> _]. Qed.

Lemma recent_before : forall w now now' u, (now <= now')%N -> recent w now' u = true -> recent w now u = true.
Proof.
  intros w now now' u L. unfold recent. destruct (read_decimal _); [|discriminate]. rewrite !N.leb_le. lia.
Qed.

Lemma job_window : forall w now j, in_window w now (job_use j) = true <-> arrives_in_time w now j.
Proof.
  intros w now j. unfold in_window, arrives_in_time, job_use. cbn [us_timestamp].
  rewrite (proj1 (decimal_spec (time_sent (jb_env j) (jb_builder j)))). rewrite andb_true_iff, !N.leb_le. reflexivity.
Qed.

Lemma serve_none : forall a seen seen' m, use_in m = None -> serve a seen m = (seen, None) /\ serve a seen' m = (seen', None).
Proof.
  intros a seen seen' m H. unfold use_in in H. unfold serve. destruct (params_in m) as [ps|]; [|auto]. now rewrite H.
Qed.

(** ** C96 *)

(** Forgetting is harmless: whatever requests arrive, by whomever they are made up, a provider that forgets requests that
    are older than the window answers as if it remembered all. *)
Theorem C96_forgetting : forall a w forget, may_forget w forget -> forall ms from seen, in_time from (map fst ms) ->
  serve_times a w forget seen ms = serve_times a w forget_nothing seen ms.
Proof.
  intros a w forget HF ms.
  assert (X : forall ms from seen full, in_time from (map fst ms) ->
    (forall u, In u seen -> In u full) -> (forall u, In u full -> recent w from u = true -> In u seen) ->
    serve_times a w forget seen ms = serve_times a w forget_nothing full ms).
  { clear ms. induction ms as [|[now m] ms IH]; intros from seen full HT H1 H2; [reflexivity|].
    cbn [map fst in_time] in HT. destruct HT as [L HT]. cbn [serve_times]. unfold serve_at, forget_nothing.
    assert (G1 : forall u, In u (forget now seen) -> In u full) by (intros u I; apply H1; now apply (HF now seen u)).
    assert (G2 : forall u, In u full -> recent w now u = true -> In u (forget now seen)).
    { intros u I R. apply (HF now seen u); [|exact R]. apply H2; [exact I|]. now apply (recent_before w from now u L). }
    destruct (use_in m) as [u|] eqn:EU.
    2:{ f_equal. now apply (IH now). }
    destruct (in_window w now u) eqn:EW.
    2:{ f_equal. now apply (IH now). }
    unfold use_in in EU. unfold serve. destruct (params_in m) as [ps|]; [|discriminate]. rewrite EU.
    destruct (a (us_client u) (us_token u)) as [check|]. 2:{ f_equal. now apply (IH now). }
    destruct (server_check check (ms_method m) (ms_uri m) (ms_header m) (ms_body m)) as [out|]. 2:{ f_equal. now apply (IH now). }
    destruct (in_dec use_eq_dec u (forget now seen)) as [I|I].
    - destruct (in_dec use_eq_dec u full) as [J|J]; [|exfalso; apply J; now apply G1]. f_equal. now apply (IH now).
    - destruct (in_dec use_eq_dec u full) as [J|J]; [exfalso; apply I, G2; [exact J|now apply window_recent]|]. f_equal.
      apply (IH now); [exact HT| |].
      + intros v [<-|V]; [now left|right; now apply G1].
      + intros v [<-|V] R; [now left|right; now apply G2]. }
  intros from seen HT. apply (X ms from seen seen HT); auto.
Qed.
Print Assumptions C96_forgetting.

(** Any clients, each request in any transport: a request is served exactly if it arrives in time and no request with the same
    client, token, timestamp and nonce has arrived in time before. *)
Theorem C96_session : forall a w forget, may_forget w forget -> forall jobs msgs times from,
  Forall (valid_job a) jobs -> Forall2 sends jobs msgs -> length times = length msgs -> in_time from times ->
  forall i j now, nth_error jobs i = Some j -> nth_error times i = Some now ->
  exists answer, nth_error (serve_times a w forget [] (combine times msgs)) i = Some answer
    /\ match answer with
       | Some out => own_params out = jb_params j /\ arrives_in_time w now j
           /\ forall i' j' now', i' < i -> nth_error jobs i' = Some j' -> nth_error times i' = Some now' ->
                job_use j' = job_use j -> ~ arrives_in_time w now' j'
       | None => ~ arrives_in_time w now j
           \/ exists i' j' now', i' < i /\ nth_error jobs i' = Some j' /\ nth_error times i' = Some now'
                /\ job_use j' = job_use j /\ arrives_in_time w now' j'
       end.
Proof.
  intros a w forget HF jobs msgs times from HV HS HL HT i j now HI HN.
  rewrite (C96_forgetting a w forget HF (combine times msgs) from []).
  2:{ clear - HL HT. revert msgs HL from HT. induction times as [|t times IH]; intros [|m msgs] HL from HT; cbn in *; try exact I; try discriminate.
      destruct HT as [H1 H2]. split; [exact H1|]. apply IH; [now injection HL|exact H2]. }
  clear HF HT.
  assert (X : forall seen, exists answer, nth_error (serve_times a w forget_nothing seen (combine times msgs)) i = Some answer
    /\ match answer with
       | Some out => own_params out = jb_params j /\ arrives_in_time w now j /\ ~ In (job_use j) seen
           /\ forall i' j' now', i' < i -> nth_error jobs i' = Some j' -> nth_error times i' = Some now' ->
                job_use j' = job_use j -> ~ arrives_in_time w now' j'
       | None => ~ arrives_in_time w now j \/ In (job_use j) seen
           \/ exists i' j' now', i' < i /\ nth_error jobs i' = Some j' /\ nth_error times i' = Some now'
                /\ job_use j' = job_use j /\ arrives_in_time w now' j'
       end).
  { revert times HL HV i HI HN. induction HS as [|j0 m0 jobs msgs H0 HS IH]; intros times HL HV i HI HN seen; [destruct i; discriminate|].
    destruct times as [|t0 times]; [discriminate|]. injection HL as HL. inversion HV as [|? ? V0 HV']; subst.
    cbn [combine serve_times]. unfold serve_at, forget_nothing at 1 2 3.
    destruct (job_arrives a j0 m0 V0 H0) as [check [out0 [A1 [A2 [A3 A4]]]]].
    assert (EU : use_in m0 = Some (job_use j0)) by (unfold use_in; now rewrite (check_params check m0 out0 A2)).
    rewrite EU. destruct (serve_job a j0 m0 seen V0 H0) as [out1 [HO HE]]. rewrite HE.
    pose (arrived := in_window w t0 (job_use j0)).
    assert (HA : arrived = true <-> arrives_in_time w t0 j0) by apply job_window. fold arrived.
    assert (Y : exists seen' ans, (if arrived then if in_dec use_eq_dec (job_use j0) seen then (seen, None) else (job_use j0 :: seen, Some out1) else (seen, None)) = (seen', ans)
      /\ (forall u, In u seen' <-> In u seen \/ (arrived = true /\ u = job_use j0))
      /\ ans = if arrived then if in_dec use_eq_dec (job_use j0) seen then None else Some out1 else None).
    { destruct arrived; [destruct (in_dec use_eq_dec (job_use j0) seen) as [I|I]|]; do 2 eexists; (split; [reflexivity|]); split; try reflexivity; intros u.
      - split; [now left|]. intros [H|[_ ->]]; auto.
      - cbn [In]. split; intros [H|H]; auto. destruct H as [_ ->]. now left.
      - split; [now left|]. intros [H|[H _]]; [exact H|discriminate]. }
    destruct Y as [seen' [ans [-> [HIN EA]]]]. destruct i as [|i].
    - cbn [nth_error] in HI, HN |- *. injection HI as <-. injection HN as <-. exists ans. split; [reflexivity|]. rewrite EA.
      destruct arrived; [|left; intros T; apply HA in T; discriminate].
      destruct (in_dec use_eq_dec (job_use j0) seen) as [I|I].
      + right. now left.
      + split; [exact HO|]. split; [now apply HA|]. split; [exact I|]. intros i' j' now' L. lia.
    - cbn [nth_error] in HI, HN |- *. destruct (IH times HL HV' i HI HN seen') as [answer [E HR]]. exists answer. split; [exact E|].
      destruct answer as [out|].
      + destruct HR as [R1 [R2 [R3 R4]]]. split; [exact R1|]. split; [exact R2|]. rewrite HIN in R3. split; [tauto|].
        intros [|i'] j' now' L HJ HT HEq; cbn [nth_error] in HJ, HT.
        * injection HJ as <-. injection HT as <-. intros T. apply R3. right. split; [now apply HA|now symmetry].
        * apply (R4 i' j' now'); auto. lia.
      + destruct HR as [R|[R|[i' [j' [now' [L [HJ [HT [HEq T]]]]]]]]].
        * now left.
        * apply HIN in R as [R|[R1 R2]]; [right; now left|]. right. right. exists 0, j0, t0. split; [lia|]. do 2 (split; [reflexivity|]).
          split; [now symmetry|now apply HA].
        * right. right. exists (S i'), j', now'. split; [lia|]. auto. }
  destruct (X []) as [answer [E HR]]. exists answer. split; [exact E|]. destruct answer as [out|].
  - destruct HR as [R1 [R2 [_ R4]]]. auto.
  - destruct HR as [R|[[]|R]]; auto.
Qed.
Print Assumptions C96_session.

(** So if every request arrives in time, the provider with the window serves what one with an unbounded memory does (C88). *)
Theorem C96_all_served : forall a w forget, may_forget w forget -> forall jobs msgs times from,
  Forall (valid_job a) jobs -> Forall2 sends jobs msgs -> length times = length msgs -> in_time from times ->
  (forall i j now, nth_error jobs i = Some j -> nth_error times i = Some now -> arrives_in_time w now j) ->
  serve_times a w forget [] (combine times msgs) = serve_all a [] msgs.
Proof.
  intros a w forget HF jobs msgs times from HV HS HL HT HA.
  rewrite (C96_forgetting a w forget HF (combine times msgs) from []).
  2:{ clear - HL HT. revert msgs HL from HT. induction times as [|t times IH]; intros [|m msgs] HL from HT; cbn in *; try exact I; try discriminate.
      destruct HT as [H1 H2]. split; [exact H1|]. apply IH; [now injection HL|exact H2]. }
  clear HF HT. generalize (@nil use). revert times HL HV HA.
  induction HS as [|j0 m0 jobs msgs H0 HS IH]; intros times HL HV HA seen; [now destruct times|].
  destruct times as [|t0 times]; [discriminate|]. injection HL as HL. inversion HV as [|? ? V0 HV']; subst.
  cbn [combine serve_times serve_all]. unfold serve_at, forget_nothing.
  destruct (job_arrives a j0 m0 V0 H0) as [check [out0 [A1 [A2 [A3 A4]]]]].
  assert (EU : use_in m0 = Some (job_use j0)) by (unfold use_in; now rewrite (check_params check m0 out0 A2)).
  rewrite EU. rewrite (proj2 (job_window w t0 j0) (HA 0 j0 t0 eq_refl eq_refl)). destruct (serve a seen m0) as [s ans].
  f_equal. apply IH; auto. intros i j now HI HN. exact (HA (S i) j now HI HN).
Qed.
Print Assumptions C96_all_served.

(** ** Whoever sends the requests *)

Lemma times_served : forall a w ms seen i out, nth_error (serve_times a w forget_nothing seen ms) i = Some (Some out) ->
  exists now m, nth_error ms i = Some (now, m) /\ use_in m = use_of out
    /\ exists u, use_of out = Some u /\ in_window w now u = true.
Proof.
  intros a w. induction ms as [|[now m] ms IH]; intros seen i out H; [destruct i; discriminate|]. cbn [serve_times] in H.
  destruct (serve_at a w forget_nothing seen now m) as [s ans] eqn:E. destruct i as [|i].
  - cbn [nth_error] in H |- *. injection H as ->. exists now, m. split; [reflexivity|]. unfold serve_at, forget_nothing in E.
    destruct (use_in m) as [u|] eqn:EU; [|discriminate]. destruct (in_window w now u) eqn:EW; [|discriminate].
    unfold use_in in EU. unfold serve in E. destruct (params_in m) as [ps|] eqn:EP; [|discriminate]. rewrite EU in E.
    destruct (a (us_client u) (us_token u)) as [check|]; [|discriminate].
    destruct (server_check check (ms_method m) (ms_uri m) (ms_header m) (ms_body m)) as [o|] eqn:EC; [|discriminate].
    destruct (in_dec use_eq_dec u seen); [discriminate|]. injection E as _ <-.
    pose proof (check_params check m o EC) as X. rewrite EP in X. injection X as ->. rewrite EU. split; [reflexivity|]. eauto.
  - cbn [nth_error] in H |- *. exact (IH s i out H).
Qed.

(** A message that the provider cannot read. *)
Definition unreadable : message := Message [] [] (Some []) [].

(** The provider with a window is the one without, that finds what is out of time unreadable. *)
Definition screened (w : N) (x : N * message) : message :=
  match use_in (snd x) with Some u => if in_window w (fst x) u then snd x else unreadable | None => snd x end.

Lemma times_all : forall a w ms seen, serve_times a w forget_nothing seen ms = serve_all a seen (map (screened w) ms).
Proof.
  intros a w. induction ms as [|[now m] ms IH]; intros seen; [reflexivity|]. cbn [serve_times map serve_all]. unfold serve_at, screened at 1, forget_nothing.
  cbn [fst snd]. destruct (use_in m) as [u|] eqn:EU.
  - destruct (in_window w now u); [destruct (serve a seen m); now rewrite IH|]. cbn. now rewrite IH.
  - rewrite (proj1 (serve_none a seen seen m EU)). now rewrite IH.
Qed.

(** At most one request with a signature made by the client is ever served, or one of two is an accident as in C88; and what is
    served was in time. *)
Theorem C96_once_hmac : forall a w forget, may_forget w forget -> forall c e b method uri r l s from ms i i' now m now' m' out out',
  hmac_accounts a -> bd_signature_method b = HMAC_SHA1 -> honest r l -> normal_method method ->
  client_signature c e b method uri r s -> in_time from (map fst ms) -> i < i' ->
  nth_error ms i = Some (now, m) -> nth_error ms i' = Some (now', m') ->
  nth_error (serve_times a w forget [] ms) i = Some (Some out) -> nth_error (serve_times a w forget [] ms) i' = Some (Some out') ->
  lookup (lit "oauth_signature") out = [s] -> lookup (lit "oauth_signature") out' = [s] ->
  accident_hmac a e b method uri l m out \/ accident_hmac a e b method uri l m' out'.
Proof.
  intros a w forget HF c e b method uri r l s from ms i i' now m now' m' out out' HA HB HR HM HC HT L HI HI' H H' HL HL'.
  rewrite (C96_forgetting a w forget HF ms from [] HT) in H, H'.
  assert (Y : forall k t x o, nth_error ms k = Some (t, x) -> nth_error (serve_times a w forget_nothing [] ms) k = Some (Some o) ->
    nth_error (map (screened w) ms) k = Some x).
  { intros k t x o E1 E2. rewrite (map_nth_error _ _ _ E1). f_equal. apply times_served in E2 as [t' [x' [E3 [E4 [u [E5 E6]]]]]].
    rewrite E1 in E3. injection E3 as <- <-. unfold screened. cbn [fst snd]. now rewrite E4, E5, E6. }
  pose proof (Y i now m out HI H) as J. pose proof (Y i' now' m' out' HI' H') as J'. rewrite (times_all a w ms []) in H, H'.
  exact (C88_once_hmac a c e b method uri r l s [] (map (screened w) ms) i i' m m' out out' HA HB HR HM HC L J J' H H' HL HL').
Qed.
Print Assumptions C96_once_hmac.

Theorem C96_once_rsa : forall a w forget, may_forget w forget -> forall c e b public private decode method uri r l s from ms i i' now m now' m' out out',
  key_pair public private -> signs_with b private -> (forall x, decode (base64 b64_std true x) = Some x) ->
  a (cr_identifier (bd_client b)) (option_map cr_identifier (bd_token b)) = Some (rsa_check decode (pkcs1_verify public)) ->
  honest r l -> normal_method method ->
  client_signature c e b method uri r s -> in_time from (map fst ms) -> i < i' ->
  nth_error ms i = Some (now, m) -> nth_error ms i' = Some (now', m') ->
  nth_error (serve_times a w forget [] ms) i = Some (Some out) -> nth_error (serve_times a w forget [] ms) i' = Some (Some out') ->
  (forall o u, In o [out; out'] -> use_of o = Some u ->
     us_client u = cr_identifier (bd_client b) /\ us_token u = option_map cr_identifier (bd_token b)) ->
  lookup (lit "oauth_signature") out = [s] -> lookup (lit "oauth_signature") out' = [s] ->
  accident_rsa e b method uri l m out \/ accident_rsa e b method uri l m' out'.
Proof.
  intros a w forget HF c e b public private decode method uri r l s from ms i i' now m now' m' out out' HK HB HDe HA HR HM HC HT L HI HI' H H' HU HL HL'.
  rewrite (C96_forgetting a w forget HF ms from [] HT) in H, H'.
  assert (Y : forall k t x o, nth_error ms k = Some (t, x) -> nth_error (serve_times a w forget_nothing [] ms) k = Some (Some o) ->
    nth_error (map (screened w) ms) k = Some x).
  { intros k t x o E1 E2. rewrite (map_nth_error _ _ _ E1). f_equal. apply times_served in E2 as [t' [x' [E3 [E4 [u [E5 E6]]]]]].
    rewrite E1 in E3. injection E3 as <- <-. unfold screened. cbn [fst snd]. now rewrite E4, E5, E6. }
  pose proof (Y i now m out HI H) as J. pose proof (Y i' now' m' out' HI' H') as J'. rewrite (times_all a w ms []) in H, H'.
  exact (C88_once_rsa a c e b public private decode method uri r l s [] (map (screened w) ms) i i' m m' out out' HK HB HDe HA HR HM HC L J J' H H' HU HL HL').
Qed.
Print Assumptions C96_once_rsa.

(** What it takes to be served. *)
Lemma times_check : forall a w forget ms seen i now m out,
  nth_error ms i = Some (now, m) -> nth_error (serve_times a w forget seen ms) i = Some (Some out) ->
  exists u check, use_of out = Some u /\ in_window w now u = true /\ a (us_client u) (us_token u) = Some check
    /\ server_check check (ms_method m) (ms_uri m) (ms_header m) (ms_body m) = Some out.
Proof.
  intros a w forget ms seen i now m out HI H. revert seen i HI H.
  induction ms as [|[t x] ms IH]; intros seen i HI H; [destruct i; discriminate|]. cbn [serve_times] in H.
  destruct (serve_at a w forget seen t x) as [s' ans] eqn:E. destruct i as [|i]; cbn [nth_error] in HI, H; [|exact (IH s' i HI H)].
  injection HI as -> ->. injection H as ->. unfold serve_at in E.
  destruct (use_in m) as [u|] eqn:EU; [|discriminate]. destruct (in_window w now u) eqn:EW; [|discriminate].
  unfold use_in in EU. unfold serve in E. destruct (params_in m) as [ps|] eqn:EP; [|discriminate]. rewrite EU in E.
  destruct (a (us_client u) (us_token u)) as [check|] eqn:EA; [|discriminate].
  destruct (server_check check (ms_method m) (ms_uri m) (ms_header m) (ms_body m)) as [o|] eqn:EC; [|discriminate].
  destruct (in_dec use_eq_dec u _); [discriminate|]. injection E as _ <-.
  pose proof (check_params check m o EC) as Y. rewrite EP in Y. injection Y as ->. exists u, check. auto.
Qed.

Lemma window_sent : forall w now e b client token nonce,
  in_window w now (Use client token (decimal (time_sent e b)) nonce) = true ->
  (now <= time_sent e b + w /\ time_sent e b <= now + w)%N.
Proof.
  intros w now e b client token nonce E. unfold in_window in E. cbn [us_timestamp] in E.
  rewrite (proj1 (decimal_spec (time_sent e b))) in E. apply andb_prop in E as [E1 E2]. apply N.leb_le in E1, E2. now split.
Qed.

(** Nothing made by the client is served when its time is over, or before: the signed time is the one the provider looks at. *)
Theorem C96_expires_hmac : forall a w forget c e b method uri r l s seen ms i now m out,
  hmac_accounts a -> bd_signature_method b = HMAC_SHA1 -> honest r l -> normal_method method ->
  client_signature c e b method uri r s ->
  nth_error ms i = Some (now, m) -> nth_error (serve_times a w forget seen ms) i = Some (Some out) ->
  lookup (lit "oauth_signature") out = [s] ->
  (now <= time_sent e b + w /\ time_sent e b <= now + w)%N \/ accident_hmac a e b method uri l m out.
Proof.
  intros a w forget c e b method uri r l s seen ms i now m out HA HB HR HM HC HI H HL.
  destruct (times_check a w forget ms seen i now m out HI H) as [u [check [E1 [E2 [E3 E4]]]]]. destruct (HA _ _ _ E3) as [cs [ts ->]].
  destruct (C73_hmac c e b method uri r l s cs ts _ _ _ _ out HB HR HM HC E4 HL) as [base [q [P1 [D|D]]]].
  - left. destruct D as [_ [_ [D _]]]. rewrite (use_of_signed _ e b l out (tr_oauth r l HR) D) in E1. injection E1 as <-.
    now apply window_sent in E2.
  - right. exists u, cs, ts, base, q. auto.
Qed.
Print Assumptions C96_expires_hmac.

Theorem C96_expires_rsa : forall a w forget c e b public private decode method uri r l s seen ms i now m out,
  key_pair public private -> signs_with b private -> (forall x, decode (base64 b64_std true x) = Some x) ->
  a (cr_identifier (bd_client b)) (option_map cr_identifier (bd_token b)) = Some (rsa_check decode (pkcs1_verify public)) ->
  honest r l -> normal_method method -> client_signature c e b method uri r s ->
  nth_error ms i = Some (now, m) -> nth_error (serve_times a w forget seen ms) i = Some (Some out) ->
  (forall u, use_of out = Some u ->
     us_client u = cr_identifier (bd_client b) /\ us_token u = option_map cr_identifier (bd_token b)) ->
  lookup (lit "oauth_signature") out = [s] ->
  (now <= time_sent e b + w /\ time_sent e b <= now + w)%N \/ accident_rsa e b method uri l m out.
Proof.
  intros a w forget c e b public private decode method uri r l s seen ms i now m out HK HB HDe HA HR HM HC HI H HU HL.
  destruct (times_check a w forget ms seen i now m out HI H) as [u [check [E1 [E2 [E3 E4]]]]].
  destruct (HU u E1) as [U1 U2]. rewrite U1, U2, HA in E3. injection E3 as <-.
  destruct (C73_rsa c e b public private decode method uri r l s _ _ _ _ out HK HB HDe HR HM HC E4 HL) as [base [q [P1 [D|D]]]].
  - left. destruct D as [_ [_ D]]. rewrite (use_of_signed _ e b l out (tr_oauth r l HR) D) in E1. injection E1 as <-.
    now apply window_sent in E2.
  - right. exists base, q. auto.
Qed.
Print Assumptions C96_expires_rsa.

(** ** Example *)

(** Sessions as in C96_session: [C88_example_valid] has valid jobs and C88_sendable their messages, in every transport. *)

Example C96_example_forget : forall w, may_forget w (forget_old w) /\ may_forget w forget_nothing.
Proof.
  intros w. split; intros now seen u.
  - unfold forget_old. rewrite filter_In. tauto.
  - unfold forget_nothing. tauto.
Qed.

(** A window of ten seconds.  The request of 5 seconds arrives at 6, again at 15 and at 16 seconds, when the provider has
    forgotten it; those of 30 and 8 seconds are too early and too late; that of 25 arrives in time, at last. *)
Example C96_example :
  map (fun answer : option (list pair) => match answer with Some _ => true | None => false end)
    (serve_times ex_accounts 10 (forget_old 10) []
       (map (fun x : N * N => (fst x, Message (lit "POST") (lit "http://example.com/x") (PropsReplay.ex_header (snd x) x01) ex_body))
         [(6, 5); (15, 5); (16, 5); (19, 30); (19, 8); (35, 25)]%N))
  = [true; false; false; false; false; true]
  /\ forget_old 10 16 [job_use (ex_job 5 x01)] = [] /\ in_time 0 [6; 15; 16; 19; 19; 35]%N.
Proof. split; [vm_compute; reflexivity|]. split; [vm_compute; reflexivity|]. cbn. lia. Qed.
