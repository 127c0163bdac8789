(** C97: requests at a provider that wants times that do not go back. *)
From Coq Require Import String.
From Coq Require Import Lia Arith Sorted Permutation ZArith.
From Verif Require Import Bytes Crypto Spec MFmt MPercent MSerializer MSign MRequest MCredentials MAuth MBuilder ModelTests
  SpecFmt SpecCalls SpecCalls2 SpecAuth SpecBuild SpecForm SpecServer SpecServer2 SpecParams SpecSign SpecReplay SpecWindow SpecOrder
  LBytes LFmt LPercent LTrace LAuth LSign LBuild LForm LBase LReq LReq2 LPanic LTop LParams LServer LCrypto
  PropsServer PropsHeader PropsSign PropsServer2 PropsReplay PropsWindow MJs LJs PropsJs.
Local Open Scope nat_scope.

(** The client and the token of a job, the time it sends, the clock when it is made. *)
Definition job_account (j : job) : bytes * option bytes :=
  (cr_identifier (bd_client (jb_builder j)), option_map cr_identifier (bd_token (jb_builder j))).
Definition job_time (j : job) : N := time_sent (jb_env j) (jb_builder j).
Definition job_clock (j : job) : option N := env_clock (jb_env j) 0.

Lemma not_before_job : forall j p, not_before (job_use j) (job_use p) = true <-> (job_account p = job_account j -> (job_time p <= job_time j)%N).
Proof.
  intros j p. unfold not_before. change (account_of (job_use p)) with (job_account p). change (account_of (job_use j)) with (job_account j).
  cbn [us_timestamp job_use]. rewrite !(fun n => proj1 (decimal_spec n)).
  destruct (account_eq_dec (job_account p) (job_account j)) as [E|E].
  - rewrite N.leb_le. unfold job_time. split; auto.
  - split; [intros _ H; now destruct E|reflexivity].
Qed.

Lemma use_account : forall p q, job_use p = job_use q -> job_account p = job_account q /\ job_time p = job_time q.
Proof. intros p q H. apply use_same in H as [H1 [H2 [H3 _]]]. unfold job_account, job_time. now rewrite H1, H2, H3. Qed.

Lemma in_order_job : forall j seen, (forall u, In u seen -> exists p, u = job_use p) ->
  if forallb (not_before (job_use j)) seen
  then forall p, In (job_use p) seen -> job_account p = job_account j -> (job_time p <= job_time j)%N
  else exists p, In (job_use p) seen /\ job_account p = job_account j /\ (job_time j < job_time p)%N.
Proof.
  intros j seen. induction seen as [|u seen IH]; intros HS; [cbn; tauto|]. cbn [forallb].
  destruct (HS u (or_introl eq_refl)) as [p ->]. specialize (IH (fun v I => HS v (or_intror I))).
  destruct (not_before (job_use j) (job_use p)) eqn:E; cbn [andb].
  - pose proof (proj1 (not_before_job j p) E) as E'. destruct (forallb (not_before (job_use j)) seen).
    + intros q [Q|Q] A; [|now apply IH]. apply use_account in Q as [Q1 Q2]. rewrite <- Q2. exact (E' (eq_trans Q1 A)).
    + destruct IH as [q [Q1 [Q2 Q3]]]. exists q. split; [now right|]. now split.
  - exists p. split; [now left|]. destruct (account_eq_dec (job_account p) (job_account j)) as [A|A].
    + split; [exact A|]. apply N.nle_gt. intros L. assert (X : not_before (job_use j) (job_use p) = true) by (apply not_before_job; auto). congruence.
    + exfalso. assert (X : not_before (job_use j) (job_use p) = true) by (apply not_before_job; intros; now destruct A). congruence.
Qed.

(** Any clients, each request in any transport: a request is served exactly if no request before it, served or not, by the
    same client with the same token, has a later time or the same time and nonce. *)
Theorem C97_session : forall a jobs msgs, Forall (valid_job a) jobs -> Forall2 sends jobs msgs ->
  forall i j, nth_error jobs i = Some j ->
  exists answer, nth_error (serve_orders a [] msgs) i = Some answer
    /\ match answer with
       | Some out => own_params out = jb_params j
           /\ forall i' j', i' < i -> nth_error jobs i' = Some j' -> job_account j' = job_account j ->
                (job_time j' <= job_time j)%N /\ job_use j' <> job_use j
       | None => exists i' j', i' < i /\ nth_error jobs i' = Some j' /\ job_account j' = job_account j
                /\ ((job_time j < job_time j')%N \/ job_use j' = job_use j)
       end.
Proof.
  intros a jobs msgs HV HS.
  assert (X : forall past seen, (forall u, In u seen -> exists p, In p past /\ u = job_use p) ->
    (forall p, In p past -> In (job_use p) seen \/ exists q, In (job_use q) seen /\ job_account q = job_account p /\ (job_time p < job_time q)%N) ->
    forall i j, nth_error jobs i = Some j ->
    exists answer, nth_error (serve_orders a seen msgs) i = Some answer
      /\ match answer with
         | Some out => own_params out = jb_params j
             /\ (forall p, In p past -> job_account p = job_account j -> (job_time p <= job_time j)%N /\ job_use p <> job_use j)
             /\ forall i' j', i' < i -> nth_error jobs i' = Some j' -> job_account j' = job_account j ->
                  (job_time j' <= job_time j)%N /\ job_use j' <> job_use j
         | None => (exists p, In p past /\ job_account p = job_account j /\ ((job_time j < job_time p)%N \/ job_use p = job_use j))
             \/ exists i' j', i' < i /\ nth_error jobs i' = Some j' /\ job_account j' = job_account j
                  /\ ((job_time j < job_time j')%N \/ job_use j' = job_use j)
         end).
  { revert HV. induction HS as [|j0 m0 jobs msgs H0 HS IH]; intros HV past seen I1 I2 i j HI; [destruct i; discriminate|].
    inversion HV as [|? ? V0 HV']; subst. specialize (IH HV'). cbn [serve_orders]. unfold serve_order.
    destruct (job_arrives a j0 m0 V0 H0) as [check [out0 [A1 [A2 [A3 A4]]]]].
    assert (EU : use_in m0 = Some (job_use j0)) by (unfold use_in; now rewrite (check_params check m0 out0 A2)).
    rewrite EU. destruct (serve_job a j0 m0 seen V0 H0) as [out1 [HO HE]]. rewrite HE.
    pose proof (in_order_job j0 seen (fun u U => match I1 u U with ex_intro _ p (conj _ E) => ex_intro _ p E end)) as HF.
    assert (Y : exists seen' ans,
      (if forallb (not_before (job_use j0)) seen then if in_dec use_eq_dec (job_use j0) seen then (seen, None) else (job_use j0 :: seen, Some out1) else (seen, None)) = (seen', ans)
      /\ (forall u, In u seen' -> exists p, In p (j0 :: past) /\ u = job_use p)
      /\ (forall p, In p (j0 :: past) -> In (job_use p) seen' \/ exists q, In (job_use q) seen' /\ job_account q = job_account p /\ (job_time p < job_time q)%N)
      /\ match ans with
         | Some out => own_params out = jb_params j0
             /\ (forall p, In p past -> job_account p = job_account j0 -> (job_time p <= job_time j0)%N /\ job_use p <> job_use j0)
         | None => exists p, In p past /\ job_account p = job_account j0 /\ ((job_time j0 < job_time p)%N \/ job_use p = job_use j0)
         end).
    { assert (I1' : forall u, In u seen -> exists p, In p (j0 :: past) /\ u = job_use p).
      { intros u U. destruct (I1 u U) as [p [P ->]]. exists p. split; [now right|reflexivity]. }
      destruct (forallb (not_before (job_use j0)) seen); [destruct (in_dec use_eq_dec (job_use j0) seen) as [J|J]|].
      - exists seen, None. split; [reflexivity|]. split; [exact I1'|]. split.
        + intros p [<-|P]; [now left|now apply I2].
        + destruct (I1 _ J) as [p [P E]]. exists p. split; [exact P|]. symmetry in E. destruct (use_account _ _ E) as [E1 _]. auto.
      - exists (job_use j0 :: seen), (Some out1). split; [reflexivity|]. split.
        { intros u [<-|U]; [exists j0; split; [now left|reflexivity]|now apply I1']. } split.
        { intros p [<-|P]; [left; now left|]. destruct (I2 p P) as [Q|[q [Q1 [Q2 Q3]]]]; [left; now right|]. right. exists q. split; [now right|]. auto. }
        split; [exact HO|]. intros p P A. destruct (I2 p P) as [Q|[q [Q1 [Q2 Q3]]]].
        + split; [now apply HF|]. intros E. apply J. now rewrite <- E.
        + assert (L : (job_time q <= job_time j0)%N) by (apply HF; [exact Q1|congruence]). split; [lia|].
          intros E. destruct (use_account _ _ E) as [_ E2]. lia.
      - destruct HF as [q [Q1 [Q2 Q3]]]. exists seen, None. split; [reflexivity|]. split; [exact I1'|]. split.
        + intros p [<-|P]; [|now apply I2]. right. exists q. auto.
        + destruct (I1 _ Q1) as [p [P E]]. exists p. symmetry in E. destruct (use_account _ _ E) as [E1 E2]. split; [exact P|]. split; [congruence|]. left. lia. }
    destruct Y as [seen' [ans [-> [I1' [I2' HA]]]]]. destruct i as [|i].
    - cbn [nth_error] in HI |- *. injection HI as <-. exists ans. split; [reflexivity|]. destruct ans as [out|].
      + destruct HA as [HA1 HA2]. split; [exact HA1|]. split; [exact HA2|]. intros i' j' L. lia.
      + now left.
    - cbn [nth_error] in HI |- *. destruct (IH (j0 :: past) seen' I1' I2' i j HI) as [answer [E HR]]. exists answer. split; [exact E|].
      destruct answer as [out|].
      + destruct HR as [R1 [R2 R3]]. split; [exact R1|]. split; [intros p P; apply R2; now right|].
        intros [|i'] j' L HJ; cbn [nth_error] in HJ; [injection HJ as <-; apply R2; now left|]. apply (R3 i' j'); [lia|exact HJ].
      + destruct HR as [[p [[<-|P] HR]]|[i' [j' [L [HJ HR]]]]].
        * right. exists 0, j0. split; [lia|]. now split.
        * left. exists p. now split.
        * right. exists (S i'), j'. split; [lia|]. now split. }
  intros i j HI. destruct (X [] [] (fun u U => match U with end) (fun p P => match P with end) i j HI) as [answer [E HR]].
  exists answer. split; [exact E|]. destruct answer as [out|].
  - destruct HR as [R1 [_ R3]]. now split.
  - destruct HR as [[p [[] _]]|HR]. exact HR.
Qed.
Print Assumptions C97_session.

(** So with an empty memory all are served exactly if the times of each client and token do not go back and no two requests
    agree in client, token, time and nonce. *)
Theorem C97_all_served : forall a jobs msgs, Forall (valid_job a) jobs -> Forall2 sends jobs msgs ->
  (Forall (fun answer => answer <> None) (serve_orders a [] msgs)
   <-> (forall i i' j j', i < i' -> nth_error jobs i = Some j -> nth_error jobs i' = Some j' -> job_account j = job_account j' ->
          (job_time j <= job_time j')%N /\ job_use j <> job_use j')).
Proof.
  intros a jobs msgs HV HS. pose proof (C97_session a jobs msgs HV HS) as H.
  assert (HL : length (serve_orders a [] msgs) = length jobs).
  { assert (HS' : length jobs = length msgs) by (clear - HS; induction HS; cbn [length]; congruence).
    rewrite HS'. clear. generalize (@nil use). induction msgs as [|m msgs IH]; intros seen; [reflexivity|].
    cbn [serve_orders]. destruct (serve_order a seen m). cbn [length]. now rewrite IH. }
  split.
  - intros HF i i' j j' L HI HI' A. destruct (H i' j' HI') as [answer [E HR]]. rewrite Forall_forall in HF.
    pose proof (HF answer (nth_error_In _ _ E)) as NN. destruct answer as [out|]; [|now destruct NN]. exact (proj2 HR i j L HI A).
  - intros HN. apply Forall_forall. intros answer HI. apply In_nth_error in HI as [i HI].
    destruct (nth_error jobs i) as [j|] eqn:EJ.
    + destruct (H i j EJ) as [ans [E HR]]. rewrite HI in E. injection E as <-. destruct answer as [out|]; [discriminate|]. intros _.
      destruct HR as [i' [j' [L [HJ [A [T|T]]]]]]; destruct (HN i' i j' j L HJ EJ A) as [N1 N2]; [lia|now destruct N2].
    + apply nth_error_None in EJ. rewrite <- HL in EJ. apply nth_error_None in EJ. congruence.
Qed.
Print Assumptions C97_all_served.

(** ** The clock *)

(** One builder without a fixed time, whose clock does not go back, and requests that differ in time or random bytes: *)
Record one_clock (a : accounts) (b : Builder) (jobs : list job) (msgs : list message) : Prop := {
  oc_valid : Forall (valid_job a) jobs;
  oc_sends : Forall2 sends jobs msgs;
  oc_builder : Forall (fun j => jb_builder j = b) jobs;
  oc_time : op_timestamp (bd_options b) = None;
  oc_nonce : op_nonce (bd_options b) = None;
  oc_clock : forall i i' j j', i < i' -> nth_error jobs i = Some j -> nth_error jobs i' = Some j' -> clock_le (job_clock j) (job_clock j');
  oc_fresh : NoDup (map (fun j => (job_time j, random_bytes (jb_env j) 0)) jobs) }.

(** All are served except in one case: a request was made before 1970 and another in its first second. *)
Theorem C97_clock_partial : forall a b jobs msgs, one_clock a b jobs msgs ->
  (Forall (fun answer => answer <> None) (serve_orders a [] msgs)
   <-> ~ (In None (map job_clock jobs) /\ In (Some 0%N) (map job_clock jobs))).
Proof.
  intros a b jobs msgs [HV HS HB HT HN HC HD]. rewrite (C97_all_served a jobs msgs HV HS).
  assert (ET : forall j, In j jobs -> job_time j = match job_clock j with Some s => s | None => 1%N end).
  { intros j I. rewrite Forall_forall in HB. unfold job_time, time_sent. rewrite (HB j I), HT. reflexivity. }
  split.
  - intros H [I1 I2]. apply in_map_iff in I1 as [j1 [E1 I1]]. apply in_map_iff in I2 as [j2 [E2 I2]].
    pose proof (ET j1 I1) as T1. pose proof (ET j2 I2) as T2. rewrite E1 in T1. rewrite E2 in T2.
    apply In_nth_error in I1 as [i1 N1]. apply In_nth_error in I2 as [i2 N2].
    destruct (Nat.lt_trichotomy i1 i2) as [L|[L|L]].
    + destruct (H i1 i2 j1 j2 L N1 N2) as [X _]; [|lia]. rewrite Forall_forall in HB. unfold job_account.
      now rewrite (HB j1 (nth_error_In _ _ N1)), (HB j2 (nth_error_In _ _ N2)).
    + subst i2. rewrite N1 in N2. injection N2 as <-. congruence.
    + pose proof (HC i2 i1 j2 j1 L N2 N1) as X. rewrite E1, E2 in X. exact X.
  - intros NZ i i' j j' L N1 N2 A. pose proof (nth_error_In _ _ N1) as I1. pose proof (nth_error_In _ _ N2) as I2. split.
    + rewrite (ET j I1), (ET j' I2). pose proof (HC i i' j j' L N1 N2) as X. unfold clock_le in X.
      destruct (job_clock j) as [s|] eqn:C1, (job_clock j') as [t|] eqn:C2; try lia.
      destruct t as [|t]; [|lia]. exfalso. apply NZ. split; [rewrite <- C1|rewrite <- C2]; now apply in_map.
    + intros E. rewrite Forall_forall in HB. destruct (C88_same_use j j') as [U1 U2].
      rewrite (HB j I1), (HB j' I2) in U1, U2. apply U1 in E as [_ [_ [E3 E4]]]. apply (U2 HN HN) in E4.
      rewrite NoDup_nth_error in HD. assert (Z : i = i'); [|lia]. apply HD.
      * rewrite map_length. apply nth_error_Some. congruence.
      * rewrite (map_nth_error (fun j => (job_time j, random_bytes (jb_env j) 0)) _ _ N1), (map_nth_error (fun j => (job_time j, random_bytes (jb_env j) 0)) _ _ N2).
        unfold job_time. now rewrite (HB j I1), (HB j' I2), E3, E4.
Qed.
Print Assumptions C97_clock_partial.

(** The case exists: before 1970 the time sent is 1, and after that, in the first second of 1970, it is 0. *)
Definition early_env : env := {| env_clock := fun _ => None; env_rng := fun _ _ => x01 |}.
Definition early_job : job :=
  Job dbg_std early_env ex_client (lit "POST") (lit "http://example.com/x") ex_request (jb_params (ex_job 0 x02)).

Lemma early_clock : exists msgs, one_clock ex_accounts ex_client [early_job; ex_job 0 x02] msgs.
Proof.
  assert (V : valid_job ex_accounts early_job).
  { destruct (C88_example_valid 0 x02) as [V1 V2 V3 V4 V5]. constructor; assumption. }
  assert (W : valid_job ex_accounts (ex_job 0 x02)) by apply C88_example_valid.
  destruct (C88_sendable _ _ V) as [m1 [_ [_ [_ [_ [S1 _]]]]]]. destruct (C88_sendable _ _ W) as [m2 [_ [_ [_ [_ [S2 _]]]]]].
  exists [m1; m2]. constructor; try reflexivity.
  - apply Forall_cons; [exact V|]. apply Forall_cons; [exact W|apply Forall_nil].
  - apply Forall2_cons; [exact S1|]. apply Forall2_cons; [exact S2|apply Forall2_nil].
  - apply Forall_cons; [reflexivity|]. apply Forall_cons; [reflexivity|apply Forall_nil].
  - intros [|[|i]] [|[|i']] j j' L H H'; try lia; cbn [nth_error] in H, H'; try (destruct i; discriminate); try (destruct i'; discriminate).
    injection H as <-. injection H' as <-. exact I.
  - cbn [map]. constructor; [|constructor; [intros []|constructor]]. intros [E|[]]. apply (f_equal fst) in E. discriminate E.
Qed.

Theorem C97_refuted : ~ (forall a b jobs msgs, one_clock a b jobs msgs ->
  Forall (fun answer => answer <> None) (serve_orders a [] msgs)).
Proof.
  intros H. destruct early_clock as [msgs HC]. pose proof (H _ _ _ _ HC) as X.
  apply (proj1 (C97_clock_partial _ _ _ _ HC)) in X. apply X. split; [now left|right; now left].
Qed.
Print Assumptions C97_refuted.

(** The clock of JavaScript has no such case: with the [js] feature all are served. *)
Theorem C97_js_partial : forall a b jobs msgs (ms : job -> Z),
  Forall (valid_job a) jobs -> Forall2 sends jobs msgs -> Forall (fun j => jb_builder j = b) jobs ->
  op_timestamp (bd_options b) = None -> op_nonce (bd_options b) = None ->
  Forall (fun j => time_value (ms j) /\ exists rng, jb_env j = js_env (fun _ => f64_of_Z (ms j)) rng) jobs ->
  (forall i i' j j', i < i' -> nth_error jobs i = Some j -> nth_error jobs i' = Some j' -> (ms j <= ms j')%Z) ->
  NoDup (map (fun j => (job_time j, random_bytes (jb_env j) 0)) jobs) ->
  Forall (fun answer => answer <> None) (serve_orders a [] msgs).
Proof.
  intros a b jobs msgs ms HV HS HB HT HN HE HC HD. rewrite Forall_forall in HE.
  assert (EC : forall j, In j jobs -> job_clock j = Some (Z.to_N (if (0 <=? ms j)%Z then ms j / 1000 else 0)%Z)).
  { intros j I. destruct (HE j I) as [H1 [rng H2]]. unfold job_clock. rewrite H2. cbn [js_env env_clock]. now rewrite (C79_seconds _ H1). }
  assert (X : one_clock a b jobs msgs).
  { constructor; auto. intros i i' j j' L N1 N2. pose proof (HC i i' j j' L N1 N2) as Y.
    rewrite (EC j (nth_error_In _ _ N1)), (EC j' (nth_error_In _ _ N2)). cbn [clock_le].
    destruct (Z.leb_spec 0 (ms j)), (Z.leb_spec 0 (ms j')); try lia. }
  apply (proj2 (C97_clock_partial a b jobs msgs X)). intros [I _]. apply in_map_iff in I as [j [E I]]. rewrite (EC j I) in E. discriminate.
Qed.
Print Assumptions C97_js_partial.

(** ** Example *)

(** At 5, 5, 7, 6 and 7 seconds; the fourth comes too late, and the last is the third again. *)
Example C97_example :
  map (fun answer : option (list pair) => match answer with Some _ => true | None => false end)
    (serve_orders ex_accounts []
       (map (fun x : N * byte => Message (lit "POST") (lit "http://example.com/x") (PropsReplay.ex_header (fst x) (snd x)) ex_body)
         [(5%N, x01); (5%N, x02); (7%N, x01); (6%N, x01); (7%N, x01)]))
  = [true; true; true; false; false].
Proof. vm_compute. reflexivity. Qed.

(** [early_clock] has jobs as in C97_clock_partial; here are some that are all served. *)
Example C97_example_clock : exists msgs, one_clock ex_accounts ex_client [ex_job 5 x01; ex_job 5 x02; ex_job 7 x01] msgs
  /\ Forall (fun answer => answer <> None) (serve_orders ex_accounts [] msgs).
Proof.
  destruct (C88_sendable _ _ (C88_example_valid 5 x01)) as [m1 [_ [_ [_ [_ [S1 _]]]]]].
  destruct (C88_sendable _ _ (C88_example_valid 5 x02)) as [m2 [_ [_ [_ [_ [S2 _]]]]]].
  destruct (C88_sendable _ _ (C88_example_valid 7 x01)) as [m3 [_ [_ [_ [_ [S3 _]]]]]].
  exists [m1; m2; m3].
  assert (X : one_clock ex_accounts ex_client [ex_job 5 x01; ex_job 5 x02; ex_job 7 x01] [m1; m2; m3]).
  { constructor; try reflexivity.
    - do 3 (apply Forall_cons; [apply C88_example_valid|]). apply Forall_nil.
    - do 3 (apply Forall2_cons; [assumption|]). apply Forall2_nil.
    - do 3 (apply Forall_cons; [reflexivity|]). apply Forall_nil.
    - intros [|[|[|i]]] [|[|[|i']]] j j' L H H'; try lia; cbn [nth_error] in H, H'; try (destruct i; discriminate); try (destruct i'; discriminate);
        injection H as <-; injection H' as <-; cbn; lia.
    - cbn [map]. constructor; [|constructor; [|constructor; [intros []|constructor]]].
      + intros [E|[E|[]]]; [apply (f_equal snd) in E|apply (f_equal fst) in E]; discriminate E.
      + intros [E|[]]. apply (f_equal fst) in E. discriminate E. }
  split; [exact X|]. apply (proj2 (C97_clock_partial _ _ _ _ X)). intros [[H|[H|[H|[]]]] _]; discriminate H.
Qed.

(** C97_js_partial: before 1970, in its first second, and 1.5 seconds later. *)
Definition js_job (ms : Z) (random : byte) : job :=
  Job dbg_std (js_env (fun _ => f64_of_Z ms) (fun _ _ => random)) ex_client (lit "POST") (lit "http://example.com/x") ex_request
    (jb_params (ex_job 0 x01)).
Example C97_example_js : exists msgs (ms : job -> Z),
  let jobs := [js_job (-1) x01; js_job 999 x02; js_job 1500 x01] in
  Forall (valid_job ex_accounts) jobs /\ Forall2 sends jobs msgs
  /\ Forall (fun j => time_value (ms j) /\ exists rng, jb_env j = js_env (fun _ => f64_of_Z (ms j)) rng) jobs
  /\ map ms jobs = [-1; 999; 1500]%Z /\ map job_time jobs = [0; 0; 1]%N.
Proof.
  assert (V : forall ms x, valid_job ex_accounts (js_job ms x)).
  { intros ms x. destruct (C88_example_valid 0 x02) as [V1 V2 V3 V4 V5]. constructor; assumption. }
  destruct (C88_sendable _ _ (V (-1)%Z x01)) as [m1 [_ [_ [_ [_ [S1 _]]]]]].
  destruct (C88_sendable _ _ (V 999%Z x02)) as [m2 [_ [_ [_ [_ [S2 _]]]]]].
  destruct (C88_sendable _ _ (V 1500%Z x01)) as [m3 [_ [_ [_ [_ [S3 _]]]]]].
  exists [m1; m2; m3], (fun j => match job_clock j with Some 0%N => if beqb (env_rng (jb_env j) 0 0) x01 then (-1)%Z else 999%Z | _ => 1500%Z end).
  cbv zeta. split; [do 3 (apply Forall_cons; [apply V|]); apply Forall_nil|].
  split; [do 3 (apply Forall2_cons; [assumption|]); apply Forall2_nil|].
  split; [|split; vm_compute; reflexivity].
  apply Forall_cons; [|apply Forall_cons; [|apply Forall_cons; [|apply Forall_nil]]].
  - replace (match job_clock (js_job (-1) x01) with Some 0%N => _ | _ => _ end) with (-1)%Z by (vm_compute; reflexivity).
    split; [now vm_compute|]. now eexists.
  - replace (match job_clock (js_job 999 x02) with Some 0%N => _ | _ => _ end) with 999%Z by (vm_compute; reflexivity).
    split; [now vm_compute|]. now eexists.
  - replace (match job_clock (js_job 1500 x01) with Some 0%N => _ | _ => _ end) with 1500%Z by (vm_compute; reflexivity).
    split; [now vm_compute|]. now eexists.
Qed.
