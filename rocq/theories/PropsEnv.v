(** C83: what an authorization takes from the clock and the random source. *)
From Coq Require Import String.
From Coq Require Import Lia Arith Sorted Permutation.
From Verif Require Import Bytes Crypto Spec MFmt MPercent MSerializer MSign MRequest MCredentials MAuth MBuilder MDerive ModelTests
  SpecFmt SpecCalls SpecCalls2 SpecAuth SpecBuild SpecForm SpecServer SpecParams SpecSign SpecPanic SpecDerive
  LBytes LFmt LTrace LAuth LBuild LReq LReq2 LBuf LCheck LDerive PropsDerive PropsDerived.

(** ** Specification *)

(** How often a request asks for a protocol parameter. *)
Definition asks (p : proto) (cs : list call) : nat :=
  length (filter (fun q => match p, q with
                           | PNonce, PNonce | PTimestamp, PTimestamp => true
                           | _, _ => false
                           end) (call_protos cs)).

(** The two environments yield the same nine bytes at the [n]-th draw. *)
Definition same_draw (e e' : env) (n : nat) : Prop := forall i, i < 9 -> env_rng e n i = env_rng e' n i.

(** ** Proof *)

Section Env.
  Context {sg : Sign} {w : Writer}.
  Variable c : cfg.
  Let A := Authorizer sg w.

  (** Everything but the nonce and the timestamp leaves these alone. *)
  Definition still (a a' : A) : Prop :=
    au_options a' = au_options a /\ au_draws a' = au_draws a /\ au_ticks a' = au_ticks a.

  Lemma still_check : forall a k a', check_dictionary_order c a k = Ok a' -> still a a'.
  Proof.
    intros a k a' H. unfold check_dictionary_order in H. destruct (cf_alloc c && cf_debug c); [|injection H as <-; repeat split].
    destruct (bleb _ _); [injection H as <-; repeat split|discriminate].
  Qed.
  Lemma still_delim : forall (a a' : A), sign_delimiter a = Ok a' -> still a a'.
  Proof.
    intros a a' H. unfold sign_delimiter in H. destruct (au_append_delim a); [|injection H as <-; repeat split].
    apply rbind_ok in H as [s [_ H]]. injection H as <-. repeat split.
  Qed.
  Lemma still_step : forall (a : A) f a', sign_step a f = Ok a' -> still a a'.
  Proof. intros a f a' H. unfold sign_step in H. apply rbind_ok in H as [s [_ H]]. injection H as <-. repeat split. Qed.
  Lemma still_trans : forall a b d, still a b -> still b d -> still a d.
  Proof. intros a b d [H1 [H2 H3]] [K1 [K2 K3]]. unfold still. now rewrite K1, K2, K3. Qed.
  Lemma still_append_enc : forall a k v a', append_to_header_encoded c a k v = Ok a' -> still a a'.
  Proof.
    intros a k v a' H. unfold append_to_header_encoded in H. apply rbind_ok in H as [b [H1 H]]. apply still_check in H1.
    apply rbind_ok in H as [d [H2 H]]. apply still_delim in H. apply (still_trans _ b); [exact H1|]. apply (still_trans _ d); [|exact H].
    destruct (au_data b); apply rbind_ok in H2 as [x [_ H2]]; injection H2 as <-; repeat split.
  Qed.
  Lemma still_append : forall a k f v a', append_to_header c a k f v = Ok a' -> still a a'.
  Proof.
    intros a k f v a' H. unfold append_to_header in H. apply rbind_ok in H as [b [H1 H]]. apply still_append_enc in H1.
    apply still_step in H. eapply still_trans; eauto.
  Qed.

  (** A call moves the counters only as far as it asks, and not if the value is configured. *)
  Lemma call_moves : forall e x (a a' : A), run_call (S := AuthorizerS sg w c e) x a = Ok a' ->
    au_options a' = au_options a
    /\ au_draws a' <= au_draws a + asks PNonce [x] /\ au_ticks a' <= au_ticks a + asks PTimestamp [x].
  Proof.
    intros e x a a' H.
    assert (HS : still a a' -> au_options a' = au_options a
      /\ au_draws a' <= au_draws a + asks PNonce [x] /\ au_ticks a' <= au_ticks a + asks PTimestamp [x]).
    { intros [-> [-> ->]]. split; [reflexivity|lia]. }
    assert (HP : forall k f, (b <- check_dictionary_order c a k ;; b <- sign_delimiter b ;; sign_step b f) = Ok a' -> still a a').
    { intros k f K. apply rbind_ok in K as [b [K1 K]]. apply rbind_ok in K as [d [K2 K]].
      apply still_check in K1. apply still_delim in K2. apply still_step in K. eauto using still_trans. }
    assert (HE : forall b k v f, (b <- append_to_header_encoded c b k v ;; sign_step b f) = Ok a' -> still b a').
    { intros b k v f K. apply rbind_ok in K as [d [K1 K]]. apply still_append_enc in K1. apply still_step in K. eauto using still_trans. }
    assert (HI : Ok a = Ok a' -> still a a') by (intros K; injection K as <-; repeat split).
    destruct x as [k v|k v|[]];
      cbn [run_call sr_parameter sr_parameter_encoded sr_oauth_callback sr_oauth_consumer_key sr_oauth_nonce
           sr_oauth_signature_method sr_oauth_timestamp sr_oauth_token sr_oauth_verifier sr_oauth_version AuthorizerS] in H.
    - apply HS. exact (HP _ _ H).
    - apply HS. exact (HP _ _ H).
    - apply HS. unfold au_oauth_callback in H. destruct (op_callback _); [now apply still_append in H|now apply HI].
    - apply HS. now apply still_append in H.
    - unfold au_oauth_nonce in H. destruct (sg_use_nonce _); [|now apply HS, HI].
      destruct (op_nonce _); [apply HS; now apply still_append in H|].
      apply rbind_ok in H as [n [_ H]]. apply HE in H as [-> [-> ->]]. cbn. split; [reflexivity|lia].
    - apply HS. exact (HE _ _ _ _ H).
    - unfold au_oauth_timestamp in H. destruct (sg_use_timestamp _); [|now apply HS, HI].
      apply rbind_ok in H as [[t b] [H1 H]]. apply HE in H. destruct (op_timestamp _).
      + injection H1 as _ <-. now apply HS.
      + apply rbind_ok in H1 as [t' [_ H1]]. injection H1 as _ <-. destruct H as [-> [-> ->]]. cbn. split; [reflexivity|lia].
    - apply HS. unfold au_oauth_token in H. destruct (au_token _); [now apply still_append in H|now apply HI].
    - apply HS. unfold au_oauth_verifier in H. destruct (op_verifier _); [now apply still_append in H|now apply HI].
    - apply HS. unfold au_oauth_version in H. destruct (op_version _); [exact (HE _ _ _ _ H)|now apply HI].
  Qed.

  Lemma draw_same : forall e e' n, same_draw e e' n -> draw e n = draw e' n.
  Proof. intros e e' n H. unfold draw. apply map_ext_in. intros i Hi. apply in_seq in Hi. apply H. vm_compute in Hi. lia. Qed.

  Lemma call_same : forall e e' x (a : A),
    (op_nonce (au_options a) = None -> asks PNonce [x] = 1 -> same_draw e e' (au_draws a)) ->
    (op_timestamp (au_options a) = None -> asks PTimestamp [x] = 1 -> env_clock e (au_ticks a) = env_clock e' (au_ticks a)) ->
    run_call (S := AuthorizerS sg w c e) x a = run_call (S := AuthorizerS sg w c e') x a.
  Proof.
    intros e e' x a HN HT. destruct x as [k v|k v|[]]; try reflexivity; cbn [run_call sr_oauth_nonce sr_oauth_timestamp AuthorizerS].
    - unfold au_oauth_nonce. destruct (sg_use_nonce _); [|reflexivity]. destruct (op_nonce (au_options a)); [reflexivity|].
      now rewrite (draw_same e e' _ (HN eq_refl eq_refl)).
    - unfold au_oauth_timestamp. destruct (sg_use_timestamp _); [|reflexivity]. destruct (op_timestamp (au_options a)); [reflexivity|].
      now rewrite (HT eq_refl eq_refl).
  Qed.

  Lemma asks_cons : forall p x cs, asks p (x :: cs) = asks p [x] + asks p cs.
  Proof. intros p x cs. unfold asks, call_protos. cbn [flat_map]. rewrite app_nil_r, filter_app, app_length. reflexivity. Qed.

  Lemma calls_same : forall e e' cs (a : A),
    (op_nonce (au_options a) = None -> forall n, n < au_draws a + asks PNonce cs -> same_draw e e' n) ->
    (op_timestamp (au_options a) = None -> forall n, n < au_ticks a + asks PTimestamp cs -> env_clock e n = env_clock e' n) ->
    run_calls (S := AuthorizerS sg w c e) cs a = run_calls (S := AuthorizerS sg w c e') cs a.
  Proof.
    intros e e' cs. induction cs as [|x cs IH]; intros a HN HT; [reflexivity|]. cbn [run_calls].
    rewrite asks_cons in HN, HT. rewrite (call_same e e').
    - destruct (run_call (S := AuthorizerS sg w c e') x a) as [a'|p] eqn:E; [|reflexivity]. cbn [rbind].
      apply call_moves in E as [EO [ED ET]]. apply IH; rewrite EO.
      + intros H n Hn. apply HN; [exact H|lia].
      + intros H n Hn. apply HT; [exact H|lia].
    - intros H K. apply HN; [exact H|lia].
    - intros H K. apply HT; [exact H|lia].
  Qed.
End Env.

(** ** C83 *)

(** The result depends on the random source through as many draws as the request asks for nonces, and not at all if the
    nonce is configured; likewise for the clock.  This holds for every signature method, also one of the user. *)
Theorem C83_env : forall c e e' b k method r cs, makes_calls r cs ->
  (op_nonce (bd_options b) = None -> forall n, n < asks PNonce cs -> same_draw e e' n) ->
  (op_timestamp (bd_options b) = None -> forall n, n < asks PTimestamp cs -> env_clock e n = env_clock e' n) ->
  run c e b k method r = run c e' b k method r.
Proof.
  intros c e e' b k method r cs HM HN HT. rewrite !run_go. destruct (kind_data k) as [d|p]; [|reflexivity]. cbn [rbind]. unfold go.
  destruct (make_sign _ _ _ _ _ _) as [s|p]; [|reflexivity]. cbn [rbind]. rewrite !HM. cbn [sr_end AuthorizerS].
  rewrite (calls_same c e e'); [reflexivity| |]; cbn [au_new au_options au_draws au_ticks]; assumption.
Qed.
Print Assumptions C83_env.

(** With both configured the output is reproducible: it is the same at any time and with any random numbers. *)
Theorem C83_reproducible : forall c e e' b k method r cs n t, makes_calls r cs ->
  op_nonce (bd_options b) = Some n -> op_timestamp (bd_options b) = Some t ->
  run c e b k method r = run c e' b k method r.
Proof. intros c e e' b k method r cs n t HM HN HT. apply (C83_env c e e' b k method r cs HM); congruence. Qed.
Print Assumptions C83_reproducible.

(** The requests of the crate and those of the derive macro: one draw and one reading. *)
Lemma asks_all : forall p cs, call_protos cs = all_protos -> asks p cs <= 1.
Proof. intros p cs H. unfold asks. rewrite H. destruct p; cbn; lia. Qed.

Theorem C83_crate : forall c e e' b k method r l, crate_request r l ->
  (op_nonce (bd_options b) = None -> same_draw e e' 0) ->
  (op_timestamp (bd_options b) = None -> env_clock e 0 = env_clock e' 0) ->
  run c e b k method r = run c e' b k method r.
Proof.
  intros c e e' b k method r l HR HN HT. pose proof (crate_request_calls _ _ HR) as HM.
  assert (HA : call_protos (calls_of l) = all_protos) by apply call_protos_calls_of.
  apply (C83_env c e e' b k method r _ HM).
  - intros H n Hn. pose proof (asks_all PNonce _ HA). replace n with 0 by lia. auto.
  - intros H n Hn. pose proof (asks_all PTimestamp _ HA). replace n with 0 by lia. auto.
Qed.
Print Assumptions C83_crate.

Theorem C83_derived : forall {V} (pg : program V) self sy fs callss r c e e' b k method,
  derived_request pg self sy fs callss r ->
  (op_nonce (bd_options b) = None -> same_draw e e' 0) ->
  (op_timestamp (bd_options b) = None -> env_clock e 0 = env_clock e' 0) ->
  run c e b k method r = run c e' b k method r.
Proof.
  intros V pg self sy fs callss r c e e' b k method HR HN HT.
  destruct (derived_request_calls _ _ _ _ _ _ HR) as [cs [HM [_ [HA _]]]].
  apply (C83_env c e e' b k method r _ HM).
  - intros H n Hn. pose proof (asks_all PNonce _ HA). replace n with 0 by lia. auto.
  - intros H n Hn. pose proof (asks_all PTimestamp _ HA). replace n with 0 by lia. auto.
Qed.
Print Assumptions C83_derived.

(** Forms and queries of a request without a builder use neither; they have no such argument. *)

(** What is not configured does matter. *)
Definition env83 : env := {| env_clock := fun n => match n with O => Some 7%N | _ => None end; env_rng := fun n _ => match n with O => x02 | _ => xff end |}.
Definition b83 : Builder := Builder_new (Cred (lit "c") (lit "s")) HMAC_SHA1.
Definition fixed83 : Builder := Builder_nonce (Some (lit "n")) (Builder_timestamp (Some 5%N) b83).
Definition out83 (e : env) (b : Builder) : bytes :=
  match run dbg_std e b (KAuthorize (dstr (lit "http://a"))) (lit "GET") Request_unit with Ok h => h | Panic _ => [] end.
Example C83_example :
  asks PNonce (calls_of []) = 1 /\ asks PTimestamp (calls_of []) = 1
  /\ bseqb (out83 env0 fixed83) (out83 env83 fixed83) = true /\ out83 env0 fixed83 <> []
  /\ bseqb (out83 env0 (Builder_nonce (Some (lit "n")) b83)) (out83 env83 (Builder_nonce (Some (lit "n")) b83)) = false
  /\ bseqb (out83 env0 (Builder_timestamp (Some 5%N) b83)) (out83 env83 (Builder_timestamp (Some 5%N) b83)) = false.
Proof. vm_compute. repeat split. discriminate. Qed.
