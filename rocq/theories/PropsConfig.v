(** C81: the build configuration decides which panics there are, and nothing else. *)
From Coq Require Import String.
From Coq Require Import Lia Arith Sorted Permutation.
From Verif Require Import Bytes Crypto Spec MFmt MPercent MSerializer MSign MRequest MCredentials MAuth MBuilder MDerive ModelTests
  SpecFmt SpecCalls SpecCalls2 SpecAuth SpecBuild SpecForm SpecServer SpecParams SpecSign SpecPanic SpecDerive
  LBytes LFmt LTrace LAuth LBuild LReq2 LBuf LCheck LDerive PropsDerive PropsDerived.

(** ** Specification *)

(** [c'] checks no more than [c] and has a clock if [c] has one. *)
Record laxer (c c' : cfg) : Prop := {
  lx_debug : cf_debug c' = true -> cf_debug c = true;
  lx_order : cf_alloc c' = true -> cf_debug c' = true -> cf_alloc c = true;
  lx_clock : cf_std c = true -> cf_std c' = true;
}.

(** The panics that only some configurations have. *)
Inductive check_panic (c : cfg) (uri : disp) : panic -> Prop :=
  | ck_query : cf_debug c = true -> has_question (dtext uri) -> check_panic c uri PUriQuery
  | ck_uri_err : cf_debug c = true -> dfinal uri = Ok false -> check_panic c uri PFmt
  | ck_uri_panic : forall p, cf_debug c = true -> dfinal uri = Panic p -> check_panic c uri p
  | ck_order : cf_debug c = true -> cf_alloc c = true -> check_panic c uri PDictOrder
  | ck_clock : cf_std c = false -> check_panic c uri PNoTimestamp.

(** ** A simulation *)

(** [r'] is what [r] is, except that it may do without some of the panics. *)
Definition relaxed {A B} (excuse : panic -> Prop) (R : A -> B -> Prop) (r : res A) (r' : res B) : Prop :=
  match r with
  | Ok a => exists b, r' = Ok b /\ R a b
  | Panic p => r' = Panic p \/ excuse p
  end.

Lemma relaxed_bind : forall {A B C D} ex (R : A -> B -> Prop) (Q : C -> D -> Prop) r r' f g,
  relaxed ex R r r' -> (forall a b, R a b -> relaxed ex Q (f a) (g b)) -> relaxed ex Q (rbind r f) (rbind r' g).
Proof.
  intros A B C D ex R Q [a|p] r' f g H HF; cbn in *.
  - destruct H as [b [-> H]]. now apply HF.
  - destruct H as [->|H]; auto.
Qed.
Lemma relaxed_ok : forall {A B} ex (R : A -> B -> Prop) a b, R a b -> relaxed ex R (Ok a) (Ok b).
Proof. intros. cbn. eauto. Qed.
Lemma relaxed_same : forall {A} ex (r : res A), relaxed ex eq r r.
Proof. intros A ex [a|p]; cbn; eauto. Qed.

Section Sim.
  Context {sg : Sign} {w : Writer}.
  Variables (c c' : cfg) (e : env) (uri : disp).
  Hypothesis HL : laxer c c'.
  Let A := Authorizer sg w.
  Let ex := check_panic c uri.

  (** The same, except for the key remembered by the ordering check, which only matters if both check. *)
  Definition alike (a a' : A) : Prop :=
    (exists k, a' = with_prev a k) /\ (cf_alloc c' && cf_debug c' = true -> au_prev_key a' = au_prev_key a).
  Let R := relaxed ex alike.

  Lemma check_sim : forall a a' k, alike a a' -> R (check_dictionary_order c a k) (check_dictionary_order c' a' k).
  Proof.
    intros a a' k [[k0 ->] HK]. unfold check_dictionary_order.
    destruct (cf_alloc c' && cf_debug c') eqn:E'.
    - apply andb_true_iff in E' as [E1 E2]. pose proof (lx_debug _ _ HL E2) as D. pose proof (lx_order _ _ HL E1 E2) as O.
      rewrite D, O. cbn [andb]. specialize (HK eq_refl). cbn [with_prev au_prev_key] in HK. subst k0.
      cbn [with_prev au_prev_key]. destruct (bleb (au_prev_key a) k).
      + cbn. eexists. split; [reflexivity|]. split; [now exists k|reflexivity].
      + now left.
    - destruct (cf_alloc c && cf_debug c) eqn:E.
      + destruct (bleb (au_prev_key a) k).
        * cbn. eexists. split; [reflexivity|]. split; [exists k0; reflexivity|congruence].
        * right. apply andb_true_iff in E as [E1 E2]. now constructor.
      + cbn. eexists. split; [reflexivity|]. split; [exists k0; reflexivity|congruence].
  Qed.

  Lemma delim_sim : forall a a', alike a a' -> R (sign_delimiter a) (sign_delimiter a').
  Proof.
    intros a a' [[k0 ->] HK]. unfold sign_delimiter. cbn [with_prev au_append_delim au_sign].
    destruct (au_append_delim a).
    - apply (relaxed_bind ex eq); [apply relaxed_same|]. intros s s' <-. apply relaxed_ok. split; [now exists k0|exact HK].
    - apply relaxed_ok. split; [now exists k0|exact HK].
  Qed.

  Lemma step_sim : forall a a' f, alike a a' -> R (sign_step a f) (sign_step a' f).
  Proof.
    intros a a' f [[k0 ->] HK]. unfold sign_step. cbn [with_prev au_sign].
    apply (relaxed_bind ex eq); [apply relaxed_same|]. intros s s' <-. apply relaxed_ok. split; [now exists k0|exact HK].
  Qed.

  Lemma append_enc_sim : forall a a' k v, alike a a' ->
    R (append_to_header_encoded c a k v) (append_to_header_encoded c' a' k v).
  Proof.
    intros a a' k v H. unfold append_to_header_encoded.
    apply (relaxed_bind ex alike); [now apply check_sim|]. clear a a' H. intros a a' H.
    apply (relaxed_bind ex alike); [|intros; now apply delim_sim].
    destruct H as [[k0 ->] HK]. cbn [with_prev au_data]. destruct (au_data a) as [h|u].
    - apply (relaxed_bind ex eq); [apply relaxed_same|]. intros s s' <-. apply relaxed_ok. split; [now exists k0|exact HK].
    - apply (relaxed_bind ex eq); [apply relaxed_same|]. intros s s' <-. apply relaxed_ok. split; [now exists k0|exact HK].
  Qed.

  Lemma append_sim : forall a a' k f v, alike a a' -> R (append_to_header c a k f v) (append_to_header c' a' k f v).
  Proof.
    intros a a' k f v H. unfold append_to_header. apply (relaxed_bind ex alike); [now apply append_enc_sim|].
    intros. now apply step_sim.
  Qed.

  Lemma call_sim : forall x a a', alike a a' ->
    R (run_call (S := AuthorizerS sg w c e) x a) (run_call (S := AuthorizerS sg w c' e) x a').
  Proof.
    intros x a a' H.
    assert (HS : au_sign a' = au_sign a /\ au_options a' = au_options a /\ au_token a' = au_token a
      /\ au_consumer_key a' = au_consumer_key a /\ au_draws a' = au_draws a /\ au_ticks a' = au_ticks a).
    { destruct H as [[k0 ->] _]. repeat split. }
    destruct HS as [ES [EO [ET [EC [ED EK]]]]].
    assert (HP : forall f k, R (a <- check_dictionary_order c a k ;; a <- sign_delimiter a ;; sign_step a f)
                            (a <- check_dictionary_order c' a' k ;; a <- sign_delimiter a ;; sign_step a f)).
    { intros f k. apply (relaxed_bind ex alike); [now apply check_sim|]. intros.
      apply (relaxed_bind ex alike); [now apply delim_sim|]. intros. now apply step_sim. }
    assert (HE : forall b b' k v f, alike b b' -> R (a <- append_to_header_encoded c b k v ;; sign_step a f)
                            (a <- append_to_header_encoded c' b' k v ;; sign_step a f)).
    { intros b b' k v f HB. apply (relaxed_bind ex alike); [now apply append_enc_sim|]. intros. now apply step_sim. }
    assert (HID : R (Ok a) (Ok a')) by now apply relaxed_ok.
    destruct x as [k v|k v|[]];
      cbn [run_call sr_parameter sr_parameter_encoded sr_oauth_callback sr_oauth_consumer_key sr_oauth_nonce
           sr_oauth_signature_method sr_oauth_timestamp sr_oauth_token sr_oauth_verifier sr_oauth_version AuthorizerS].
    - apply HP.
    - apply HP.
    - unfold au_oauth_callback. rewrite EO. destruct (op_callback (au_options a)); [now apply append_sim|exact HID].
    - unfold au_oauth_consumer_key. rewrite EC. now apply append_sim.
    - unfold au_oauth_nonce. rewrite ES, EO, ED. destruct (sg_use_nonce (au_sign a)); [|exact HID].
      destruct (op_nonce (au_options a)); [now apply append_sim|].
      apply (relaxed_bind ex eq); [apply relaxed_same|]. intros n n' <-. apply HE.
      destruct H as [[k0 ->] HK]. split; [now exists k0|exact HK].
    - unfold au_oauth_signature_method. rewrite ES. now apply HE.
    - unfold au_oauth_timestamp. rewrite ES, EO, EK. destruct (sg_use_timestamp (au_sign a)); [|exact HID].
      apply (relaxed_bind ex (fun p p' => fst p = fst p' /\ alike (snd p) (snd p'))).
      + destruct (op_timestamp (au_options a)) as [t|]; [now apply relaxed_ok|].
        apply (relaxed_bind ex eq).
        * unfold get_current_timestamp. destruct (cf_std c) eqn:EQ.
          -- rewrite (lx_clock _ _ HL EQ). apply relaxed_same.
          -- right. now constructor.
        * intros t t' <-. apply relaxed_ok. split; auto. cbn [snd].
          destruct H as [[k0 ->] HK]. split; [now exists k0|exact HK].
      + intros [t b] [t' b']. cbn [fst snd]. intros [<- HB]. now apply HE.
    - unfold au_oauth_token. rewrite ET. destruct (au_token a); [now apply append_sim|exact HID].
    - unfold au_oauth_verifier. rewrite EO. destruct (op_verifier (au_options a)); [now apply append_sim|exact HID].
    - unfold au_oauth_version. rewrite EO. destruct (op_version (au_options a)); [now apply HE|exact HID].
  Qed.

  Lemma calls_sim : forall cs a a', alike a a' ->
    R (run_calls (S := AuthorizerS sg w c e) cs a) (run_calls (S := AuthorizerS sg w c' e) cs a').
  Proof.
    induction cs as [|x cs IH]; intros a a' H; cbn [run_calls]; [now apply relaxed_ok|].
    apply (relaxed_bind ex alike); [now apply call_sim|]. intros. now apply IH.
  Qed.

  Lemma end_sim : forall a a', alike a a' -> relaxed ex eq (au_end a) (au_end a').
  Proof. intros a a' [[k0 ->] _]. apply relaxed_same. Qed.
End Sim.

Lemma make_sign_sim : forall c c' sm method uri client token, laxer c c' ->
  relaxed (check_panic c uri) eq (make_sign c sm method uri client token) (make_sign c' sm method uri client token).
Proof.
  intros c c' sm method uri client token HL. unfold make_sign.
  apply (relaxed_bind _ (fun _ _ => True)); [|intros _ _ _; apply relaxed_same].
  destruct (cf_debug c') eqn:ED.
  - rewrite (lx_debug _ _ HL ED).
    destruct (write_unwrap (w := AssertNotContainQuestion) uri tt) as [x|p]; cbn; eauto.
  - destruct (cf_debug c) eqn:EC; [|cbn; eauto].
    unfold write_unwrap. rewrite question_run. destruct (contains_question (dtext uri)) eqn:EQ; cbn [rbind relaxed].
    + right. constructor; auto. now apply contains_question_in.
    + destruct (dfinal uri) as [[|]|p] eqn:EF; cbn [rbind relaxed].
      * eauto.
      * right. now apply ck_uri_err.
      * right. now apply ck_uri_panic.
Qed.

(** ** C81 *)

(** A request that is authorized under one configuration gets the same result under every laxer one.
    [r] and [r'] are the request as compiled for the two: they make the same calls. *)
Theorem C81_relaxed : forall c c' e b k method r r' cs, laxer c c' -> makes_calls r cs -> makes_calls r' cs ->
  match run c e b k method r with
  | Ok out => run c' e b k method r' = Ok out
  | Panic p => run c' e b k method r' = Panic p \/ check_panic c (kind_uri k) p
  end.
Proof.
  intros c c' e b k method r r' cs HL HM HM'.
  assert (H : relaxed (check_panic c (kind_uri k)) eq (run c e b k method r) (run c' e b k method r')).
  { rewrite !run_go. apply (relaxed_bind _ eq); [apply relaxed_same|]. intros d d' <-. unfold go.
    apply (relaxed_bind _ eq); [now apply make_sign_sim|]. intros s s' <-. rewrite HM, HM'. cbn [sr_end AuthorizerS].
    apply (relaxed_bind _ (alike c')).
    - apply calls_sim; auto. split; [|reflexivity]. eexists. reflexivity.
    - intros a a' HA. now apply (end_sim c c'). }
  destruct (run c e b k method r) as [out|p]; cbn in H; auto.
  destruct H as [out' [-> ->]]. reflexivity.
Qed.
Print Assumptions C81_relaxed.

(** So no two configurations ever give different results for the same request. *)
Theorem C81_same : forall c c' e b k method r r' cs out out', makes_calls r cs -> makes_calls r' cs ->
  run c e b k method r = Ok out -> run c' e b k method r' = Ok out' -> out = out'.
Proof.
  intros c c' e b k method r r' cs out out' HM HM' H H'.
  set (c0 := {| cf_debug := false; cf_alloc := true; cf_std := true |}).
  assert (L : forall c, laxer c c0) by (intros; constructor; auto; discriminate).
  pose proof (C81_relaxed c c0 e b k method r r cs (L c) HM HM) as X. rewrite H in X.
  pose proof (C81_relaxed c' c0 e b k method r' r cs (L c') HM' HM) as X'. rewrite H' in X'. congruence.
Qed.
Print Assumptions C81_same.

(** The crate's own requests, which themselves contain checks, make the same calls with and without them. *)
Theorem C81_crate : forall c c' e b k method r r' l out out', crate_request r l -> crate_request r' l ->
  run c e b k method r = Ok out -> run c' e b k method r' = Ok out' -> out = out'.
Proof.
  intros c c' e b k method r r' l out out' HR HR'. apply (C81_same c c' e b k method _ _ (calls_of l)).
  - exact (crate_request_calls _ _ HR).
  - exact (crate_request_calls _ _ HR').
Qed.
Print Assumptions C81_crate.

(** The derive macro generates the same code whether it is itself compiled with debug assertions or not. *)
Theorem C81_macro : forall sy dbg dbg' found input, expand sy dbg found input = expand sy dbg' found input.
Proof. intros sy dbg dbg' found [attrs [fs|]]; [|reflexivity]. now rewrite !expand_spec. Qed.
Print Assumptions C81_macro.

Theorem C81_derived : forall {V} (pg : program V) self sy fs callss r c c' e b k method out out',
  derived_request pg self sy fs callss r ->
  run c e b k method r = Ok out -> run c' e b k method r = Ok out' -> out = out'.
Proof.
  intros V pg self sy fs callss r c c' e b k method out out' HR.
  destruct (derived_request_calls _ _ _ _ _ _ HR) as [cs [HM _]]. exact (C81_same c c' e b k method r r cs out out' HM HM).
Qed.
Print Assumptions C81_derived.

(** Forms and queries of requests have no checks of their own. *)
Theorem C81_plain : forall r r' l uri, crate_request r l -> crate_request r' l ->
  to_form r = to_form r' /\ to_query uri r = to_query uri r'.
Proof.
  intros r r' l uri HR HR'. unfold to_form, to_query.
  now rewrite !(crate_request_calls _ _ HR), !(crate_request_calls _ _ HR').
Qed.
Print Assumptions C81_plain.

(** Each of these panics occurs in one configuration and not in another. *)
Definition strict_std : cfg := {| cf_debug := true; cf_alloc := true; cf_std := true |}.
Definition lax_std : cfg := {| cf_debug := false; cf_alloc := true; cf_std := true |}.
Definition lax_no_std : cfg := {| cf_debug := false; cf_alloc := false; cf_std := false |}.
Definition b81 : Builder := Builder_new (Cred (lit "c") (lit "s")) PLAINTEXT.
Definition out81 (c : cfg) (uri : disp) (r : Request) : bool + panic :=
  match run c env0 b81 (KAuthorize uri) (lit "GET") r with Ok _ => inl true | Panic p => inr p end.
Example C81_example :
  laxer strict_std lax_std /\ laxer lax_no_std lax_std
  /\ out81 strict_std (dstr (lit "http://a")) (AssertSorted true [(lit "b", dstr (lit "1"))]) = inl true
  /\ out81 lax_std (dstr (lit "http://a")) (AssertSorted false [(lit "b", dstr (lit "1"))]) = inl true
  /\ out81 strict_std (dstr (lit "http://a?b")) Request_unit = inr PUriQuery
  /\ out81 lax_std (dstr (lit "http://a?b")) Request_unit = inl true
  /\ out81 strict_std (DRet false) Request_unit = inr PFmt
  /\ out81 lax_std (DRet false) Request_unit = inl true
  /\ out81 strict_std (DPanic PUser) Request_unit = inr PUser
  /\ out81 lax_std (DPanic PUser) Request_unit = inl true
  /\ out81 strict_std (dstr (lit "http://a")) (AssertSorted true [(lit "b", dstr (lit "1")); (lit "a", dstr (lit "1"))]) = inr PDictOrder
  /\ out81 lax_std (dstr (lit "http://a")) (AssertSorted false [(lit "b", dstr (lit "1")); (lit "a", dstr (lit "1"))]) = inl true
  /\ out81 lax_no_std (dstr (lit "http://a")) Request_unit = inr PNoTimestamp
  /\ out81 lax_std (dstr (lit "http://a")) Request_unit = inl true.
Proof. split; [constructor; auto; discriminate|]. split; [constructor; auto; discriminate|]. vm_compute. repeat split. Qed.
