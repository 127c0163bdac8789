(** Text already in a [String] buffer is carried along and influences nothing. *)
From Coq Require Import String.
From Coq Require Import Lia Arith Sorted Permutation.
From Verif Require Import Bytes Crypto Spec MFmt MPercent MSerializer MSign MRequest MCredentials MAuth MBuilder
  SpecCalls LBytes LFmt LTrace LBuild.

Definition rmap {A B} (f : A -> B) (r : res A) : res B :=
  match r with Ok a => Ok (f a) | Panic p => Panic p end.

Lemma rbind_rmap : forall {A B A' B'} (g : A -> A') (g' : B -> B') (m : res A) (m' : res A')
  (f : A -> res B) (f' : A' -> res B'),
  m' = rmap g m -> (forall x, f' (g x) = rmap g' (f x)) -> (x <- m' ;; f' x) = rmap g' (x <- m ;; f x).
Proof. intros A B A' B' g g' m m' f f' -> H. destruct m; cbn [rmap rbind]; auto. Qed.

Lemma write_prefix : forall d (p s : StringW),
  write_unwrap (w := StringW) d (p ++ s) = rmap (app p) (write_unwrap (w := StringW) d s).
Proof.
  intros d p s. unfold write_unwrap. rewrite !run_disp_string. destruct (dfinal d) as [[|]|]; cbn [rbind rmap]; auto.
  now rewrite <- app_assoc.
Qed.

Definition preu (p : bytes) (u : Urlencoder StringW) : Urlencoder StringW :=
  Build_Urlencoder (w := StringW) (p ++ ue_data u) (ue_next_append u).
Definition pred (p : bytes) (d : Data StringW) : Data StringW :=
  match d with
  | Authorization h => Authorization (w := StringW) (p ++ h)
  | Urlencode u => Urlencode (preu p u)
  end.

Lemma ue_delim_prefix : forall p u, ue_append_delim (preu p u) = rmap (preu p) (ue_append_delim u).
Proof.
  intros p u. unfold ue_append_delim. cbn [preu ue_next_append ue_data]. destruct (ue_next_append u); [reflexivity|..];
    (apply rbind_rmap with (g := app p); [apply write_prefix|reflexivity]).
Qed.

Lemma ue_enc_prefix : forall p u k v,
  ue_parameter_encoded (preu p u) k v = rmap (preu p) (ue_parameter_encoded u k v).
Proof.
  intros p u k v. unfold ue_parameter_encoded. apply rbind_rmap with (g := preu p); [apply ue_delim_prefix|].
  intros u'. cbn [preu ue_data]. apply rbind_rmap with (g := app p); [apply write_prefix|reflexivity].
Qed.

Lemma ue_param_prefix : forall p u k v,
  ue_parameter (preu p u) k v = rmap (preu p) (ue_parameter u k v).
Proof.
  intros p u k v. unfold ue_parameter. apply rbind_rmap with (g := preu p); [apply ue_delim_prefix|].
  intros u'. cbn [preu ue_data]. apply rbind_rmap with (g := app p); [apply write_prefix|reflexivity].
Qed.

Lemma ue_calls_prefix : forall p cs u,
  run_calls (S := UrlencoderS StringW) cs (preu p u) = rmap (preu p) (run_calls (S := UrlencoderS StringW) cs u).
Proof.
  intros p. induction cs as [|x cs IH]; intros u; [reflexivity|]. cbn [run_calls].
  apply rbind_rmap with (g := preu p); [|exact IH].
  destruct x as [k v|k v|[]]; cbn [run_call]; try reflexivity; [apply ue_param_prefix|apply ue_enc_prefix].
Qed.

Section Prefix.
  Variables (sg : Sign) (c : cfg) (e : env) (p : bytes).
  Let A := Authorizer sg StringW.
  Definition prea (a : A) : A := with_data a (pred p (au_data a)).

  Lemma check_prefix : forall (a : A) k, check_dictionary_order c (prea a) k = rmap prea (check_dictionary_order c a k).
  Proof.
    intros a k. unfold check_dictionary_order. cbn [prea with_data au_prev_key].
    destruct (cf_alloc c && cf_debug c); [|reflexivity]. destruct (bleb (au_prev_key a) k); reflexivity.
  Qed.

  Lemma delim_prefix : forall a : A, sign_delimiter (prea a) = rmap prea (sign_delimiter a).
  Proof.
    intros a. unfold sign_delimiter. cbn [prea with_data au_append_delim au_sign].
    destruct (au_append_delim a); [|reflexivity]. destruct (sg_delimiter (au_sign a)); reflexivity.
  Qed.

  Lemma step_prefix : forall (a : A) f, sign_step (prea a) f = rmap prea (sign_step a f).
  Proof. intros a f. unfold sign_step. cbn [prea with_data au_sign]. destruct (f (au_sign a)); reflexivity. Qed.

  Lemma append_enc_prefix : forall (a : A) k v,
    append_to_header_encoded c (prea a) k v = rmap prea (append_to_header_encoded c a k v).
  Proof.
    intros a k v. unfold append_to_header_encoded. apply rbind_rmap with (g := prea); [apply check_prefix|].
    intros a1. apply rbind_rmap with (g := prea); [|apply delim_prefix].
    destruct a1 as [ck tk op data sign ad pk dr ti]. unfold prea. cbn [with_data au_data].
    destruct data as [h|u]; cbn [pred].
    - apply rbind_rmap with (g := app p); [apply write_prefix|reflexivity].
    - apply rbind_rmap with (g := preu p); [apply ue_enc_prefix|reflexivity].
  Qed.

  Lemma append_prefix : forall (a : A) k f v,
    append_to_header c (prea a) k f v = rmap prea (append_to_header c a k f v).
  Proof.
    intros. unfold append_to_header. apply rbind_rmap with (g := prea); [apply append_enc_prefix|].
    intros. apply step_prefix.
  Qed.

  Lemma call_prefix : forall x (a : A),
    run_call (S := AuthorizerS sg StringW c e) x (prea a) = rmap prea (run_call (S := AuthorizerS sg StringW c e) x a).
  Proof.
    assert (HE : forall (a : A) k v f, (a1 <- append_to_header_encoded c (prea a) k v ;; sign_step a1 f)
      = rmap prea (a1 <- append_to_header_encoded c a k v ;; sign_step a1 f)).
    { intros a k v f. apply rbind_rmap with (g := prea); [apply append_enc_prefix|]. intros. apply step_prefix. }
    assert (HK : forall (a : A) k f,
      (a1 <- check_dictionary_order c (prea a) k ;; a2 <- sign_delimiter a1 ;; sign_step a2 f)
      = rmap prea (a1 <- check_dictionary_order c a k ;; a2 <- sign_delimiter a1 ;; sign_step a2 f)).
    { intros a k f. apply rbind_rmap with (g := prea); [apply check_prefix|]. intros a1.
      apply rbind_rmap with (g := prea); [apply delim_prefix|]. intros. apply step_prefix. }
    intros x a. destruct x as [k v|k v|[]]; cbn [run_call AuthorizerS sr_parameter sr_parameter_encoded sr_oauth_callback
      sr_oauth_consumer_key sr_oauth_nonce sr_oauth_signature_method sr_oauth_timestamp sr_oauth_token
      sr_oauth_verifier sr_oauth_version].
    - apply HK.
    - apply HK.
    - unfold au_oauth_callback. change (au_options (prea a)) with (au_options a).
      destruct (op_callback (au_options a)); [apply append_prefix|reflexivity].
    - apply append_prefix.
    - unfold au_oauth_nonce. change (au_options (prea a)) with (au_options a). change (au_sign (prea a)) with (au_sign a).
      destruct (sg_use_nonce (au_sign a)); [|reflexivity]. destruct (op_nonce (au_options a)); [apply append_prefix|].
      change (au_draws (prea a)) with (au_draws a). destruct (gen_nonce (draw e (au_draws a))) as [n|]; [|reflexivity].
      cbn [rbind]. exact (HE (with_draw a) _ _ _).
    - exact (HE a _ _ _).
    - unfold au_oauth_timestamp. change (au_options (prea a)) with (au_options a). change (au_sign (prea a)) with (au_sign a).
      destruct (sg_use_timestamp (au_sign a)); [|reflexivity]. destruct (op_timestamp (au_options a)); cbn [rbind].
      + exact (HE a _ _ _).
      + change (au_ticks (prea a)) with (au_ticks a).
        destruct (get_current_timestamp c (env_clock e (au_ticks a))) as [t|]; [|reflexivity]. cbn [rbind].
        exact (HE (with_tick a) _ _ _).
    - unfold au_oauth_token. change (au_token (prea a)) with (au_token a).
      destruct (au_token a); [apply append_prefix|reflexivity].
    - unfold au_oauth_verifier. change (au_options (prea a)) with (au_options a).
      destruct (op_verifier (au_options a)); [apply append_prefix|reflexivity].
    - unfold au_oauth_version. change (au_options (prea a)) with (au_options a).
      destruct (op_version (au_options a)); [|reflexivity]. exact (HE a _ _ _).
  Qed.

  Lemma calls_prefix : forall cs (a : A),
    run_calls (S := AuthorizerS sg StringW c e) cs (prea a) = rmap prea (run_calls (S := AuthorizerS sg StringW c e) cs a).
  Proof.
    induction cs as [|x cs IH]; intros a; [reflexivity|]. cbn [run_calls].
    apply rbind_rmap with (g := prea); [apply call_prefix|exact IH].
  Qed.

  Lemma end_prefix : forall a : A, au_end (prea a) = rmap (app p) (au_end a).
  Proof.
    intros [ck tk op data sign ad pk dr ti]. unfold au_end, prea. cbn [with_data au_data au_sign].
    destruct data as [h|u]; cbn [pred].
    - apply rbind_rmap with (g := app p); [apply write_prefix|]. intros h1.
      destruct (sg_end sign) as [d|]; [|reflexivity]. cbn [rbind]. apply write_prefix.
    - destruct (sg_end sign) as [d|]; [|reflexivity]. cbn [rbind].
      apply rbind_rmap with (g := preu p); [apply ue_enc_prefix|reflexivity].
  Qed.
End Prefix.

Lemma go_prefix : forall c e b p (data : Data StringW) method uri r cs, makes_calls r cs ->
  go c e b (pred p data) method uri r = rmap (app p) (go c e b data method uri r).
Proof.
  intros c e b p data method uri r cs HM. unfold go.
  destruct (make_sign c (bd_signature_method b) method uri (bd_client b) (bd_token b)) as [s|]; [|reflexivity].
  cbn [rbind]. rewrite !(HM (AuthorizerS (sm_sign (bd_signature_method b)) StringW c e)).
  change (au_new (w := StringW) (pred p data) s (bd_client b) (bd_token b) (bd_options b))
    with (prea (sm_sign (bd_signature_method b)) p (au_new (w := StringW) data s (bd_client b) (bd_token b) (bd_options b))).
  apply rbind_rmap with (g := prea (sm_sign (bd_signature_method b)) p); [apply calls_prefix|].
  intros a. apply end_prefix.
Qed.
