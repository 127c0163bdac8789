(** The revealing method. *)
From Coq Require Import String.
From Coq Require Import Lia Arith Sorted Permutation.
From Verif Require Import Bytes Crypto Spec MFmt MPercent MSerializer MSign MRequest MCredentials MAuth MBuilder
  SpecFmt SpecCalls SpecCalls2 SpecAuth SpecBuild SpecForm SpecServer SpecSign
  LBytes LFmt LPercent LTrace LAuth LSign LBuild LForm LBase LReq LReq2 LPanic LTop.

Lemma reveal_step : forall name (s : RevealSign name) x, scall_ok x ->
  run_scall s x = Ok ((s ++ scall_text name x) : RevealSign name).
Proof.
  intros name s x H. destruct x; cbn [scall_ok] in H;
    cbn [run_scall RevealSign default_sign sg_request_method sg_uri sg_parameter sg_delimiter sg_callback
         sg_consumer_key sg_nonce sg_signature_method sg_timestamp sg_token sg_verifier sg_version sg_name
         sg_st scall_text];
    try reflexivity;
    try (rewrite to_string_ok by (auto; try apply dok_dstr); cbn [rbind]; reflexivity).
Qed.

Lemma reveal_step_inv : forall name (s s' : RevealSign name) x, run_scall s x = Ok s' -> scall_ok x.
Proof.
  intros name s s' x H. destruct x; cbn [scall_ok]; try exact I;
    cbn [run_scall RevealSign default_sign sg_uri sg_parameter sg_callback
         sg_consumer_key sg_nonce sg_token sg_verifier] in H;
    apply rbind_ok in H as [t [H _]]; apply to_string_inv in H as [H _]; exact H.
Qed.

Lemma reveal_run : forall name xs (s : RevealSign name), Forall scall_ok xs ->
  run_scalls s xs = Ok ((s ++ concat (map (scall_text name) xs)) : RevealSign name).
Proof.
  intros name. induction xs as [|x xs IH]; intros s H; cbn [run_scalls map concat].
  - now rewrite app_nil_r.
  - inversion H; subst. rewrite reveal_step by auto. cbn [rbind]. rewrite IH by auto.
    cbn [sg_st RevealSign default_sign]. now rewrite app_assoc.
Qed.

Lemma reveal_run_inv : forall name xs (s s' : RevealSign name), run_scalls s xs = Ok s' -> Forall scall_ok xs.
Proof.
  intros name. induction xs as [|x xs IH]; intros s s' H; [constructor|]. cbn [run_scalls] in H.
  apply rbind_ok in H as [s1 [H1 H]]. constructor; [eapply reveal_step_inv; eauto|eapply IH; eauto].
Qed.

Lemma reveal_signs_as : forall name, uri_safe name ->
  signs_as (Reveal name) name true (fun _ _ text => Some (pct_encode text)).
Proof.
  intros name HN. constructor; [|intros s; repeat split|exact HN].
  intros cs ts. exists ([] : RevealSign name). split; [reflexivity|]. split.
  - intros xs H. exists (concat (map (scall_text name) xs) : RevealSign name). split.
    + exact (reveal_run name xs ([] : RevealSign name) (H eq_refl)).
    + eexists. split; [reflexivity|]. split; [apply dok_dstr|]. split; [apply propagates_dstr|]. apply dtext_dstr.
  - intros xs sf H _. exact (reveal_run_inv name xs _ sf H).
Qed.

(** The header of a builder that uses it. *)
Lemma reveal_authorize : forall c e b name r cs method uri out,
  bd_signature_method b = Reveal name -> uri_safe name ->
  makes_calls r cs -> Permutation (call_protos cs) all_protos ->
  (Builder_authorize c e b method uri r = Ok out <->
   timestamp_available c (conf_of name e b) /\ valid_for true c (conf_of name e b) uri cs /\
   out = header_text (wire_fields (conf_of name e b) (call_protos cs))
           (pct_encode (hashed_text method (dtext uri) (signed_fields (conf_of name e b) cs)))).
Proof.
  intros c e b name r cs method uri out HB HN HM HP. rewrite authorize_go.
  assert (HF : signs_as (bd_signature_method b) name true (fun _ _ text => Some (pct_encode text)))
    by (rewrite HB; now apply reveal_signs_as).
  rewrite (go_exact c e b name true _ HF _ method uri r cs out HM HP). cbn [data_buf added_text].
  unfold header_text. split.
  - intros [HT [HV [sig [ES EO]]]]. split; auto. split; auto. now inversion ES; subst.
  - intros [HT [HV EO]]. split; auto. split; auto. eexists. split; [reflexivity|exact EO].
Qed.
