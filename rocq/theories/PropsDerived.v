(** Properties C34, C35 and C37 for derived requests. *)
From Coq Require Import String.
From Coq Require Import Lia Arith Sorted Permutation.
From Verif Require Import Bytes Crypto Spec MFmt MPercent MSerializer MSign MRequest MCredentials MAuth MBuilder MDerive ModelTests
  SpecFmt SpecCalls SpecCalls2 SpecAuth SpecBuild SpecForm SpecServer SpecParams SpecSign SpecPanic SpecDerive
  LBytes LFmt LTrace LAuth LSign LBuild LForm LBase LBase2 LPanic LTop LParams LServer LReveal LAny LBuf LSim LCheck LDerive
  PropsDerive PropsExact PropsPanic.

(** [r] is the implementation that the derive macro generated for a struct with the fields [fs], used with
    the value [self]; [callss] is what the fields should emit. *)
Inductive derived_request {V} (pg : program V) (self : struct_value V) (sy : syn) (fs : list syn_field)
    (callss : list (list call)) (r : Request) : Prop :=
  | dr_intro : forall dbg found attrs krate body,
      expand sy dbg found (decl attrs fs) = Ok (Impl krate body) ->
      (forall f, In f fs -> well_typed pg self sy f) ->
      Forall2 (emits pg self sy) fs callss ->
      (forall (S : MSerializer.Serializer) (s : S), exec_body pg self body S s = Some (r S s)) ->
      derived_request pg self sy fs callss r.

Lemma derived_request_calls : forall {V} (pg : program V) self sy fs callss r, derived_request pg self sy fs callss r ->
  exists cs, makes_calls r cs /\ Permutation (filter is_param cs) (concat callss) /\ call_protos cs = all_protos
    /\ ascending (map call_key cs) /\ (Forall displays_ok (concat callss) -> Forall displays_ok cs).
Proof.
  intros V pg self sy fs callss r [dbg found attrs krate body HE HW HF HX].
  assert (HK : no_reserved sy fs).
  { eapply C52_exact_partial; eauto. intros S s. rewrite HX. discriminate. }
  destruct (derived_calls _ _ _ _ _ _ _ _ _ _ HE HF HK) as [cs [H1 [H2 [H3 [H4 H5]]]]].
  exists cs. split; [|split; [exact H2|split; [exact H3|split; [exact H4|]]]].
  - intros S s. specialize (H1 S s). rewrite HX in H1. now injection H1.
  - intros HD. rewrite Forall_forall in *. intros c Hc. destruct (is_param c) eqn:EP; [|destruct c; try discriminate EP; exact I].
    apply HD. eapply Permutation_in; [exact H2|]. apply filter_In. auto.
Qed.

(** ** C34 The ordering check never fires for a derived struct *)

Theorem C34_derived : forall {V} (pg : program V) self sy fs callss r c e b un ut name k method,
  derived_request pg self sy fs callss r ->
  constant_flags (bd_signature_method b) un ut name -> timestamp_available c (conf_with un ut name e b) ->
  dok (kind_uri k) -> ~ has_question (dtext (kind_uri k)) ->
  run c e b k method r = run (release c) e b k method r.
Proof.
  intros V pg self sy fs callss r c e b un ut name k method HR HF HT HD HQ.
  destruct (derived_request_calls _ _ _ _ _ _ HR) as [cs [HM [_ [HP [HA _]]]]].
  eapply C34_in_order; eauto.
  - rewrite HP. apply all_protos_nodup.
  - now apply signed_keys_ascending.
Qed.
Print Assumptions C34_derived.

(** ** C35 Nor does anything else go wrong *)

Lemma derived_returns : forall {V} (pg : program V) self sy fs callss r c e b k method name strict f,
  derived_request pg self sy fs callss r ->
  builtin (bd_signature_method b) name strict f -> (forall text, f (client_secret b) (token_secret b) text <> None) ->
  infallible (kind_writer k) -> cf_std c = true \/ op_timestamp (bd_options b) <> None ->
  dok (kind_uri k) -> ~ has_question (dtext (kind_uri k)) -> Forall displays_ok (concat callss) ->
  exists out, run c e b k method r = Ok out.
Proof.
  intros V pg self sy fs callss r c e b k method name strict f HR HBI HF HW HT HD HQ HV.
  destruct (derived_request_calls _ _ _ _ _ _ HR) as [cs [HM [_ [HP [HA HDS]]]]].
  rewrite run_go.
  assert (HK : takes_prefix k).
  { destruct k; cbn [takes_prefix]; auto.
    destruct (write_unwrap_infallible (dstr (lit "OAuth ")) buf HW (dok_dstr _)) as [x H]. now exists x. }
  apply kind_data_ok in HK as [d HK]. rewrite HK. cbn [rbind].
  destruct (f (client_secret b) (token_secret b)
    (hashed_text method (dtext (kind_uri k)) (signed_fields (conf_of name e b) cs))) as [sig|] eqn:ES; [|now apply HF in ES].
  eapply (go_complete c e b name strict f (builtin_signs_as _ _ _ _ HBI)); eauto.
  - destruct HT as [HT|HT]; [now left|right; now left].
  - rewrite HP. apply all_protos_nodup.
  - constructor; auto.
    intros _ _. now apply signed_keys_ascending.
Qed.

Theorem C35_derived : forall {V} (pg : program V) self sy fs callss r c e b k method,
  derived_request pg self sy fs callss r ->
  bd_signature_method b = HMAC_SHA1 \/ bd_signature_method b = PLAINTEXT ->
  infallible (kind_writer k) -> cf_std c = true \/ op_timestamp (bd_options b) <> None ->
  dok (kind_uri k) -> ~ has_question (dtext (kind_uri k)) -> Forall displays_ok (concat callss) ->
  exists out, run c e b k method r = Ok out.
Proof.
  intros V pg self sy fs callss r c e b k method HR HB HW HT HD HQ HV.
  assert (HBI : exists name strict f, builtin (bd_signature_method b) name strict f
                /\ forall text, f (client_secret b) (token_secret b) text <> None).
  { destruct HB as [->| ->]; do 3 eexists; (split; [constructor|discriminate]). }
  destruct HBI as [name [strict [f [HBI HF]]]]. eapply derived_returns; eauto.
Qed.
Print Assumptions C35_derived.

(** RSA-SHA1: the same when the key signs every SHA-1 digest (see C69 for which keys do). *)
Theorem C35_derived_rsa : forall {V} (pg : program V) self sy fs callss r c e b k method key,
  derived_request pg self sy fs callss r ->
  bd_signature_method b = RsaSha1 key \/ bd_signature_method b = RsaSha1_ref key -> (forall text, key (sha1 text) <> None) ->
  infallible (kind_writer k) -> cf_std c = true \/ op_timestamp (bd_options b) <> None ->
  dok (kind_uri k) -> ~ has_question (dtext (kind_uri k)) -> Forall displays_ok (concat callss) ->
  exists out, run c e b k method r = Ok out.
Proof.
  intros V pg self sy fs callss r c e b k method key HR HB HKey HW HT HD HQ HV.
  assert (HBI : exists name strict f, builtin (bd_signature_method b) name strict f
                /\ forall text, f (client_secret b) (token_secret b) text <> None).
  { destruct HB as [->| ->]; do 3 eexists; (split; [constructor|]); intros text; specialize (HKey text);
      cbv beta; unfold option_map; destruct (key (sha1 text)); congruence. }
  destruct HBI as [name [strict [f [HBI HF]]]]. eapply derived_returns; eauto.
Qed.
Print Assumptions C35_derived_rsa.

Theorem C35_derived_form_query : forall {V} (pg : program V) self sy fs callss r,
  derived_request pg self sy fs callss r -> Forall displays_ok (concat callss) ->
  (exists out, to_form r = Ok out) /\ (forall uri, exists out, to_query uri r = Ok out).
Proof.
  intros V pg self sy fs callss r HR HV.
  destruct (derived_request_calls _ _ _ _ _ _ HR) as [cs [HM [_ [HP [HA HDS]]]]]. specialize (HDS HV). split.
  - eexists. apply (to_form_exact r cs _ HM). split; [exact HDS|reflexivity].
  - intros uri. eexists. apply (to_query_exact r cs uri _ HM). split; [exact HDS|reflexivity].
Qed.
Print Assumptions C35_derived_form_query.

(** The struct of PropsDerive.v is such a request. *)
Example derived_example : exists callss r, derived_request example_program example_value toy example_fields callss r
  /\ Forall displays_ok (concat callss) /\ to_form r = Ok (lit "n=42%21&status=hello%20world&z=a%20b").
Proof.
  destruct (expand toy true CrateError (decl [eq_attr (lit "crate") (lit "path")] example_fields)) as [[es|es body|krate body]|] eqn:HE;
    try (vm_compute in HE; discriminate HE).
  pose proof C52_example as HW. rewrite Forall_forall in HW.
  assert (HX : forall (S : Serializer) (s : S), exec_body example_program example_value body S s <> None).
  { eapply (C52_exact_partial _ _ _ _ _ _ _ _ _ HE HW). intros f If Hs.
    cbn [In example_fields] in If. repeat (destruct If as [<-|If]; [reflexivity|]). contradiction. }
  destruct (compiled_calls _ _ _ _ _ _ _ _ _ HE HW HX) as [callss [cs [HF [HB _]]]].
  exists callss, (fun S s => s <- run_calls cs s ;; sr_end s). split; [|split].
  - econstructor; eauto.
  - clear - HF. induction HF as [|f c fs l H HF IH]; [constructor|]. cbn [concat]. apply Forall_app. split; [|exact IH].
    assert (X : forall v d, formatted example_program toy f v d -> dok d).
    { intros v d X. unfold formatted in X. destruct (path_value (lit "fmt") (metas toy (sf_attrs f))) as [p|].
      - destruct X as [h [E ->]]. cbn in E. destruct (bseqb p _); inversion E; subst. apply dok_dstr.
      - subst. apply dok_dstr. }
    destruct H; try constructor; [|constructor]. destruct (word _ _); eapply X; eauto.
  - assert (E : to_form (fun S s => match exec_body example_program example_value body S s with Some r => r | None => Panic PFuel end)
              = Ok (lit "n=42%21&status=hello%20world&z=a%20b")).
    { vm_compute in HE. inversion HE; subst. vm_compute. reflexivity. }
    rewrite <- E. unfold to_form. now rewrite (HB (UrlencoderS StringW)).
Qed.
