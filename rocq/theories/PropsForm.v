(** Properties C13-C15 and C47: plain forms and queries, pre-encoded parameters. *)
From Coq Require Import String.
From Coq Require Import Lia Arith Sorted Permutation.
From Verif Require Import Bytes Crypto Spec MFmt MPercent MSerializer MSign MRequest MCredentials MAuth MBuilder ModelTests
  SpecFmt SpecCalls SpecCalls2 SpecAuth SpecBuild SpecForm
  LBytes LFmt LPercent LTrace LAuth LSign LBuild LForm LBase LReq LReq2 LPanic LTop.

(** The wire text of pairs. *)
Definition form_of (l : list pair) : bytes :=
  join (lit "&") (map (fun p => fst p ++ lit "=" ++ pct_encode (snd p)) l).

Lemma form_of_texts : forall l, form_text (map enc_kv l) = form_of (texts l).
Proof. intros l. unfold form_text, form_of, texts. now rewrite !map_map. Qed.

(** ** C13 *)

(** For every request, including user-written ones: the text in terms of its calls. *)
Theorem C13_every_request : forall r cs out, makes_calls r cs ->
  (to_form r = Ok out <-> Forall displays_ok cs /\ out = form_text (form_fields cs)).
Proof. exact to_form_exact. Qed.
Print Assumptions C13_every_request.

Theorem C13_exact : forall r l out, crate_request r l ->
  (to_form r = Ok out <-> Forall (fun p => dok (snd p)) l /\ out = form_of (texts l)).
Proof.
  intros r l out H. rewrite (to_form_exact r _ out (crate_request_calls r l H)).
  now rewrite displays_calls_of, form_fields_calls_of, form_of_texts.
Qed.
Print Assumptions C13_exact.

Theorem C13_parse : forall r l out, crate_request r l -> safe_keys (texts l) -> to_form r = Ok out ->
  parse_form out = Some (texts l).
Proof.
  intros r l out H HS HF. apply (C13_exact r l out H) in HF as [_ ->].
  rewrite <- form_of_texts. rewrite <- (parse_form_text (texts l) HS). unfold texts. rewrite map_map. reflexivity.
Qed.
Print Assumptions C13_parse.

(** For every request whose pre-encoded values are encodings. *)
Theorem C13_parse_every_request : forall r cs l out, makes_calls r cs -> carries cs l -> safe_keys l ->
  to_form r = Ok out -> parse_form out = Some l.
Proof.
  intros r cs l out HM HC HS HF. apply (to_form_exact r cs out HM) in HF as [_ ->]. rewrite HC.
  now apply parse_form_text.
Qed.
Print Assumptions C13_parse_every_request.

Definition form_pairs : list kv := [kvs "a" "1 &="; kvs "b" ""; kvs "b" "%"].
Example C13_example : crate_request (AssertSorted true form_pairs) form_pairs /\ safe_keys (texts form_pairs)
  /\ to_form (AssertSorted true form_pairs) = Ok (lit "a=1%20%26%3D&b=&b=%25").
Proof.
  split; [apply cq_sorted|]. split; [|reflexivity].
  repeat constructor; intros x Hx; cbn in Hx; intuition; subst; reflexivity.
Qed.

(** ** C14 *)
Theorem C14_every_request : forall r cs uri out, makes_calls r cs ->
  (to_query uri r = Ok out <-> Forall displays_ok cs /\ out = query_text uri (form_fields cs)).
Proof. exact to_query_exact. Qed.
Print Assumptions C14_every_request.

Theorem C14_exact : forall r l uri out, crate_request r l ->
  (to_query uri r = Ok out <-> Forall (fun p => dok (snd p)) l
     /\ out = match l with [] => uri | _ => uri ++ lit "?" ++ form_of (texts l) end).
Proof.
  intros r l uri out H. rewrite (to_query_exact r _ uri out (crate_request_calls r l H)).
  rewrite displays_calls_of, form_fields_calls_of. destruct l as [|p l]; [reflexivity|].
  unfold query_text. now rewrite <- form_of_texts.
Qed.
Print Assumptions C14_exact.

Theorem C14_parse : forall r l uri out, crate_request r l -> safe_keys (texts l) -> ~ has_question uri ->
  to_query uri r = Ok out -> parse_uri out = Some (uri, texts l).
Proof.
  intros r l uri out H HS HQ HF. apply (to_query_exact r _ uri out (crate_request_calls r l H)) in HF as [_ ->].
  rewrite form_fields_calls_of. replace (map enc_kv l) with (map enc_value (texts l)) by (unfold texts; now rewrite map_map).
  now apply parse_query_text.
Qed.
Print Assumptions C14_parse.

Example C14_example : ~ has_question (lit "http://example.com/a")
  /\ to_query (lit "http://example.com/a") (AssertSorted true form_pairs)
     = Ok (lit "http://example.com/a?a=1%20%26%3D&b=&b=%25").
Proof. split; [|reflexivity]. unfold has_question. cbn. intuition discriminate. Qed.

(** ** C15: for any writer and any position of the protocol calls. *)
Definition is_param (c : call) : bool := match c with CProto _ => false | _ => true end.

Theorem C15_protocol_calls_ignored : forall (w : Writer) cs (u : UrlencoderS w),
  run_calls cs u = run_calls (filter is_param cs) u.
Proof.
  intros w. induction cs as [|c cs IH]; intros u; [reflexivity|].
  destruct c as [k v|k v|p].
  - cbn [filter is_param run_calls]. destruct (run_call (CParam k v) u); cbn [rbind]; auto.
  - cbn [filter is_param run_calls]. destruct (run_call (CParamEnc k v) u); cbn [rbind]; auto.
  - cbn [filter is_param run_calls]. destruct p; cbn [run_call UrlencoderS sr_oauth_callback sr_oauth_consumer_key
      sr_oauth_nonce sr_oauth_signature_method sr_oauth_timestamp sr_oauth_token sr_oauth_verifier
      sr_oauth_version rbind]; auto.
Qed.
Print Assumptions C15_protocol_calls_ignored.

Theorem C15_form : forall r cs, makes_calls r cs -> to_form r = to_form (of_calls (filter is_param cs)).
Proof.
  intros r cs HM. unfold to_form, of_calls. rewrite (HM (UrlencoderS StringW)).
  now rewrite C15_protocol_calls_ignored.
Qed.
Print Assumptions C15_form.

Theorem C15_query : forall r cs uri, makes_calls r cs -> to_query uri r = to_query uri (of_calls (filter is_param cs)).
Proof.
  intros r cs uri HM. unfold to_query, of_calls. rewrite (HM (UrlencoderS StringW)).
  now rewrite C15_protocol_calls_ignored.
Qed.
Print Assumptions C15_query.

Example C15_example : to_form (AssertSorted true [kvs "a" "1"; kvs "oauth_o" "2"; kvs "z" "3"]) = Ok (lit "a=1&oauth_o=2&z=3").
Proof. reflexivity. Qed.

(** ** C47

    [same_calls]: the same calls, except that a value handed over as it is may on the other side be
    handed over encoded, through [serialize_parameter_encoded]. *)
Theorem C47_form : forall r r' cs cs' out, makes_calls r cs -> makes_calls r' cs' -> same_calls cs cs' ->
  (to_form r = Ok out <-> to_form r' = Ok out).
Proof. intros. eapply same_to_form; eauto. Qed.
Print Assumptions C47_form.

Theorem C47_query : forall r r' cs cs' uri out, makes_calls r cs -> makes_calls r' cs' -> same_calls cs cs' ->
  (to_query uri r = Ok out <-> to_query uri r' = Ok out).
Proof. intros. eapply same_to_query; eauto. Qed.
Print Assumptions C47_query.

Theorem C47_authorize : forall c e b name strict f r r' cs cs' method uri out,
  builtin (bd_signature_method b) name strict f ->
  makes_calls r cs -> makes_calls r' cs' -> Permutation (call_protos cs) all_protos -> same_calls cs cs' ->
  (Builder_authorize c e b method uri r = Ok out <-> Builder_authorize c e b method uri r' = Ok out).
Proof. intros. eapply same_authorize; eauto. Qed.
Print Assumptions C47_authorize.

Theorem C47_signed_form : forall c e b name strict f r r' cs cs' method uri out,
  builtin (bd_signature_method b) name strict f ->
  makes_calls r cs -> makes_calls r' cs' -> Permutation (call_protos cs) all_protos -> same_calls cs cs' ->
  (Builder_to_form c e b method uri r = Ok out <-> Builder_to_form c e b method uri r' = Ok out).
Proof. intros. eapply same_signed_form; eauto. Qed.
Print Assumptions C47_signed_form.

Theorem C47_signed_query : forall c e b name strict f r r' cs cs' method (uri : bytes) out,
  builtin (bd_signature_method b) name strict f ->
  makes_calls r cs -> makes_calls r' cs' -> Permutation (call_protos cs) all_protos -> same_calls cs cs' ->
  (Builder_to_query c e (w := StringW) dstr b method uri r = Ok out
   <-> Builder_to_query c e (w := StringW) dstr b method uri r' = Ok out).
Proof. intros. eapply same_signed_query; eauto. Qed.
Print Assumptions C47_signed_query.

(** A value and its encoding, in the middle of other calls. *)
Definition plain_calls : list call :=
  [CParam (lit "a") (s2d "x"); CParam (lit "b") (s2d "1 &")] ++ map CProto all_protos.
Definition encoded_calls : list call :=
  [CParam (lit "a") (s2d "x"); CParamEnc (lit "b") (dchunks [lit "1%20"; lit "%26"])] ++ map CProto all_protos.
Example C47_example : same_calls plain_calls encoded_calls
  /\ Permutation (call_protos plain_calls) all_protos
  /\ (exists out, Builder_get dbg_std env0 doc_builder (s2d "http://a/") (of_calls plain_calls) = Ok out)
  /\ to_form (of_calls plain_calls) = Ok (lit "a=x&b=1%20%26").
Proof.
  split; [|split; [|split]].
  - constructor; [apply sc_param; split; reflexivity|]. constructor; [apply sc_left; reflexivity|].
    repeat constructor.
  - reflexivity.
  - eexists. vm_compute. reflexivity.
  - reflexivity.
Qed.
