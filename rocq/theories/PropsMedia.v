(** C101: which bodies the example server takes for forms. *)
From Coq Require Import String.
From Coq Require Import Lia Arith Sorted Permutation NArith.
From Verif Require Import Bytes Crypto Spec MFmt MPercent MSerializer MSign MRequest MCredentials MAuth MBuilder
  SpecFmt SpecCalls SpecCalls2 SpecAuth SpecBuild SpecForm SpecServer SpecParams SpecSign SpecHttp
  LBytes LFmt LPercent LBase LBase2 ModelTests MHttp LHttp LText MServer LGrammar SpecExample LExample LExample2 MClient LExample3
  PropsExample SpecValid.
Local Open Scope nat_scope.

(** ** A form is a form however its type is spelled *)

(** A form that this crate signed, with the content type [ct]. *)
Definition c101_status (ct : bytes) : option status :=
  match Builder_authorize dbg_std env0 echo_builder (lit "POST") (dstr echo_uri) c55_request, to_form c55_request with
  | Ok header, Ok body =>
      match service (a_world true 1020 false) (with_type (Some ct) (form_request (lit "POST") (lit "/echo") header body)) with
      | Done_ resp => Some (rs_status resp)
      | Crash _ => None
      end
  | _, _ => None
  end.

(** False: with a parameter, or in upper case, the type is not recognised, and the signed request is refused. *)
Theorem C101_refuted :
  (form_type (lit "application/x-www-form-urlencoded; charset=utf-8")
   /\ c101_status (lit "application/x-www-form-urlencoded; charset=utf-8") = Some StUnauthorized)
  /\ (form_type (lit "Application/X-WWW-Form-urlencoded")
      /\ c101_status (lit "Application/X-WWW-Form-urlencoded") = Some StUnauthorized)
  /\ c101_status (lit "application/x-www-form-urlencoded") = Some StOk.
Proof.
  split; [split|split; [split|]]; try (vm_compute; reflexivity).
  - exists (lit "application/x-www-form-urlencoded"), (lit "; charset=utf-8"). split; [reflexivity|]. split; [reflexivity|].
    right. exists [], (lit " charset=utf-8"). split; [constructor|reflexivity].
  - exists (lit "Application/X-WWW-Form-urlencoded"), []. split; [reflexivity|]. split; [vm_compute; reflexivity|]. now left.
Qed.
Print Assumptions C101_refuted.

(** With any other type the body does not matter: it is as if there were none. *)
Theorem C101_ignored_partial : forall wd req ct, ct <> Some (lit "application/x-www-form-urlencoded") ->
  service wd (with_type ct req) = service wd (without_body req).
Proof.
  intros wd req ct H.
  assert (HV : forall client token verifier f,
    verify_and_then wd (with_type ct req) client token verifier f = verify_and_then wd (without_body req) client token verifier f).
  { intros client token verifier f. unfold verify_and_then. cbn [with_type without_body rq_content_type rq_body].
    assert (E : match ct with Some v => bseqb v APPLICATION_WWW_FORM_URLENCODED | None => false end = false).
    { destruct ct as [v|]; [|reflexivity]. destruct (bseqb v APPLICATION_WWW_FORM_URLENCODED) eqn:E; [|reflexivity].
      apply bseqb_eq in E. subst. now contradiction H. }
    rewrite E. cbv iota zeta. reflexivity. }
  unfold service, echo, post_request_temp_credentials, post_request_token. rewrite !HV. reflexivity.
Qed.
Print Assumptions C101_ignored_partial.

(** With the type spelled out, every body counts: the parameters the server works with are those of header, body and query. *)
Theorem C101_counts_partial : forall wd req body header form query, search_ok (wd_search wd) ->
  rq_content_type req = Some (lit "application/x-www-form-urlencoded") -> rq_body req = Some body ->
  oauth_header (wd_empty_ok wd) (rq_authorization req) header -> form_reads_as body form ->
  form_reads_as (match rq_query req with Some q => q | None => [] end) query ->
  forall resp, service wd req = Done_ resp -> rs_status resp = StOk ->
  exists answer, served wd req (header ++ form ++ query) answer /\ form_reads_as (rs_body resp) answer.
Proof.
  intros wd req body header form query HS HT HB HH HF HQ resp HE HK.
  destruct (C56_sound wd req resp HS HE HK) as [l [answer [H1 [_ H2]]]]. exists answer. split; [|exact H2].
  assert (HP : request_params (wd_empty_ok wd) req l).
  { destruct H1 as [l _ _ X|l _ _ X _|l _ _ X]; exact (ac_params _ _ _ _ _ _ X). }
  destruct HP as [h [f [q [X1 [X2 [X3 ->]]]]]].
  apply collect_auth_iff in X1, HH. rewrite X1 in HH. inversion HH; subst h.
  apply form_reads_iff in X3, HQ, HF. subst.
  inversion X2 as [body' f' T1 T2 T3|T1]; subst; [|now contradiction T1]. rewrite HB in T2. inversion T2; subst.
  apply form_reads_iff in T3. now subst.
Qed.
Print Assumptions C101_counts_partial.

(** So a signed form whose type is spelled otherwise is served only if it would be served without the body. *)
Theorem C101_exact_partial : forall wd req ct, search_ok (wd_search wd) -> ct <> Some (lit "application/x-www-form-urlencoded") ->
  (forall l, request_params (wd_empty_ok wd) (without_body req) l -> one_callback req l) ->
  ((exists resp, service wd (with_type ct req) = Done_ resp /\ rs_status resp = StOk)
   <-> exists l answer, served wd (without_body req) l answer).
Proof.
  intros wd req ct HS HC HO. rewrite C101_ignored_partial by exact HC. split.
  - intros [resp [E1 E2]]. destruct (C56_sound wd _ resp HS E1 E2) as [l [answer [H _]]]. eauto.
  - intros [l [answer H]]. destruct (C56_complete wd _ l answer HS H) as [resp [E1 [E2 _]]]; [|eauto].
    apply HO. destruct H as [l _ _ X|l _ _ X _|l _ _ X]; exact (ac_params _ _ _ _ _ _ X).
Qed.
Print Assumptions C101_exact_partial.
Example C101_example : Some (lit "text/plain") <> Some (lit "application/x-www-form-urlencoded")
  /\ match service (a_world true 1020 false) (with_type (Some (lit "text/plain")) (plaintext_request (lit "s"))) with
     | Done_ resp => match rs_status resp with StOk => true | _ => false end
     | Crash _ => false
     end = true.
Proof. split; [discriminate|vm_compute; reflexivity]. Qed.
