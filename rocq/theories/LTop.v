(** Exact results of the public functions for the built-in methods. *)
From Coq Require Import String.
From Coq Require Import Lia Arith Sorted Permutation.
From Verif Require Import Bytes Crypto Spec MFmt MPercent MSign MSerializer MRequest MCredentials MAuth MBuilder
  SpecFmt SpecCalls SpecCalls2 SpecAuth SpecBuild SpecForm
  LBytes LFmt LPercent LCrypto LTrace LAuth LSign LBuild LForm LBase LReq LReq2 LPanic.

Lemma added_form : forall (buf : bytes) l x,
  ue_added (ue_next_append (ue_form_with_buf (w := StringW) buf)) (l ++ [x]) = form_text (l ++ [x]).
Proof. intros. destruct l; reflexivity. Qed.

Lemma added_query : forall (uri : bytes) l x,
  uri ++ ue_added (ue_next_append (ue_query (w := StringW) uri)) (l ++ [x]) = query_text uri (l ++ [x]).
Proof. intros. destruct l; reflexivity. Qed.

Section Top.
  Variables (c : cfg) (e : env) (b : Builder) (name : bytes) (strict : bool)
    (f : bytes -> option bytes -> bytes -> option bytes).
  Hypothesis HB : builtin (bd_signature_method b) name strict f.
  Let cf := conf_of name e b.

  Section Calls.
    Variables (r : Request) (cs : list call).
    Hypothesis HM : makes_calls r cs.
    Hypothesis HP : Permutation (call_protos cs) all_protos.

    Definition sig_of (method uri : bytes) : option bytes :=
      f (client_secret b) (token_secret b) (hashed_text method uri (signed_fields cf cs)).

    Lemma authorize_exact : forall method uri out,
      Builder_authorize c e b method uri r = Ok out <->
      timestamp_available c cf /\ valid_for strict c cf uri cs /\
      exists sig, sig_of method (dtext uri) = Some sig /\ out = header_text (wire_fields cf (call_protos cs)) sig.
    Proof.
      intros method uri out. rewrite authorize_go.
      rewrite (go_exact c e b name strict f (builtin_signs_as _ _ _ _ HB) _ method uri r cs out HM HP). reflexivity.
    Qed.

    Lemma authorize_with_buf_exact : forall (buf : bytes) method uri out,
      Builder_authorize_with_buf c e b (w := StringW) buf method uri r = Ok out <->
      timestamp_available c cf /\ valid_for strict c cf uri cs /\
      exists sig, sig_of method (dtext uri) = Some sig
        /\ out = buf ++ header_text (wire_fields cf (call_protos cs)) sig.
    Proof.
      intros buf method uri out. rewrite authorize_with_buf_go.
      rewrite write_unwrap_string by apply dok_dstr. cbn [rbind]. rewrite dtext_dstr.
      rewrite (go_exact c e b name strict f (builtin_signs_as _ _ _ _ HB) _ method uri r cs out HM HP).
      cbn [data_buf added_text]. unfold header_text.
      split; intros [T [V [sig [E ->]]]]; (split; [exact T|split; [exact V|exists sig; split; [exact E|]]]);
        now rewrite <- !app_assoc.
    Qed.

    Lemma to_form_with_buf_exact : forall (buf : bytes) method uri out,
      Builder_to_form_with_buf c e b (w := StringW) buf method uri r = Ok out <->
      timestamp_available c cf /\ valid_for strict c cf uri cs /\
      exists sig, sig_of method (dtext uri) = Some sig
        /\ out = buf ++ form_text (wire_fields cf (call_protos cs) ++ [(lit "oauth_signature", sig)]).
    Proof.
      intros buf method uri out. rewrite to_form_with_buf_go.
      rewrite (go_exact c e b name strict f (builtin_signs_as _ _ _ _ HB) _ method uri r cs out HM HP).
      cbn [data_buf added_text]. setoid_rewrite added_form. reflexivity.
    Qed.

    Lemma to_query_exact' : forall (uri : bytes) method out,
      Builder_to_query c e (w := StringW) dstr b method uri r = Ok out <->
      timestamp_available c cf /\ valid_for strict c cf (dstr uri) cs /\
      exists sig, sig_of method uri = Some sig
        /\ out = query_text uri (wire_fields cf (call_protos cs) ++ [(lit "oauth_signature", sig)]).
    Proof.
      intros uri method out. rewrite to_query_go.
      rewrite (go_exact c e b name strict f (builtin_signs_as _ _ _ _ HB) _ method _ r cs out HM HP).
      cbn [data_buf added_text]. rewrite dtext_dstr. cbn [ue_query ue_data].
      setoid_rewrite added_query. reflexivity.
    Qed.
  End Calls.
End Top.

(** ** Equivalent call sequences *)

Lemma valid_for_same : forall strict c cf uri cs cs', same_calls cs cs' ->
  (valid_for strict c cf uri cs <-> valid_for strict c cf uri cs').
Proof.
  intros strict c cf uri cs cs' HS. destruct (same_calls_fields cs cs' HS) as [_ [E2 [E3 _]]].
  split; intros []; constructor; auto.
  - intros HX. apply E3. auto.
  - rewrite <- E2. auto.
  - intros HX. apply E3. auto.
  - rewrite E2. auto.
Qed.

Section Same.
  Variables (c : cfg) (e : env) (b : Builder) (name : bytes) (strict : bool)
    (f : bytes -> option bytes -> bytes -> option bytes).
  Hypothesis HB : builtin (bd_signature_method b) name strict f.
  Variables (r r' : Request) (cs cs' : list call).
  Hypothesis HM : makes_calls r cs.
  Hypothesis HM' : makes_calls r' cs'.
  Hypothesis HP : Permutation (call_protos cs) all_protos.
  Hypothesis HS : same_calls cs cs'.

  Let HP' : Permutation (call_protos cs') all_protos.
  Proof. destruct (same_calls_fields cs cs' HS) as [_ [_ [_ [_ E]]]]. now rewrite <- E. Qed.

  Lemma same_go : forall (data : Data StringW) method uri out,
    go c e b data method uri r = Ok out <-> go c e b data method uri r' = Ok out.
  Proof.
    intros data method uri out.
    rewrite (go_exact c e b name strict f (builtin_signs_as _ _ _ _ HB) _ method uri r cs out HM HP).
    rewrite (go_exact c e b name strict f (builtin_signs_as _ _ _ _ HB) _ method uri r' cs' out HM' HP').
    destruct (same_calls_fields cs cs' HS) as [_ [E2 [_ [_ E5]]]].
    rewrite (valid_for_same strict c _ uri cs cs' HS), E5.
    now rewrite (E2 (conf_of name e b)).
  Qed.

  Lemma same_authorize : forall method uri out,
    Builder_authorize c e b method uri r = Ok out <-> Builder_authorize c e b method uri r' = Ok out.
  Proof. intros. rewrite !authorize_go. apply same_go. Qed.

  Lemma same_signed_form : forall method uri out,
    Builder_to_form c e b method uri r = Ok out <-> Builder_to_form c e b method uri r' = Ok out.
  Proof. intros. rewrite !to_form_go. apply same_go. Qed.

  Lemma same_signed_query : forall method (uri : bytes) out,
    Builder_to_query c e (w := StringW) dstr b method uri r = Ok out
    <-> Builder_to_query c e (w := StringW) dstr b method uri r' = Ok out.
  Proof. intros. rewrite !to_query_go. apply same_go. Qed.
End Same.
