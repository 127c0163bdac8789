(** Property C89: buffers of limited capacity. *)
From Coq Require Import String.
From Coq Require Import Lia Arith Sorted Permutation.
From Verif Require Import Bytes Crypto Spec MFmt MPercent MSign MSerializer MRequest MCredentials MAuth MBuilder ModelTests
  SpecFmt SpecCalls SpecCalls2 SpecAuth SpecBuild SpecForm SpecSign SpecPanic SpecLimit
  LBytes LFmt LPercent LTrace LAuth LSign LBuild LForm LReq LReq2 LBuf LBound PropsHeader PropsPanic.

Lemma simul_limits : forall (w : Writer) (text : w -> bytes) fits (m : res w) (n : res bytes), limited w text fits ->
  simul fits (holds w text fits) (fun s => s) m n -> limits text fits m n.
Proof.
  intros w text fits m n HL [A [B C]]. split; [|split].
  - intros out. split.
    + intros [s [E <-]]. destruct (A s E) as [y [E2 [T F]]]. rewrite T. now split.
    + intros [E F]. destruct (B out E F) as [x [E2 [T _]]]. eauto.
  - intros out E NF. destruct m as [s|p].
    + destruct (A s eq_refl) as [y [E2 [T F]]]. rewrite E in E2. injection E2 as <-. now elim NF.
    + destruct (C p eq_refl) as [->|E2]; [reflexivity|]. rewrite E in E2. discriminate E2.
  - intros p E. destruct m as [s|q].
    + destruct (A s eq_refl) as [y [E2 _]]. rewrite E in E2. discriminate E2.
    + destruct (C q eq_refl) as [->|E2]; [now left|]. right. rewrite E in E2. now injection E2 as <-.
Qed.

(** Every entry point that takes a buffer, with every request and every signature method whose
    signatures are well behaved, does in a limited buffer what it does in a [String]. *)
Theorem C89_authorize : forall (w : Writer) text fits c e b (buf : w) method uri r cs,
  limited w text fits -> fits (text buf) -> makes_calls r cs -> well_behaved_signatures (bd_signature_method b) ->
  limits text fits (Builder_authorize_with_buf c e b buf method uri r)
    (Builder_authorize_with_buf c e b (w := StringW) (text buf) method uri r).
Proof.
  intros w text fits c e b buf method uri r cs HL HF HM HW. apply simul_limits; [exact HL|].
  rewrite !authorize_with_buf_go. eapply simul_bind; [exact HL|eapply simul_write; [exact HL|apply wb_dstr|split; [reflexivity|exact HF]]| |].
  - intros y z E. apply (go_prefix c e b y (Authorization (w := StringW) []) method uri r cs) in HM.
    cbn [pred] in HM. rewrite app_nil_r in HM. rewrite HM in E.
    destruct (go c e b (Authorization (w := StringW) []) method uri r); cbn [rmap] in E; [|discriminate E]. injection E as <-. eauto.
  - intros x y R. eapply go_simul; eauto.
Qed.
Print Assumptions C89_authorize.

Theorem C89_form : forall (w : Writer) text fits c e b (buf : w) method uri r cs,
  limited w text fits -> fits (text buf) -> makes_calls r cs -> well_behaved_signatures (bd_signature_method b) ->
  limits text fits (Builder_to_form_with_buf c e b buf method uri r)
    (Builder_to_form_with_buf c e b (w := StringW) (text buf) method uri r).
Proof.
  intros w text fits c e b buf method uri r cs HL HF HM HW. apply simul_limits; [exact HL|].
  rewrite !to_form_with_buf_go. eapply go_simul; eauto. split; [split; [reflexivity|exact HF]|reflexivity].
Qed.
Print Assumptions C89_form.

Theorem C89_query : forall (w : Writer) text fits c e b (show : w -> disp) (uri : w) method r cs,
  limited w text fits -> fits (text uri) -> makes_calls r cs -> well_behaved_signatures (bd_signature_method b) ->
  limits text fits (Builder_to_query c e show b method uri r)
    (Builder_to_query c e (w := StringW) (fun _ => show uri) b method (text uri) r).
Proof.
  intros w text fits c e b show uri method r cs HL HF HM HW. apply simul_limits; [exact HL|].
  rewrite !to_query_go. eapply go_simul; eauto. split; [split; [reflexivity|exact HF]|reflexivity].
Qed.
Print Assumptions C89_query.

(** The same for forms and queries without authorization, through a [Urlencoder]; [next] is what comes
    before the next pair. *)
Theorem C89_urlencoder : forall (w : Writer) text fits (buf : w) next r cs,
  limited w text fits -> fits (text buf) -> makes_calls r cs -> Forall values_well_behaved cs ->
  limits text fits (r (UrlencoderS w) (Build_Urlencoder buf next))
    (r (UrlencoderS StringW) (Build_Urlencoder (w := StringW) (text buf) next)).
Proof.
  intros w text fits buf next r cs HL HF HM HV. apply simul_limits; [exact HL|].
  rewrite (HM (UrlencoderS w)), (HM (UrlencoderS StringW)). eapply simul_bind; [exact HL| | |].
  - eapply ue_calls_simul; eauto. split; [split; [reflexivity|exact HF]|reflexivity].
  - intros y z E. injection E as <-. exists []. unfold ue_text. now rewrite app_nil_r.
  - intros x y [R _]. now apply simul_ret.
Qed.
Print Assumptions C89_urlencoder.

(** The methods of the crate are well behaved. *)
Theorem C89_methods : forall sm name strict f, builtin sm name strict f -> well_behaved_signatures sm.
Proof.
  assert (HB : forall a, well_behaved (Base64PercentEncodeDisplay a)).
  { intros a. split; [apply b64_display_ok|]. unfold Base64PercentEncodeDisplay. apply no_panic_PercentEncode, no_panic_dstr. }
  intros sm name strict f H s d E. destruct H.
  - injection E as <-. apply HB.
  - injection E as <-. apply wb_dstr.
  - cbn in E. unfold rsa_end_owned, rsa_end_ref in E. destruct (rs_key _ _); [|discriminate E]. injection E as <-. apply HB.
  - cbn in E. unfold rsa_end_ref in E. destruct (rs_key _ _); [|discriminate E]. injection E as <-. apply HB.
Qed.
Print Assumptions C89_methods.

Lemma limited_bounded : forall cap, limited (BoundedW cap) (fun s => s) (fun t => length t <= cap).
Proof.
  intros cap. constructor.
  - intros a b. rewrite app_length. lia.
  - intros s c H. exists (s ++ c). cbn. apply Nat.leb_le in H. rewrite H. now split.
  - intros s c. cbn. destruct (Nat.leb (length (s ++ c)) cap); eauto.
  - intros s c s' H. cbn in H. destruct (Nat.leb (length (s ++ c)) cap) eqn:E; [|discriminate H]. apply Nat.leb_le in E.
    injection H as <-. now split.
Qed.

Lemma limited_slice : forall cap, limited (SliceW cap) (fun s => s) (fun t => length t <= cap).
Proof.
  intros cap. constructor.
  - intros a b. rewrite app_length. lia.
  - intros s c H. exists (s ++ c). cbn. rewrite app_length in H. rewrite firstn_all2 by lia. apply Nat.leb_le in H. rewrite H. now split.
  - intros s c. cbn. eauto.
  - intros s c s' H. cbn in H. injection H as H1 H2. apply Nat.leb_le in H2. rewrite <- H1, firstn_all2 by lia. rewrite app_length. now split.
Qed.

(** So, with a buffer of [cap] bytes and a method of the crate: exactly when the whole output fits. *)
Theorem C89_capacity : forall c e b name strict f method uri r cs cap (buf : bytes) out,
  builtin (bd_signature_method b) name strict f -> makes_calls r cs -> length buf <= cap ->
  (Builder_authorize_with_buf c e b (w := BoundedW cap) buf method uri r = Ok out
   <-> Builder_authorize_with_buf c e b (w := StringW) buf method uri r = Ok out /\ length out <= cap)
  /\ (Builder_authorize_with_buf c e b (w := SliceW cap) buf method uri r = Ok out
   <-> Builder_authorize_with_buf c e b (w := StringW) buf method uri r = Ok out /\ length out <= cap)
  /\ (Builder_authorize_with_buf c e b (w := StringW) buf method uri r = Ok out -> cap < length out ->
      Builder_authorize_with_buf c e b (w := BoundedW cap) buf method uri r = Panic PFmt
      /\ Builder_authorize_with_buf c e b (w := SliceW cap) buf method uri r = Panic PFmt).
Proof.
  intros c e b name strict f method uri r cs cap buf out HB HM HC.
  destruct (C89_authorize (BoundedW cap) (fun s => s) _ c e b buf method uri r cs (limited_bounded cap) HC HM (C89_methods _ _ _ _ HB)) as [A1 [A2 _]].
  destruct (C89_authorize (SliceW cap) (fun s => s) _ c e b buf method uri r cs (limited_slice cap) HC HM (C89_methods _ _ _ _ HB)) as [B1 [B2 _]].
  split; [|split].
  - rewrite <- A1. split; [eauto|]. intros [s [E <-]]. exact E.
  - rewrite <- B1. split; [eauto|]. intros [s [E <-]]. exact E.
  - intros E HX. split; [apply (A2 out)|apply (B2 out)]; auto; lia.
Qed.
Print Assumptions C89_capacity.

(** Not vacuous: a request in a buffer that is just large enough, and one byte too small. *)
Example C89_example :
  match Builder_authorize_with_buf dbg_std env0 doc_builder (w := SliceW (3 + doc_header_length)) (lit "abc") (lit "GET") (s2d "http://h/") Request_unit,
        Builder_authorize dbg_std env0 doc_builder (lit "GET") (s2d "http://h/") Request_unit with
  | Ok o, Ok o' => bseqb o (lit "abc" ++ o')
  | _, _ => false
  end
  && fmt_panic (Builder_authorize_with_buf dbg_std env0 doc_builder (w := SliceW (2 + doc_header_length)) (lit "abc") (lit "GET") (s2d "http://h/") Request_unit)
  && match Request_unit (UrlencoderS (SliceW 2)) (Build_Urlencoder (w := SliceW 2) (lit "ab") AAmpersand) with Ok o => bseqb o (lit "ab") | _ => false end
  && fmt_panic (AssertSorted true [(lit "k", s2d "v")] (UrlencoderS (SliceW 4)) (Build_Urlencoder (w := SliceW 4) (lit "ab") AAmpersand)) = true.
Proof. vm_compute. reflexivity. Qed.
