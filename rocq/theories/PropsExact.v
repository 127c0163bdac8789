(** Exact conditions for properties that do not hold in full: C12, C43, C44, C52, C53. *)
From Coq Require Import String.
From Coq Require Import Lia Arith Sorted Permutation.
From Verif Require Import Bytes Spec MFmt MSerializer MRequest MDerive
  SpecFmt SpecCalls SpecAuth SpecForm SpecParams SpecDerive
  LBytes LBase LBuild LForm LParams LDerive PropsParams PropsDerive.

(** ** C12 *)

(** Where the two orders differ: after a common beginning, the smaller byte needs no encoding and the
    larger one does (it is then encoded to a text that begins with "%", a small byte). *)
Definition disagree (u v : bytes) : Prop :=
  exists p x y u' v', u = p ++ x :: u' /\ v = p ++ y :: v'
    /\ (bn x < bn y)%N /\ unreserved x = true /\ unreserved y = false.

Lemma bcmp_app : forall p a b, bcmp (p ++ a) (p ++ b) = bcmp a b.
Proof. induction p as [|x p IH]; intros a b; [reflexivity|]. cbn [app bcmp]. now rewrite N.compare_refl. Qed.

Lemma pct_byte_order : forall x y a b, (bn x < bn y)%N ->
  bcmp (pct_byte x ++ a) (pct_byte y ++ b) = if unreserved x && negb (unreserved y) then Gt else Lt.
Proof.
  intros x y a b H. unfold pct_byte. destruct (unreserved x) eqn:EX, (unreserved y) eqn:EY; cbn [andb negb app bcmp].
  - now apply N.compare_lt_iff in H as ->.
  - assert (K : (bn "%" < bn x)%N) by (clear - EX; destruct x; try discriminate EX; reflexivity).
    apply N.compare_gt_iff in K. now rewrite K.
  - assert (K : (bn "%" < bn y)%N) by (clear - EY; destruct y; try discriminate EY; reflexivity).
    apply N.compare_lt_iff in K. now rewrite K.
  - change (bn "%" ?= bn "%")%N with Eq. cbn iota.
    assert (HX : (bn x < 256)%N) by (destruct x; reflexivity).
    assert (HY : (bn y < 256)%N) by (destruct y; reflexivity).
    assert (HM : forall n m, (n < 16)%N -> (m < 16)%N -> (bn (upper_hex n) ?= bn (upper_hex m))%N = (n ?= m)%N).
    { clear. intros n m Hn Hm.
      assert (G : forallb (fun i => forallb (fun j =>
        match (bn (upper_hex (N.of_nat i)) ?= bn (upper_hex (N.of_nat j)))%N, (N.of_nat i ?= N.of_nat j)%N with
        | Eq, Eq | Lt, Lt | Gt, Gt => true | _, _ => false end) (seq 0 16)) (seq 0 16) = true) by (vm_compute; reflexivity).
      rewrite forallb_forall in G. specialize (G (N.to_nat n)). rewrite in_seq in G.
      assert (G1 := G ltac:(lia)). rewrite forallb_forall in G1. specialize (G1 (N.to_nat m)). rewrite in_seq in G1.
      specialize (G1 ltac:(lia)). rewrite !N2Nat.id in G1.
      destruct (bn (upper_hex n) ?= bn (upper_hex m))%N, (n ?= m)%N; congruence. }
    assert (D1 : (bn x / 16 < 16)%N) by (apply N.div_lt_upper_bound; lia).
    assert (D2 : (bn y / 16 < 16)%N) by (apply N.div_lt_upper_bound; lia).
    rewrite HM by assumption. assert (L : (bn x / 16 <= bn y / 16)%N) by (apply N.div_le_mono; lia).
    destruct (bn x / 16 ?= bn y / 16)%N eqn:E.
    + apply N.compare_eq in E. rewrite HM by (apply N.mod_lt; lia).
      pose proof (N.div_mod (bn x) 16 ltac:(lia)). pose proof (N.div_mod (bn y) 16 ltac:(lia)).
      replace (bn x mod 16 ?= bn y mod 16)%N with Lt; [reflexivity|]. symmetry. apply N.compare_lt_iff. lia.
    + reflexivity.
    + apply N.compare_gt_iff in E. lia.
Qed.

Lemma order_kept : forall u v, bleb u v = true -> (bleb (pct_encode u) (pct_encode v) = false <-> disagree u v).
Proof.
  induction u as [|x u IH]; intros v H.
  - split; [rewrite bleb_nil; discriminate|]. intros [p [x [y [u' [v' [E _]]]]]]. destruct p; discriminate E.
  - destruct v as [|y v]; [discriminate H|]. unfold bleb in H. cbn [bcmp] in H.
    destruct (bn x ?= bn y)%N eqn:EC; [|clear H|discriminate H].
    + assert (EXY : x = y) by (apply N.compare_eq, (f_equal Byte.of_N) in EC; unfold bn in EC; rewrite !Byte.of_to_N in EC; congruence).
      subst y. fold (bleb u v) in H. specialize (IH v H).
      unfold pct_encode in *. cbn [flat_map]. unfold bleb at 1. rewrite bcmp_app. fold (bleb (flat_map pct_byte u) (flat_map pct_byte v)).
      rewrite IH. split.
      * intros [p [a [b [u' [v' [-> [-> K]]]]]]]. exists (x :: p), a, b, u', v'. auto.
      * intros [p [a [b [u' [v' [E1 [E2 [K1 K2]]]]]]]]. destruct p as [|c p].
        -- injection E1 as E1 _. injection E2 as E2 _. rewrite <- E1, <- E2 in K1. now apply N.lt_irrefl in K1.
        -- injection E1 as _ ->. injection E2 as _ ->. exists p, a, b, u', v'. auto.
    + apply N.compare_lt_iff in EC. unfold pct_encode. cbn [flat_map]. unfold bleb. rewrite pct_byte_order by exact EC.
      split.
      * destruct (unreserved x) eqn:EX, (unreserved y) eqn:EY; try discriminate. intros _. exists [], x, y, u, v. auto.
      * intros [p [a [b [u' [v' [E1 [E2 [K1 [K2 K3]]]]]]]]]. destruct p as [|c p].
        -- injection E1 as <- _. injection E2 as <- _. now rewrite K2, K3.
        -- injection E1 as E1 _. injection E2 as E2 _. rewrite E1, E2 in EC. now apply N.lt_irrefl in EC.
Qed.

(** A [ParameterList] is in the order of RFC 5849 iff for no repeated key two values disagree. *)
Theorem C12_exact_partial : forall sort l p, conforming sort -> history sort l p ->
  (rfc_sorted (texts p)
   <-> forall k v v', In (k, v) l -> In (k, v') l -> ~ disagree (dtext v) (dtext v')).
Proof.
  intros sort l p HC HH. destruct (history_sorted _ _ _ HC HH) as [HS HP]. split.
  - intros HR k v v' Hv Hv' HD.
    assert (HL : bleb (dtext v) (dtext v') = true).
    { destruct HD as [q [x [y [u' [w' [-> [-> [K _]]]]]]]]. unfold bleb. rewrite bcmp_app. cbn [bcmp]. apply N.compare_lt_iff in K. now rewrite K. }
    apply (order_kept _ _ HL) in HD.
    apply (Permutation_in _ (Permutation_sym HP)) in Hv. apply (Permutation_in _ (Permutation_sym HP)) in Hv'.
    apply in_split in Hv as [a [b ->]]. apply in_app_iff in Hv' as [Hv'|[Hv'|Hv']].
    + (* the other way round in the list: the texts are equal *)
      apply in_split in Hv' as [c [d ->]]. rewrite <- app_assoc in HS. cbn [app] in HS.
      assert (LE : bleb (dtext v') (dtext v) = true).
      { clear - HS. induction c as [|z c IH]; [|inversion HS; auto].
        inversion HS as [|? ? _ F]; subst. rewrite Forall_forall in F. specialize (F (k, v)).
        assert (I : In (k, v) (d ++ (k, v) :: b)) by (apply in_app_iff; right; now left). apply F in I.
        unfold kv_le, kv_text in I. apply pair_le_spec in I. cbn [fst snd] in I. destruct I as [I|[_ I]]; [|exact I].
        unfold bltb in I. rewrite bcmp_refl in I. discriminate I. }
      rewrite (bleb_antisym _ _ HL LE), bleb_refl in HD. discriminate HD.
    + injection Hv' as ->. rewrite bleb_refl in HD. discriminate HD.
    + apply in_split in Hv' as [c [d ->]]. unfold rfc_sorted, texts in HR. rewrite map_map in HR.
      assert (LE : bleb (pct_encode (dtext v)) (pct_encode (dtext v')) = true).
      { clear - HR. induction a as [|z a IH]; [|inversion HR; auto]. cbn [app map] in HR.
        inversion HR as [|? ? _ F]; subst. rewrite Forall_forall in F. specialize (F (enc_value (k, dtext v'))).
        assert (I : In (enc_value (k, dtext v')) (map (fun x : kv => enc_value (fst x, dtext (snd x))) (c ++ (k, v') :: d))).
        { apply in_map_iff. exists (k, v'). split; [reflexivity|]. apply in_app_iff. right. now left. }
        apply F in I. apply pair_le_spec in I. cbn [enc_value fst snd] in I. destruct I as [I|[_ I]]; [|exact I].
        unfold bltb in I. rewrite bcmp_refl in I. discriminate I. }
      congruence.
  - intros HD. apply rfc_sorted_from; [exact HS|]. intros [k v] [k' v'] Ha Hb E HL _. cbn [fst snd] in *. subst k'.
    destruct (bleb (pct_encode (dtext v)) (pct_encode (dtext v'))) eqn:EB; [reflexivity|]. exfalso.
    apply (order_kept _ _ HL) in EB. apply (HD k v v'); auto; eapply Permutation_in; eauto.
Qed.
Print Assumptions C12_exact_partial.

(** "a-" and "a/" disagree, "a-" and "ab" do not. *)
Example C12_exact_example : disagree (lit "a-") (lit "a/") /\ ~ disagree (lit "a-") (lit "ab") /\ ~ disagree (lit "a/") (lit "a-").
Proof.
  split; [exists (lit "a"), "-"%byte, "/"%byte, [], []; repeat split|].
  split; intros K; [assert (HL : bleb (lit "a-") (lit "ab") = true) by reflexivity; apply (order_kept _ _ HL) in K; discriminate K|].
  destruct K as [[|a [|b [|c p]]] [x [y [u' [v' [E1 [E2 [K _]]]]]]]]; try discriminate E1.
  - injection E1 as <- _. injection E2 as <- _. discriminate K.
  - injection E1 as _ <- _. injection E2 as _ <- _. discriminate K.
Qed.

(** ** C43 *)
Theorem C43_exact_partial : forall sy dbg found attrs fs,
  (exists krate body, expand sy dbg found (decl attrs fs) = Ok (Impl krate body))
  <-> attrs_ok sy found attrs fs /\ NoDup (map (param_name sy) fs) /\ ~ In [] (map (param_name sy) fs).
Proof.
  intros sy dbg found attrs fs. split.
  - intros [krate [body H]]. split; [eapply C45_accepted; eauto|]. split; [eapply C43_rejects; eauto|].
    apply accepted_facts in H as [HE _]. intros HI. apply (Permutation_in _ (Permutation_sym (names_of_sorted sy fs))) in HI.
    unfold all_errors in HE. apply app_eq_nil in HE as [_ HE]. apply app_eq_nil in HE as [HE _]. apply map_eq_nil in HE.
    assert (SO : StronglySorted (fun a b => bleb a b = true) (map Field_name (sorted_fields sy fs))) by apply sort_sorted.
    destruct (map Field_name (sorted_fields sy fs)) as [|n l]; [destruct HI|]. inversion SO as [|? ? _ F]; subst.
    assert (EN : n = []).
    { destruct HI as [->|HI]; [reflexivity|]. rewrite Forall_forall in F. apply F in HI. destruct n; [reflexivity|discriminate HI]. }
    subst n. discriminate HE.
  - intros [H1 [H2 H3]]. now apply C43_accepts_partial.
Qed.
Print Assumptions C43_exact_partial.

(** ** C44 *)

(** A Rust identifier: ASCII letters, digits and underscores, and bytes of other characters. *)
Definition rust_ident (t : bytes) : Prop :=
  forall b, In b t -> ((bn "a" <= bn b <= bn "z") \/ (bn "A" <= bn b <= bn "Z") \/ (bn "0" <= bn b <= bn "9") \/ b = "_"%byte
    \/ 128 <= bn b)%N.

Lemma high_byte : forall b, (128 <= bn b)%N -> unreserved b = false.
Proof. intros b H. destruct b; try reflexivity; exfalso; apply H; reflexivity. Qed.

(** The keys that are sent are URI-safe iff every field that is sent is renamed or has an ASCII
    identifier. *)
Theorem C44_exact_partial : forall {V} (pg : program V) self sy dbg found attrs fs krate body callss,
  (forall f, In f fs -> rust_ident (id_text (sf_ident f))) ->
  expand sy dbg found (decl attrs fs) = Ok (Impl krate body) ->
  Forall2 (emits pg self sy) fs callss -> no_reserved sy fs ->
  exists cs, body_calls pg self body cs
    /\ ((forall c, In c cs -> uri_safe (call_key c))
        <-> forall f sent, In (f, sent) (combine fs callss) -> sent <> [] ->
              name_value (lit "rename") (metas sy (sf_attrs f)) <> None \/ ascii_ident (id_text (sf_ident f))).
Proof.
  intros V pg self sy dbg found attrs fs krate body callss HI HE HF HK.
  destruct (derived_calls pg self sy dbg found attrs fs krate body callss HE HF HK) as [cs [H1 [H2 _]]]. exists cs. split; [exact H1|].
  assert (HC : forall f sent, In (f, sent) (combine fs callss) -> In f fs /\ In sent callss /\ emits pg self sy f sent).
  { clear - HF. induction HF as [|f c0 fs cs0 Hf HF IH]; [intros f sent []|]. intros f' sent [E|I].
    - injection E as <- <-. split; [now left|]. split; [now left|exact Hf].
    - apply IH in I as [I1 [I2 I3]]. split; [now right|]. split; [now right|exact I3]. }
  split.
  - intros HS f sent Hfs HN. destruct (HC f sent Hfs) as [If [Is Hf]].
    destruct (name_value (lit "rename") (metas sy (sf_attrs f))) as [n|] eqn:EN; [left; discriminate|right].
    destruct sent as [|c sent]; [now elim HN|].
    assert (Ic : In c cs).
    { assert (In c (filter is_param cs)) as K; [|now apply filter_In in K].
      eapply Permutation_in; [apply Permutation_sym; exact H2|]. apply in_concat. exists (c :: sent). split; [exact Is|now left]. }
    specialize (HS c Ic). apply emits_facts in Hf as [_ [_ [Hk _]]]. inversion Hk as [|? ? Kc _]; subst. rewrite Kc in HS.
    unfold param_name in HS. rewrite EN in HS. intros b Hb. specialize (HS b Hb).
    destruct (HI f If b Hb) as [K|[K|[K|[K|K]]]]; auto. apply high_byte in K. congruence.
  - intros HA c Hc. destruct (is_param c) eqn:EP.
    + assert (Ic : In c (concat callss)) by (eapply Permutation_in; [exact H2|]; apply filter_In; auto).
      apply in_concat in Ic as [cl [I1 I2]].
      assert (X : exists f, In (f, cl) (combine fs callss)).
      { clear - HF I1. induction HF as [|f c0 fs cs0 Hf HF IH]; [destruct I1|]. destruct I1 as [<-|I1]; [exists f; now left|].
        destruct (IH I1) as [g G]. exists g. now right. }
      destruct X as [f Hfs]. destruct (HC f cl Hfs) as [If [_ Hf]].
      assert (NE : cl <> []) by (intros ->; destruct I2).
      apply emits_facts in Hf as [_ [_ [Hk _]]]. rewrite Forall_forall in Hk. rewrite (Hk _ I2).
      destruct (name_value (lit "rename") (metas sy (sf_attrs f))) as [n|] eqn:EN; [eapply C44_renamed; eauto|].
      destruct (HA f cl Hfs NE) as [K|K]; [congruence|].
      unfold param_name. rewrite EN. intros b Hb. apply ident_byte_safe. now apply K.
    + destruct c as [| |p]; try discriminate EP. destruct p; apply safe_name; reflexivity.
Qed.
Print Assumptions C44_exact_partial.

(** ** C52 *)

(** The paths of [skip_if] in a statement. *)
Fixpoint skip_paths (st : stmt) : list bytes :=
  match st with
  | SOAuth _ | SSerialize _ _ _ _ => []
  | SIfNot p _ body => p :: skip_paths body
  | SIfSome _ body | SBlock body => skip_paths body
  end.

Definition returns_always {V} (pg : program V) (p : bytes) : Prop :=
  forall g, pg_skip_if pg p = Some g -> forall v, exists b, g v = Ok b.

Lemma KeyS_no_panic : forall {V} (pg : program V) self st bind (s : KeyS) e,
  Forall (returns_always pg) (skip_paths st) -> exec pg self st bind s <> Some (Panic e).
Proof.
  intros V pg self. induction st as [m|m key fmt tmp|p tmp body IH|i body IH|body IH]; intros bind s e HR; cbn [exec].
  - unfold oauth_method. repeat (match goal with |- context [if ?c then _ else _] => destruct c end; [discriminate|]). discriminate.
  - unfold parameter_method. destruct (bseqb m (lit "serialize_parameter")); [|destruct (bseqb m (lit "serialize_parameter_encoded")); [|discriminate]];
      (destruct (eval_v self bind tmp); [|discriminate]); (destruct fmt as [q|]; [|discriminate]); destruct (pg_fmt pg q); discriminate.
  - cbn [skip_paths] in HR. inversion HR as [|? ? H1 H2]; subst.
    destruct (pg_skip_if pg p) as [g|] eqn:EG; [|discriminate]. destruct (eval_v self bind tmp) as [v|]; [|discriminate].
    specialize (IH bind s e H2). destruct (exec pg self body bind s) as [r|]; [|discriminate].
    destruct (H1 g EG v) as [b ->]. cbn [rbind]. destruct (negb b); [exact IH|discriminate].
  - destruct (field_access self i) as [v|]; [|discriminate]. destruct (pg_option pg v) as [[x|]|]; [|discriminate|discriminate]. now apply IH.
  - now apply IH.
Qed.

Lemma exec_all_stuck : forall {V} (pg : program V) self (l : list stmt) st,
  Forall (fun st => Forall (returns_always pg) (skip_paths st)) l -> In st l ->
  (forall s : KeyS, exec pg self st None s = None) -> forall s : KeyS, exec_all pg self l s = None.
Proof.
  intros V pg self l st HR HI HS. induction l as [|x l IH]; [destruct HI|]. intros s. inversion HR as [|? ? R1 R2]; subst.
  cbn [exec_all]. destruct HI as [->|HI]; [now rewrite HS|].
  pose proof (KeyS_no_panic pg self x None s) as NP.
  destruct (exec pg self x None s) as [[s1|e]|]; [now apply IH|now elim (NP e R1)|reflexivity].
Qed.

Lemma in_merge_stmts : forall f fs ps, In f fs -> In (field_stmt f) (merge_stmts ps fs).
Proof.
  intros f. induction fs as [|g fs IH]; intros ps []; cbn [merge_stmts]; apply in_app_iff; right.
  - subst. now left.
  - right. now apply IH.
Qed.

Lemma merge_stmts_inv : forall st fs ps, In st (merge_stmts ps fs) ->
  (exists p, st = proto_stmt p) \/ exists f, In f fs /\ st = field_stmt f.
Proof.
  intros st. induction fs as [|g fs IH]; intros ps H; cbn [merge_stmts] in H.
  - apply in_map_iff in H as [p [<- _]]. left. now exists p.
  - apply in_app_iff in H as [H|[H|H]].
    + apply in_map_iff in H as [p [<- _]]. left. now exists p.
    + right. exists g. split; [now left|congruence].
    + apply IH in H as [H|[f [H1 H2]]]; [now left|right]. exists f. split; [now right|exact H2].
Qed.

Lemma field_stmt_paths : forall F p, In p (skip_paths (field_stmt F)) -> fm_skip_if (fd_meta F) = Some p.
Proof.
  intros F p. unfold field_stmt. destruct (fm_skip_if (fd_meta F)) as [q|], (ty_is_option F); cbn [skip_paths In]; intuition congruence.
Qed.

(** The implementation compiles iff no field that may be sent has a reserved word as its name. *)
Theorem C52_exact_partial : forall {V} (pg : program V) self sy dbg found attrs fs krate body,
  expand sy dbg found (decl attrs fs) = Ok (Impl krate body) ->
  (forall f, In f fs -> well_typed pg self sy f) ->
  ((forall (S : Serializer) (s : S), exec_body pg self body S s <> None) <-> no_reserved sy fs).
Proof.
  intros V pg self sy dbg found attrs fs krate body HE HW. split.
  2: { intros HK. eapply C52_partial; eauto. }
  intros HX f If Hs. destruct (is_keyword (id_text (sf_ident f))) eqn:EK; [|exact EK]. exfalso.
  apply (HX KeyS ([] : KeyS)). apply accepted_facts in HE as [_ [_ ->]]. unfold exec_body.
  assert (IN : forall F, In F (unskipped (sorted_fields sy fs)) -> exists g, In g fs /\ F = field_of_syn sy g).
  { intros F HF. unfold unskipped in HF. apply filter_In in HF as [HF _].
    apply (Permutation_in _ (sort_perm _)) in HF. apply in_map_iff in HF as [g [<- G]]. eauto. }
  rewrite (exec_all_stuck pg self _ (field_stmt (field_of_syn sy f))); [reflexivity| | |].
  - apply Forall_forall. intros st Hst. apply merge_stmts_inv in Hst as [[p ->]|[F [HF ->]]]; [constructor|].
    apply Forall_forall. intros p Hp. apply field_stmt_paths in Hp. destruct (IN F HF) as [g [G ->]].
    cbn [field_of_syn fd_meta field_view fm_skip_if] in Hp. intros h Hh. destruct (wt_skip_if _ _ _ _ (HW g G) p Hp) as [h' [E1 E2]].
    rewrite Hh in E1. injection E1 as <-. exact E2.
  - apply in_merge_stmts. unfold unskipped. apply filter_In. split; [|change (fm_skip (fd_meta (field_of_syn sy f))) with (skipped sy f); now rewrite Hs].
    apply (Permutation_in _ (Permutation_sym (sort_perm _))). now apply in_map.
  - intros s. unfold field_stmt.
    assert (FA : field_access self (fd_ident (field_of_syn sy f)) = None).
    { unfold field_access, field_of_syn. cbn [fd_ident id_raw id_text negb andb]. now rewrite EK. }
    destruct (ty_is_option (field_of_syn sy f)).
    + destruct (fm_skip_if (fd_meta (field_of_syn sy f))); cbn [exec]; now rewrite FA.
    + destruct (fm_skip_if (fd_meta (field_of_syn sy f))) as [p|]; cbn [exec eval_v]; rewrite FA.
      * destruct (pg_skip_if pg p); reflexivity.
      * destruct (parameter_method _); reflexivity.
Qed.
Print Assumptions C52_exact_partial.

(** ** C05, C06, C41 and C42 for every derived struct whose code compiles *)

Lemma compiled_calls : forall {V} (pg : program V) self sy dbg found attrs fs krate body,
  expand sy dbg found (decl attrs fs) = Ok (Impl krate body) ->
  (forall f, In f fs -> well_typed pg self sy f) ->
  (forall (S : Serializer) (s : S), exec_body pg self body S s <> None) ->
  exists callss cs, Forall2 (emits pg self sy) fs callss /\ body_calls pg self body cs
    /\ Permutation (filter is_param cs) (concat callss) /\ call_protos cs = all_protos
    /\ ascending (map call_key cs) /\ strictly_ascending (map call_key (filter is_param cs)).
Proof.
  intros V pg self sy dbg found attrs fs krate body HE HW HX.
  assert (HK : no_reserved sy fs) by (eapply C52_exact_partial; eauto).
  assert (X : exists callss, Forall2 (emits pg self sy) fs callss).
  { clear - HW. induction fs as [|f fs IH]; [exists []; constructor|]. destruct IH as [c Hc]; [intros g Hg; apply HW; now right|].
    destruct (C41_defined pg self sy f (HW f (or_introl eq_refl))) as [cs Hcs]. exists (cs :: c). now constructor. }
  destruct X as [callss HF]. exists callss. destruct (derived_calls _ _ _ _ _ _ _ _ _ _ HE HF HK) as [cs [H1 [H2 [H3 [H4 H5]]]]].
  exists cs. auto 8.
Qed.

Theorem C41_compiled : forall {V} (pg : program V) self sy dbg found attrs fs krate body,
  expand sy dbg found (decl attrs fs) = Ok (Impl krate body) ->
  (forall f, In f fs -> well_typed pg self sy f) ->
  (forall (S : Serializer) (s : S), exec_body pg self body S s <> None) ->
  exists callss cs, Forall2 (emits pg self sy) fs callss /\ body_calls pg self body cs
    /\ Permutation (filter is_param cs) (concat callss).
Proof. intros. destruct (compiled_calls pg self sy dbg found attrs fs krate body) as (x & cs & H3 & H4 & H5 & _); auto. exists x, cs. auto. Qed.
Print Assumptions C41_compiled.

Theorem C05_derived : forall {V} (pg : program V) self sy dbg found attrs fs krate body,
  expand sy dbg found (decl attrs fs) = Ok (Impl krate body) ->
  (forall f, In f fs -> well_typed pg self sy f) ->
  (forall (S : Serializer) (s : S), exec_body pg self body S s <> None) ->
  exists cs, body_calls pg self body cs /\ call_protos cs = all_protos.
Proof. intros. destruct (compiled_calls pg self sy dbg found attrs fs krate body) as (x & cs & H3 & H4 & H5 & H6 & _); auto. exists cs. auto. Qed.
Print Assumptions C05_derived.

Theorem C06_derived : forall {V} (pg : program V) self sy dbg found attrs fs krate body,
  expand sy dbg found (decl attrs fs) = Ok (Impl krate body) ->
  (forall f, In f fs -> well_typed pg self sy f) ->
  (forall (S : Serializer) (s : S), exec_body pg self body S s <> None) ->
  exists cs, body_calls pg self body cs /\ ascending (map call_key cs).
Proof. intros. destruct (compiled_calls pg self sy dbg found attrs fs krate body) as (x & cs & H3 & H4 & H5 & H6 & H7 & _); auto. exists cs. auto. Qed.
Print Assumptions C06_derived.

Theorem C42_compiled : forall {V} (pg : program V) self sy dbg found attrs fs krate body,
  expand sy dbg found (decl attrs fs) = Ok (Impl krate body) ->
  (forall f, In f fs -> well_typed pg self sy f) ->
  (forall (S : Serializer) (s : S), exec_body pg self body S s <> None) ->
  exists cs, body_calls pg self body cs
    /\ ascending (map call_key cs) /\ strictly_ascending (map call_key (filter is_param cs)).
Proof. intros. destruct (compiled_calls pg self sy dbg found attrs fs krate body) as (x & cs & H3 & H4 & H5 & H6 & H7 & H8); auto. exists cs. auto. Qed.
Print Assumptions C42_compiled.

(** ** C53 *)

(** Each name is sent once iff no field that is sent has the name of a protocol parameter. *)
Theorem C53_exact_partial : forall {V} (pg : program V) self sy dbg found attrs fs krate body callss,
  expand sy dbg found (decl attrs fs) = Ok (Impl krate body) ->
  Forall2 (emits pg self sy) fs callss -> no_reserved sy fs ->
  exists cs, body_calls pg self body cs
    /\ (NoDup (map call_key cs) <-> forall c, In c (concat callss) -> ~ In (call_key c) (map proto_key all_protos)).
Proof.
  intros V pg self sy dbg found attrs fs krate body callss HE HF HK.
  destruct (derived_calls _ _ _ _ _ _ _ _ _ _ HE HF HK) as [cs [H1 [H2 [H3 [_ H5]]]]]. exists cs. split; [exact H1|].
  assert (P : Permutation (map call_key cs) (map call_key (filter is_param cs) ++ map proto_key (call_protos cs))).
  { clear. induction cs as [|c cs IH]; [constructor|]. destruct c as [k v|k v|p]; cbn [map filter is_param call_protos flat_map app call_key].
    - now constructor.
    - now constructor.
    - change (flat_map _ cs) with (call_protos cs). rewrite IH. apply Permutation_middle. }
  rewrite H3 in P. split.
  - intros ND c Hc Hp. apply (Permutation_NoDup P) in ND.
    assert (Hk : In (call_key c) (map call_key (filter is_param cs))).
    { apply (Permutation_in _ (Permutation_map call_key (Permutation_sym H2))). now apply in_map. }
    apply in_split in Hk as [a [b E]]. rewrite E, <- app_assoc in ND. cbn [app] in ND. apply NoDup_remove_2 in ND.
    apply ND. rewrite !in_app_iff. auto.
  - intros HO. apply (Permutation_NoDup (Permutation_sym P)).
    assert (ND : forall a b : list bytes, NoDup a -> NoDup b -> (forall x, In x a -> ~ In x b) -> NoDup (a ++ b)).
    { induction a as [|x a IH]; intros b Ha Hb Hd; [exact Hb|]. inversion Ha; subst. cbn [app]. constructor.
      - rewrite in_app_iff. intros [I|I]; [contradiction|]. now apply (Hd x (or_introl eq_refl)).
      - apply IH; auto. intros y Hy. apply Hd. now right. }
    apply ND.
    + now apply strictly_nodup.
    + repeat constructor; cbn; intuition discriminate.
    + intros k Hk. apply (Permutation_in _ (Permutation_map call_key H2)) in Hk. apply in_map_iff in Hk as [c [<- Hc]]. now apply HO.
Qed.
Print Assumptions C53_exact_partial.

(** The struct of [PropsDerive.example_fields] meets the hypotheses (it is accepted and well typed by
    [example_accepted] and [C52_example]). *)
Example exact_example :
  no_reserved toy example_fields
  /\ forallb (fun f => forallb (fun b => (beqb b "_" || (bn "a" <=? bn b) && (bn b <=? bn "z"))%N) (id_text (sf_ident f))) example_fields = true.
Proof.
  split; [|vm_compute; reflexivity]. intros f Hf _. repeat (destruct Hf as [<-|Hf]; [reflexivity|]). destruct Hf.
Qed.
