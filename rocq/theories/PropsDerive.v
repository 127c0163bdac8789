(** Properties of the derive macro: C41-C45, C52-C54. *)
From Coq Require Import String.
From Coq Require Import Lia Arith Sorted Permutation.
From Verif Require Import Bytes Crypto Spec MFmt MSign MSerializer MRequest MCredentials MAuth MBuilder MDerive
  SpecCalls SpecAuth SpecBuild SpecForm SpecServer SpecSign SpecDerive LBytes LTrace LBuild LForm LReq LTop LServer LDerive PropsServer.

(** The struct declaration with these attributes and named fields. *)
Definition decl (attrs : list attr) (fs : list syn_field) : derive_input :=
  {| di_attrs := attrs; di_data := NamedFields fs |}.

(** Only raw identifiers can be spelt like a reserved word; see C52. *)
Definition no_reserved (sy : syn) (fs : list syn_field) : Prop :=
  forall f, In f fs -> skipped sy f = false -> reserved_word (id_text (sf_ident f)) = false.

(** The generated code [body], for the value [self], makes the calls [cs] and then [end], on any
    serializer. *)
Definition body_calls {V} (pg : program V) (self : struct_value V) (body : list stmt) (cs : list call) : Prop :=
  forall (S : Serializer) (s : S), exec_body pg self body S s = Some (s <- run_calls cs s ;; sr_end s).

(** ** C41 Derived requests emit exactly the right fields *)

Theorem C41_emitted : forall {V} (pg : program V) self sy dbg found attrs fs krate body callss,
  expand sy dbg found (decl attrs fs) = Ok (Impl krate body) ->
  Forall2 (emits pg self sy) fs callss -> no_reserved sy fs ->
  exists cs, body_calls pg self body cs
    /\ Permutation (filter is_param cs) (concat callss)
    /\ call_protos cs = all_protos.
Proof.
  intros V pg self sy dbg found attrs fs krate body callss HE HF HK.
  destruct (derived_calls pg self sy dbg found attrs fs krate body callss HE HF HK) as [cs [H1 [H2 [H3 _]]]]. exists cs. auto.
Qed.
Print Assumptions C41_emitted.

(** When a field is emitted. *)
Theorem C41_when : forall {V} (pg : program V) self sy f cs, emits pg self sy f cs ->
  (cs <> [] <-> skipped sy f = false /\ exists v, contributes pg self sy f (Some v) /\ skip_if_says pg sy f v false).
Proof.
  intros V pg self sy f cs H.
  assert (CF : forall a b, contributes pg self sy f a -> contributes pg self sy f b -> a = b).
  { intros a b Ha Hb. inversion Ha; inversion Hb; subst; try contradiction; congruence. }
  assert (SF : forall v a b, skip_if_says pg sy f v a -> skip_if_says pg sy f v b -> a = b).
  { unfold skip_if_says. intros v a b Ha Hb. destruct (path_value _ _); [|congruence]. destruct Ha as [g [G1 G2]], Hb as [h [H1 H2]]. congruence. }
  split.
  - intros HN. inversion H; subst; try congruence. split; auto. eauto.
  - intros [HS [v [HC HI]]]. inversion H as [H1|H1 H2|v' d H1 H2 H3 H4|v' d H1 H2 H3 H4]; subst.
    + congruence.
    + pose proof (CF _ _ HC H2). discriminate.
    + pose proof (CF _ _ HC H2) as E. inversion E; subst. pose proof (SF _ _ _ HI H3). discriminate.
    + discriminate.
Qed.
Print Assumptions C41_when.

(** What is emitted is determined by the declaration and the value, and there is always an answer if
    the program is well typed and the [skip_if] functions return. *)
Theorem C41_determined : forall {V} (pg : program V) self sy f cs cs',
  emits pg self sy f cs -> emits pg self sy f cs' -> cs = cs'.
Proof.
  intros V pg self sy f cs cs' H H'.
  assert (CF : forall a b, contributes pg self sy f a -> contributes pg self sy f b -> a = b).
  { intros a b Ha Hb. inversion Ha; inversion Hb; subst; try contradiction; congruence. }
  assert (SF : forall v a b, skip_if_says pg sy f v a -> skip_if_says pg sy f v b -> a = b).
  { unfold skip_if_says. intros v a b Ha Hb. destruct (path_value _ _); [|congruence]. destruct Ha as [g [G1 G2]], Hb as [h [H1 H2]]. congruence. }
  assert (FF : forall v a b, formatted pg sy f v a -> formatted pg sy f v b -> a = b).
  { unfold formatted. intros v a b Ha Hb. destruct (path_value _ _); [|congruence]. destruct Ha as [g [G1 G2]], Hb as [h [H1 H2]]. congruence. }
  inversion H as [A1|A1 A2|v d A1 A2 A3 A4|v d A1 A2 A3 A4]; inversion H' as [B1|B1 B2|v' d' B1 B2 B3 B4|v' d' B1 B2 B3 B4];
    subst; try congruence; try reflexivity.
  - pose proof (CF _ _ A2 B2). discriminate.
  - pose proof (CF _ _ A2 B2) as E. inversion E; subst. pose proof (SF _ _ _ A3 B3). discriminate.
  - pose proof (CF _ _ A2 B2). discriminate.
  - pose proof (CF _ _ A2 B2) as E. inversion E; subst. pose proof (SF _ _ _ A3 B3). discriminate.
  - pose proof (CF _ _ A2 B2) as E. inversion E; subst. now rewrite (FF _ _ _ A4 B4).
Qed.
Print Assumptions C41_determined.

Record well_typed {V} (pg : program V) (self : struct_value V) (sy : syn) (f : syn_field) : Prop := {
  wt_field : exists v, self (id_text (sf_ident f)) = Some v
    /\ (treated_as_option sy f -> pg_option pg v <> None);
  wt_fmt : forall p, path_value (lit "fmt") (metas sy (sf_attrs f)) = Some p -> pg_fmt pg p <> None;
  wt_skip_if : forall p, path_value (lit "skip_if") (metas sy (sf_attrs f)) = Some p ->
    exists g, pg_skip_if pg p = Some g /\ forall v, exists b, g v = Ok b;
}.

Theorem C41_defined : forall {V} (pg : program V) self sy f, well_typed pg self sy f -> exists cs, emits pg self sy f cs.
Proof.
  intros V pg self sy f [W1 W2 W3]. destruct (skipped sy f) eqn:ES; [exists []; now apply em_skip|].
  destruct W1 as [v [HV HO]].
  assert (X : exists o, contributes pg self sy f o).
  { destruct (ty_is_option (field_of_syn sy f)) eqn:E.
    - apply treated_spec in E. specialize (HO E). destruct (pg_option pg v) as [[x|]|] eqn:EO; [| |congruence].
      + exists (Some x). eapply co_some; eauto.
      + exists None. eapply co_none; eauto.
    - exists (Some v). apply co_plain; auto. rewrite treated_spec. congruence. }
  destruct X as [[x|] HC]; [|exists []; now apply em_none].
  assert (XB : exists b, skip_if_says pg sy f x b).
  { unfold skip_if_says. destruct (path_value (lit "skip_if") _) as [p|]; [|now exists false].
    destruct (W3 p eq_refl) as [g [G1 G2]]. destruct (G2 x) as [b Hb]. exists b. eauto. }
  assert (XF : exists d, formatted pg sy f x d).
  { unfold formatted. destruct (path_value (lit "fmt") _) as [p|]; [|eauto]. specialize (W2 p eq_refl).
    destruct (pg_fmt pg p) as [g|]; [eauto|congruence]. }
  destruct XB as [[] HB], XF as [d HF]; eexists; [eapply em_skip_if|eapply em_param]; eauto.
Qed.
Print Assumptions C41_defined.

(** ** C42 The order of the field declarations does not matter; keys are sorted *)

Theorem C42_order : forall sy dbg found attrs fs fs' krate body, Permutation fs fs' ->
  expand sy dbg found (decl attrs fs) = Ok (Impl krate body) ->
  expand sy dbg found (decl attrs fs') = Ok (Impl krate body).
Proof.
  intros sy dbg found attrs fs fs' krate body P H. apply accepted_facts in H as [HE [-> ->]]. unfold decl. rewrite expand_spec.
  assert (E' : all_errors sy found attrs fs' = []).
  { apply Permutation_nil. rewrite <- HE. now apply errors_perm. }
  rewrite (no_errors_no_panic _ _ _ _ E'), E'. do 3 f_equal. f_equal. apply fields_unique.
  - unfold sorted_fields. rewrite !sort_perm. apply Permutation_map. now apply Permutation_sym.
  - eapply accepted_strict; exact E'.
  - eapply accepted_strict; exact HE.
Qed.
Print Assumptions C42_order.

(** Nor does it for a rejected struct, except for the order of the messages. *)
Theorem C42_errors : forall sy dbg found attrs fs fs' es krate, Permutation fs fs' ->
  expand sy dbg found (decl attrs fs) = Ok (Fallback es krate) ->
  exists es', expand sy dbg found (decl attrs fs') = Ok (Fallback es' krate) /\ Permutation es es'.
Proof.
  intros sy dbg found attrs fs fs' es krate P H. unfold decl in *. rewrite expand_spec in *.
  destruct (crate_panics sy found attrs); [discriminate H|].
  pose proof (errors_perm sy found attrs fs fs' P) as PE.
  destruct (all_errors sy found attrs fs) as [|e l] eqn:E; [discriminate H|]. inversion H; subst.
  destruct (all_errors sy found attrs fs') as [|e' l'] eqn:E'; [apply Permutation_sym, Permutation_nil in PE; discriminate|].
  eexists. split; [reflexivity|exact PE].
Qed.
Print Assumptions C42_errors.

Theorem C42_sorted : forall {V} (pg : program V) self sy dbg found attrs fs krate body callss,
  expand sy dbg found (decl attrs fs) = Ok (Impl krate body) ->
  Forall2 (emits pg self sy) fs callss -> no_reserved sy fs ->
  exists cs, body_calls pg self body cs
    /\ ascending (map call_key cs) /\ strictly_ascending (map call_key (filter is_param cs)).
Proof.
  intros V pg self sy dbg found attrs fs krate body callss HE HF HK.
  destruct (derived_calls pg self sy dbg found attrs fs krate body callss HE HF HK) as [cs [H1 [H2 [H3 [H4 H5]]]]]. exists cs. auto.
Qed.
Print Assumptions C42_sorted.

(** ** C43 Conflicting parameter names *)

Theorem C43_rejects : forall sy dbg found attrs fs krate body,
  expand sy dbg found (decl attrs fs) = Ok (Impl krate body) -> NoDup (map (param_name sy) fs).
Proof.
  intros sy dbg found attrs fs krate body H. apply accepted_facts in H as [HE _].
  apply (Permutation_NoDup (names_of_sorted sy fs)). apply strictly_nodup. eapply accepted_strict; exact HE.
Qed.
Print Assumptions C43_rejects.

(** How often the error is reported for a name. *)
Definition reports (n : bytes) (e : error) : bool := match e with DuplicateParameter m => bseqb n m | _ => false end.

Lemma faults_no_dup : forall sy table n before attrs, filter (reports n) (faults table before (items sy attrs)) = [].
Proof.
  intros sy table n before attrs.
  assert (G : forall l before, (forall e, In (inr e) l -> e = SynError) -> filter (reports n) (faults table before l) = []).
  { induction l as [|[m|e] l IH]; intros b HI; [reflexivity| |].
    - cbn [faults]. assert (R : filter (reports n) (faults table (b ++ [m]) l) = []) by (apply IH; intros e He; apply HI; now right).
      destruct (fault table b m) as [e|] eqn:E; [|exact R]. cbn [filter]. rewrite R.
      assert (K : reports n e = false).
      { unfold fault in E. destruct (find _ table) as [[nm s]|]; [|inversion E; reflexivity].
        unfold complaint in E.
        destruct s, (mt_kind m) as [| |[]]; try (inversion E; reflexivity);
          try (destruct (forallb unreserved s)); try (inversion E; reflexivity); destruct (existsb _ b); inversion E; reflexivity. }
      now rewrite K.
    - cbn [faults filter]. rewrite (HI e (or_introl eq_refl)). cbn [reports]. apply IH. intros e' He. apply HI. now right. }
  apply G. intros e He. unfold items in He. apply in_flat_map in He as [a [_ Ha]]. destruct (for_oauth1 a); [|destruct Ha].
  destruct (parse_args sy a); [|destruct Ha as [E|[]]; now inversion E]. apply in_map_iff in Ha as [x [E _]]. discriminate E.
Qed.

Theorem C43_count : forall sy dbg found attrs fs es krate n, n <> [] ->
  expand sy dbg found (decl attrs fs) = Ok (Fallback es krate) ->
  length (filter (reports n) es) = pred (count n (map (param_name sy) fs)).
Proof.
  intros sy dbg found attrs fs es krate n Hn H. unfold decl in H. rewrite expand_spec in H.
  destruct (crate_panics sy found attrs); [discriminate H|].
  assert (E : es = all_errors sy found attrs fs) by (destruct (all_errors sy found attrs fs); inversion H; reflexivity).
  subst es. unfold all_errors. rewrite !filter_app.
  assert (F1 : filter (reports n) (flat_map (field_faults sy) fs) = []).
  { clear. induction fs as [|f fs IH]; [reflexivity|]. cbn [flat_map]. rewrite filter_app. unfold field_faults at 1. now rewrite faults_no_dup, IH. }
  assert (F2 : filter (reports n) (snd (crate_choice sy found attrs)) = []).
  { unfold crate_choice. destruct (path_value _ _); [reflexivity|]. destruct found; reflexivity. }
  rewrite F1, F2, faults_no_dup, !app_nil_r. cbn [app].
  assert (F3 : forall l, length (filter (reports n) (map DuplicateParameter l)) = count n l).
  { unfold count. induction l as [|x l IH]; [reflexivity|]. cbn [map filter reports]. destruct (bseqb n x); cbn [length]; auto. }
  rewrite F3, dups_count.
  - destruct (bseqb n []) eqn:E; [apply bseqb_eq in E; contradiction|]. f_equal. unfold count.
    apply Permutation_length. assert (P := names_of_sorted sy fs). revert P. generalize (map Field_name (sorted_fields sy fs)) (map (param_name sy) fs).
    intros a b P. induction P as [|x l l' P IH|x y l|l1 l2 l3 P1 IH1 P2 IH2]; cbn [filter].
    + constructor.
    + destruct (bseqb n x); auto.
    + destruct (bseqb n x), (bseqb n y); auto. apply perm_swap.
    + now rewrite IH1.
  - apply sort_sorted.
  - rewrite Forall_forall. intros x _. apply bleb_nil.
Qed.
Print Assumptions C43_count.

(** The attributes of a field, and of the struct, are in order. *)
Definition attrs_ok (sy : syn) (found : found_crate) (attrs : list attr) (fs : list syn_field) : Prop :=
  (forall f, In f fs -> faults field_attributes [] (items sy (sf_attrs f)) = [])
  /\ faults container_attributes [] (items sy attrs) = []
  /\ (path_value (lit "crate") (metas sy attrs) <> None \/ exists k, found = CrateName k).

Lemma attrs_ok_errors : forall sy found attrs fs,
  attrs_ok sy found attrs fs <->
  flat_map (field_faults sy) fs = [] /\ faults container_attributes [] (items sy attrs) = [] /\ snd (crate_choice sy found attrs) = [].
Proof.
  intros sy found attrs fs. unfold attrs_ok.
  assert (F : (forall f, In f fs -> faults field_attributes [] (items sy (sf_attrs f)) = []) <-> flat_map (field_faults sy) fs = []).
  { induction fs as [|f fs IH]; cbn [flat_map]; [split; [reflexivity|intros _ f []]|]. split.
    - intros H. unfold field_faults at 1. rewrite (H f (or_introl eq_refl)). apply IH. intros g Hg. apply H. now right.
    - intros H. apply app_eq_nil in H as [H1 H2]. intros g [<-|Hg]; [exact H1|]. now apply IH. }
  rewrite F. unfold crate_choice. destruct (path_value (lit "crate") (metas sy attrs)).
  - split; intros [H1 [H2 H3]]; repeat split; auto. left. discriminate.
  - destruct found as [k| |].
    + split; intros [H1 [H2 H3]]; repeat split; auto. right. eauto.
    + split; intros [H1 [H2 H3]]; repeat split; auto; [destruct H3 as [H3|[k H3]]; [congruence|discriminate]|discriminate H3].
    + split; intros [H1 [H2 H3]]; repeat split; auto; [destruct H3 as [H3|[k H3]]; [congruence|discriminate]|discriminate H3].
Qed.

Theorem C43_accepts_partial : forall sy dbg found attrs fs,
  attrs_ok sy found attrs fs -> NoDup (map (param_name sy) fs) -> ~ In [] (map (param_name sy) fs) ->
  exists krate body, expand sy dbg found (decl attrs fs) = Ok (Impl krate body).
Proof.
  intros sy dbg found attrs fs HA HN HE. unfold decl. rewrite expand_spec. apply attrs_ok_errors in HA as [A1 [A2 A3]].
  assert (HP : crate_panics sy found attrs = false).
  { unfold crate_choice in A3. unfold crate_panics. destruct (path_value _ _); [reflexivity|]. destruct found; [reflexivity|reflexivity|discriminate A3]. }
  rewrite HP.
  assert (D : dups [] (map Field_name (sorted_fields sy fs)) = []).
  { pose proof (names_of_sorted sy fs) as P. apply Permutation_sym in P. apply (Permutation_NoDup P) in HN.
    assert (HE' : ~ In [] (map Field_name (sorted_fields sy fs))).
    { intros I. apply HE. eapply Permutation_in; [apply Permutation_sym; exact P|exact I]. }
    revert HN HE'. generalize (map Field_name (sorted_fields sy fs)). generalize (@nil byte). intros prev l. revert prev.
    induction l as [|n l IH]; intros prev HN HE'; [reflexivity|]. cbn [dups]. inversion HN; subst. destruct (bseqb n prev) eqn:E.
    - apply bseqb_eq in E. subst. exfalso. apply HE'. now left.
    - now apply IH. }
  unfold all_errors. rewrite A1, A2, A3, D. cbn. eauto.
Qed.
Print Assumptions C43_accepts_partial.

(** Small concrete syntax for the witnesses: a path or expression is one token. *)
Definition toy_expr (t : bytes) : expr :=
  match t with
  | """"%byte :: s => EStr s
  | _ => if bseqb t (lit "true") then EBool true else if bseqb t (lit "false") then EBool false else EPath t
  end.
Definition toy : syn := {|
  parse_path := fun ts => match ts with TTok t :: r => Some (PIdent {| id_raw := false; id_text := t |}, r) | _ => None end;
  parse_expr := fun ts => match ts with TTok t :: r => Some (toy_expr t, r) | _ => None end |}.
Definition oauth1_attr (ts : list tok) : attr :=
  {| at_path := PIdent {| id_raw := false; id_text := lit "oauth1" |}; at_args := ArgsList ts |}.
Definition field (n : bytes) (attrs : list attr) (t : ty) : syn_field :=
  {| sf_attrs := attrs; sf_ident := {| id_raw := false; id_text := n |}; sf_ty := t |}.
Definition option_ty : ty := TyPath false [({| id_raw := false; id_text := lit "Option" |}, ArgAngle 1)].
Definition eq_attr (n v : bytes) : attr := oauth1_attr [TTok n; TEq; TTok v].

(** [rename = ""] alone is reported as a duplicate: "if all names are distinct it accepts" is false. *)
Theorem C43_refuted :
  ~ (forall sy dbg found attrs fs, attrs_ok sy found attrs fs -> NoDup (map (param_name sy) fs) ->
     exists krate body, expand sy dbg found (decl attrs fs) = Ok (Impl krate body)).
Proof.
  intros H. pose (f := field (lit "a") [eq_attr (lit "rename") (lit """")] TyOther).
  destruct (H toy false (CrateName (lit "oauth1_request")) [] [f]) as [k [body E]].
  - apply attrs_ok_errors. vm_compute. auto.
  - vm_compute. repeat constructor. intros [].
  - vm_compute in E. discriminate E.
Qed.
Print Assumptions C43_refuted.

(** A skipped field, which sends nothing, still takes part in the check. *)
Theorem C43_skipped_refuted :
  ~ (forall sy dbg found attrs fs, attrs_ok sy found attrs fs ->
     NoDup (map (param_name sy) (filter (fun f => negb (skipped sy f)) fs)) -> ~ In [] (map (param_name sy) fs) ->
     exists krate body, expand sy dbg found (decl attrs fs) = Ok (Impl krate body)).
Proof.
  intros H. pose (f := field (lit "a") [oauth1_attr [TTok (lit "skip")]] TyOther).
  pose (g := field (lit "b") [eq_attr (lit "rename") (lit """a")] TyOther).
  destruct (H toy false (CrateName (lit "oauth1_request")) [] [f; g]) as [k [body E]].
  - apply attrs_ok_errors. vm_compute. auto.
  - vm_compute. repeat constructor. intros [].
  - vm_compute. intuition discriminate.
  - vm_compute in E. discriminate E.
Qed.
Print Assumptions C43_skipped_refuted.

(** ** C44 Keys are URI-safe *)

(** A renamed field. *)
Lemma name_value_safe : forall n ms s, name_value n ms = Some s -> forallb unreserved s = true.
Proof.
  unfold name_value. intros n. induction ms as [|m ms IH]; intros s H; [discriminate|]. cbn [first_some] in H.
  destruct (named n m); [|now apply IH]. destruct (mt_kind m) as [| |[]]; try now apply IH.
  destruct (forallb unreserved s0) eqn:E; [now inversion H; subst|now apply IH].
Qed.

Theorem C44_renamed : forall sy f n, name_value (lit "rename") (metas sy (sf_attrs f)) = Some n -> uri_safe (param_name sy f).
Proof.
  intros sy f n H. unfold param_name. rewrite H. apply name_value_safe in H. intros b Hb. rewrite forallb_forall in H. auto.
Qed.
Print Assumptions C44_renamed.

(** An ASCII identifier: letters, digits and underscores. *)
Definition ascii_ident (t : bytes) : Prop :=
  forall b, In b t -> ((bn "a" <= bn b <= bn "z") \/ (bn "A" <= bn b <= bn "Z") \/ (bn "0" <= bn b <= bn "9") \/ b = "_"%byte)%N.

Lemma ident_byte_safe : forall b,
  ((bn "a" <= bn b <= bn "z") \/ (bn "A" <= bn b <= bn "Z") \/ (bn "0" <= bn b <= bn "9") \/ b = "_"%byte)%N -> unreserved b = true.
Proof.
  intros b H. destruct (unreserved b) eqn:E; [reflexivity|]. exfalso.
  assert (K : ((bn "a" <=? bn b) && (bn b <=? bn "z") || (bn "A" <=? bn b) && (bn b <=? bn "Z")
    || (bn "0" <=? bn b) && (bn b <=? bn "9") || beqb b "_")%N = true).
  { destruct H as [[H1 H2]|[[H1 H2]|[[H1 H2]|HU]]]; try (subst b; reflexivity);
      apply N.leb_le in H1, H2; rewrite H1, H2; cbn [andb orb]; rewrite ?orb_true_r; reflexivity. }
  destruct b; cbv in E; try discriminate E; cbv in K; discriminate K.
Qed.

Theorem C44_ascii_partial : forall {V} (pg : program V) self sy dbg found attrs fs krate body callss,
  (forall f, In f fs -> ascii_ident (id_text (sf_ident f))) ->
  expand sy dbg found (decl attrs fs) = Ok (Impl krate body) ->
  Forall2 (emits pg self sy) fs callss -> no_reserved sy fs ->
  exists cs, body_calls pg self body cs /\ forall c, In c cs -> uri_safe (call_key c).
Proof.
  intros V pg self sy dbg found attrs fs krate body callss HA HE HF HK.
  destruct (derived_calls pg self sy dbg found attrs fs krate body callss HE HF HK) as [cs [H1 [H2 _]]]. exists cs. split; [exact H1|].
  intros c Hc. destruct (is_param c) eqn:EP.
  - assert (Ic : In c (concat callss)) by (eapply Permutation_in; [exact H2|]; apply filter_In; auto).
    apply in_concat in Ic as [cl [I1 I2]].
    assert (X : exists f, In f fs /\ emits pg self sy f cl).
    { clear - HF I1. induction HF as [|f c0 fs cs0 Hf HF IH]; [destruct I1|]. destruct I1 as [<-|I1]; [exists f; split; [now left|auto]|].
      destruct (IH I1) as [g [G1 G2]]. exists g. split; [now right|auto]. }
    destruct X as [f [If Hf]]. apply emits_facts in Hf as [_ [_ [Hk _]]]. rewrite Forall_forall in Hk. rewrite (Hk _ I2).
    destruct (name_value (lit "rename") (metas sy (sf_attrs f))) as [n|] eqn:EN; [eapply C44_renamed; eauto|].
    unfold param_name. rewrite EN. intros b Hb. apply ident_byte_safe. now apply (HA f If b).
  - destruct c as [| |p]; try discriminate EP. destruct p; apply safe_name; reflexivity.
Qed.
Print Assumptions C44_ascii_partial.

(** A serializer that collects the keys of request parameters. *)
Definition KeyS : Serializer := {| sr_st := list bytes; sr_out := list bytes;
  sr_parameter := fun s k _ => Ok (k :: s); sr_parameter_encoded := fun s k _ => Ok (k :: s);
  sr_oauth_callback := fun s => Ok s; sr_oauth_consumer_key := fun s => Ok s;
  sr_oauth_nonce := fun s => Ok s; sr_oauth_signature_method := fun s => Ok s;
  sr_oauth_timestamp := fun s => Ok s; sr_oauth_token := fun s => Ok s;
  sr_oauth_verifier := fun s => Ok s; sr_oauth_version := fun s => Ok s; sr_end := fun s => Ok s |}.

Lemma KeyS_run : forall l (s : KeyS), run_calls l s = Ok ((rev (map call_key (filter is_param l)) ++ s) : KeyS).
Proof.
  induction l as [|c l IH]; intros s; [reflexivity|]. destruct c as [k0 v|k0 v|p].
  - cbn [run_calls run_call filter is_param map rev call_key]. cbn [sr_parameter KeyS rbind]. rewrite IH, <- app_assoc. reflexivity.
  - cbn [run_calls run_call filter is_param map rev call_key]. cbn [sr_parameter_encoded KeyS rbind]. rewrite IH, <- app_assoc. reflexivity.
  - cbn [run_calls filter is_param]. rewrite <- IH. destruct p; reflexivity.
Qed.

Definition unit_program : program bytes := {|
  pg_display := dstr; pg_fmt := fun _ => None; pg_skip_if := fun _ => None; pg_option := fun _ => None |}.

(** A field named "é" (UTF-8 c3 a9). *)
Theorem C44_refuted :
  ~ (forall V (pg : program V) self sy dbg found attrs fs krate body callss,
     expand sy dbg found (decl attrs fs) = Ok (Impl krate body) ->
     Forall2 (emits pg self sy) fs callss -> no_reserved sy fs ->
     exists cs, body_calls pg self body cs /\ forall c, In c cs -> uri_safe (call_key c)).
Proof.
  intros H. pose (n := ["195"; "169"]%byte). pose (f := field n [] TyOther).
  destruct (expand toy false (CrateName (lit "oauth1_request")) (decl [] [f])) as [[| |k body]|] eqn:E;
    try (vm_compute in E; discriminate E).
  assert (HF : Forall2 (emits unit_program (fun _ => Some (lit "v")) toy) [f] [[CParam n (dstr (lit "v"))]]).
  { constructor; [|constructor]. change (CParam n (dstr (lit "v"))) with
      (if word (lit "encoded") (metas toy (sf_attrs f)) then CParamEnc (param_name toy f) (dstr (lit "v")) else CParam (param_name toy f) (dstr (lit "v"))).
    eapply em_param; [reflexivity| |reflexivity|reflexivity]. apply co_plain; [|reflexivity].
    intros [X|[_ X]]; [discriminate X|inversion X]. }
  assert (HK : no_reserved toy [f]) by (intros g [<-|[]] _; reflexivity).
  destruct (H _ _ _ _ _ _ _ _ _ _ _ E HF HK) as [cs [H1 H2]].
  destruct (derived_calls _ _ _ _ _ _ _ _ _ _ E HF HK) as [cs' [H1' [H2' _]]].
  (* both describe the same run: use a serializer that records its keys *)
  pose proof (H1 KeyS (@nil bytes)) as X. rewrite (H1' KeyS (@nil bytes)) in X. rewrite !KeyS_run in X. cbn [rbind] in X. cbn [sr_end KeyS] in X.
  inversion X as [Y]. rewrite !app_nil_r in Y. apply (f_equal (@rev _)) in Y. rewrite !rev_involutive in Y.
  cbn [concat app] in H2'. assert (In n (map call_key (filter is_param cs))).
  { rewrite <- Y. apply (Permutation_in _ (Permutation_sym (Permutation_map call_key H2'))). left. reflexivity. }
  apply in_map_iff in H0 as [c [Hc Ic]]. apply filter_In in Ic as [Ic _]. pose proof (H2 c Ic) as U. rewrite Hc in U.
  specialize (U "195"%byte (or_introl eq_refl)). discriminate U.
Qed.
Print Assumptions C44_refuted.

(** ** C45 Attributes *)

(** All problems are reported, in order, and nothing else. *)
Theorem C45_reported : forall sy dbg found attrs fs es krate,
  expand sy dbg found (decl attrs fs) = Ok (Fallback es krate) ->
  exists ds,
    es = flat_map (fun f => faults field_attributes [] (items sy (sf_attrs f))) fs
         ++ map DuplicateParameter ds
         ++ faults container_attributes [] (items sy attrs)
         ++ (match path_value (lit "crate") (metas sy attrs), found with None, CrateError => [CrateNotFound] | _, _ => [] end)
    /\ Forall (fun n => In n (map (param_name sy) fs)) ds /\ es <> [].
Proof.
  intros sy dbg found attrs fs es krate H. unfold decl in H. rewrite expand_spec in H.
  destruct (crate_panics sy found attrs) eqn:HP; [discriminate H|]. unfold crate_panics in HP.
  assert (E : es = all_errors sy found attrs fs) by (destruct (all_errors sy found attrs fs); inversion H; reflexivity).
  exists (dups [] (map Field_name (sorted_fields sy fs))). split; [|split].
  - rewrite E. unfold all_errors, crate_choice. do 3 f_equal. destruct (path_value _ _); [reflexivity|].
    destruct found; [reflexivity|reflexivity|discriminate HP].
  - rewrite Forall_forall. intros n Hn. apply (Permutation_in _ (names_of_sorted sy fs)). revert Hn.
    generalize (map Field_name (sorted_fields sy fs)) (@nil byte). induction l as [|m l IH]; intros prev; cbn [dups]; [intros []|].
    destruct (bseqb m prev); intros Hn; [destruct Hn as [<-|Hn]; [now left|]|]; right; eapply IH; eauto.
  - intros ->. destruct (all_errors sy found attrs fs); [inversion H|discriminate E].
Qed.
Print Assumptions C45_reported.

(** A struct is accepted only if there is no problem with any attribute. *)
Theorem C45_accepted : forall sy dbg found attrs fs krate body,
  expand sy dbg found (decl attrs fs) = Ok (Impl krate body) -> attrs_ok sy found attrs fs.
Proof.
  intros sy dbg found attrs fs krate body H. apply accepted_facts in H as [HE _]. apply attrs_ok_errors. unfold all_errors in HE.
  apply app_eq_nil in HE as [H1 HE]. apply app_eq_nil in HE as [_ HE]. apply app_eq_nil in HE as [H2 H3]. auto.
Qed.
Print Assumptions C45_accepted.

(** The macro itself never panics (except in the crate [oauth1-request] itself and without Cargo's variables, see C84),
    and says no to anything but a struct with named fields. *)
Theorem C45_returns : forall sy dbg lookup var input, lookup <> FoundItself \/ var <> None ->
  exists x, expand sy dbg (find_crate lookup var) input = Ok x.
Proof.
  intros sy dbg lookup var [attrs [fs|]] H; [|eexists; reflexivity]. rewrite expand_spec.
  assert (HP : crate_panics sy (find_crate lookup var) attrs = false).
  { unfold crate_panics. destruct (path_value _ _); [reflexivity|]. destruct lookup, var; try reflexivity. destruct H as [H|H]; now contradiction H. }
  rewrite HP. eauto.
Qed.
Print Assumptions C45_returns.

Theorem C45_named_fields : forall sy dbg found input krate body,
  expand sy dbg found input = Ok (Impl krate body) -> exists fs, di_data input = NamedFields fs.
Proof. intros sy dbg found [attrs [fs|]] krate body H; [now exists fs|discriminate H]. Qed.
Print Assumptions C45_named_fields.

(** Attributes of other tools change nothing. *)
Theorem C45_other_tools : forall sy dbg found attrs fs,
  expand sy dbg found (decl attrs fs)
  = expand sy dbg found (decl (filter for_oauth1 attrs)
      (map (fun f => {| sf_attrs := filter for_oauth1 (sf_attrs f); sf_ident := sf_ident f; sf_ty := sf_ty f |}) fs)).
Proof.
  assert (HI : forall sy l, items sy (filter for_oauth1 l) = items sy l).
  { intros sy. induction l as [|a l IH]; [reflexivity|]. cbn [filter]. unfold items in *. destruct (for_oauth1 a) eqn:E; cbn [flat_map]; rewrite E, IH; reflexivity. }
  assert (HM : forall sy l, metas sy (filter for_oauth1 l) = metas sy l) by (intros; unfold metas; now rewrite HI).
  intros sy dbg found attrs fs. unfold decl. rewrite !expand_spec.
  set (g := fun f => {| sf_attrs := filter for_oauth1 (sf_attrs f); sf_ident := sf_ident f; sf_ty := sf_ty f |}).
  assert (H1 : map (field_of_syn sy) (map g fs) = map (field_of_syn sy) fs).
  { rewrite map_map. apply map_ext. intros f. unfold field_of_syn, g. cbn [sf_attrs sf_ident sf_ty]. now rewrite HM. }
  assert (H2 : flat_map (field_faults sy) (map g fs) = flat_map (field_faults sy) fs).
  { induction fs as [|f fs IH]; [reflexivity|]. cbn [map flat_map]. rewrite IH by (now inversion H1). f_equal. unfold field_faults, g. cbn [sf_attrs]. now rewrite HI. }
  unfold all_errors, sorted_fields, crate_choice, crate_panics. now rewrite H1, H2, HI, HM.
Qed.
Print Assumptions C45_other_tools.

(** An attribute as written: items separated by commas, with or without one at the end. *)
Inductive written := WWord (p : list tok) | WList (p : list tok) | WValue (p e : list tok).

Definition tokens (w : written) : list tok :=
  match w with WWord p => p | WList p => p ++ [TParen] | WValue p e => p ++ TEq :: e end.

Fixpoint separated (ws : list written) : list tok :=
  match ws with
  | [] => []
  | [w] => tokens w
  | w :: ws' => tokens w ++ TComma :: separated ws'
  end.

(** syn reads these tokens as this path (expression) whatever delimiter follows. *)
Definition reads_path (sy : syn) (ts : list tok) (p : mpath) : Prop :=
  ts <> [] /\ forall rest, match rest with [] | TParen :: _ | TEq :: _ | TComma :: _ => True | _ => False end ->
    parse_path sy (ts ++ rest) = Some (p, rest).
Definition reads_expr (sy : syn) (ts : list tok) (e : expr) : Prop :=
  forall rest, match rest with [] | TComma :: _ => True | _ => False end -> parse_expr sy (ts ++ rest) = Some (e, rest).

Inductive means (sy : syn) : written -> Meta -> Prop :=
  | mw_word : forall ts p, reads_path sy ts p -> means sy (WWord ts) {| mt_path := p; mt_kind := MkPath |}
  | mw_list : forall ts p, reads_path sy ts p -> means sy (WList ts) {| mt_path := p; mt_kind := MkList |}
  | mw_value : forall ts p es e, reads_path sy ts p -> reads_expr sy es e ->
      means sy (WValue ts es) {| mt_path := p; mt_kind := MkNameValue e |}.

Lemma means_parse : forall sy w m, means sy w m ->
  tokens w <> [] /\ forall rest, match rest with [] | TComma :: _ => True | _ => False end ->
    Meta_parse sy (tokens w ++ rest) = Some (m, rest).
Proof.
  intros sy w m H. destruct H as [ts p [N R]|ts p [N R]|ts p es e [N R] RE]; cbn [tokens].
  - split; [exact N|]. intros rest HR. unfold Meta_parse. rewrite R; [|destruct rest as [|[]]; tauto]. destruct rest as [|[]]; try contradiction; reflexivity.
  - split; [destruct ts; discriminate|]. intros rest HR. rewrite <- app_assoc. unfold Meta_parse. rewrite R by exact I. reflexivity.
  - split; [destruct ts; discriminate|]. intros rest HR. rewrite <- app_assoc. cbn [app]. unfold Meta_parse. rewrite R by exact I.
    rewrite RE by exact HR. reflexivity.
Qed.

Lemma parse_separated : forall sy ws ms, Forall2 (means sy) ws ms -> forall last fuel, last = [] \/ last = [TComma] /\ ws <> [] ->
  length (separated ws ++ last) <= fuel -> parse_terminated sy fuel (separated ws ++ last) = Some ms.
Proof.
  intros sy ws ms H. induction H as [|w m ws ms Hw H IH]; intros last fuel HL HF.
  - destruct HL as [->|[_ X]]; [destruct fuel; reflexivity|contradiction].
  - apply means_parse in Hw as [HN HP].
    assert (ST : forall r, match r with [] | TComma :: _ => True | _ => False end -> length (tokens w ++ r) <= fuel ->
      parse_terminated sy fuel (tokens w ++ r)
      = match r with [] => Some [m] | _ :: rest => option_map (cons m) (parse_terminated sy (pred fuel) rest) end).
    { intros r Hr HF'. destruct (tokens w ++ r) as [|t0 l0] eqn:E; [destruct (tokens w); [congruence|discriminate E]|].
      destruct fuel as [|fuel]; [cbn in HF'; lia|]. cbn [parse_terminated]. rewrite <- E, HP by exact Hr.
      destruct r as [|[]]; try contradiction; reflexivity. }
    destruct ws as [|w' ws].
    + inversion H; subst. cbn [separated]. cbn [separated] in HF. destruct HL as [->|[-> _]].
      * rewrite ST; auto.
      * rewrite ST; auto. destruct (pred fuel); reflexivity.
    + change (separated (w :: w' :: ws)) with (tokens w ++ TComma :: separated (w' :: ws)) in *.
      rewrite <- app_assoc in *. cbn [app] in *. rewrite ST; auto. rewrite IH; [reflexivity| |].
      * destruct HL as [->|[-> _]]; [now left|right; split; [reflexivity|discriminate]].
      * rewrite app_length in HF. cbn [length] in HF. destruct (tokens w); [congruence|]. cbn [length] in HF. lia.
Qed.

Theorem C45_parse : forall sy path ws ms last, Forall2 (means sy) ws ms -> last = [] \/ last = [TComma] /\ ws <> [] ->
  parse_args sy {| at_path := path; at_args := ArgsList (separated ws ++ last) |} = Some ms.
Proof. intros. unfold parse_args. cbn [at_args]. now apply parse_separated. Qed.
Print Assumptions C45_parse.

(** The other way round: what the arguments of an attribute have to be.  One item is a path alone, a path with a list, or a path
    with a value, and a comma or nothing follows. *)
Inductive item (sy : syn) (ts : list tok) : Meta -> list tok -> Prop :=
  | it_word : forall p rest, parse_path sy ts = Some (p, rest) -> item sy ts {| mt_path := p; mt_kind := MkPath |} rest
  | it_list : forall p rest, parse_path sy ts = Some (p, TParen :: rest) -> item sy ts {| mt_path := p; mt_kind := MkList |} rest
  | it_value : forall p es e rest, parse_path sy ts = Some (p, TEq :: es) -> parse_expr sy es = Some (e, rest) ->
      item sy ts {| mt_path := p; mt_kind := MkNameValue e |} rest.

Inductive arguments (sy : syn) : list tok -> list Meta -> Prop :=
  | ar_none : arguments sy [] []
  | ar_last : forall ts m, item sy ts m [] -> arguments sy ts [m]
  | ar_more : forall ts m rest ms, item sy ts m (TComma :: rest) -> arguments sy rest ms -> arguments sy ts (m :: ms).

(** syn's parsers of paths and expressions take something off the input. *)
Definition consumes (sy : syn) : Prop :=
  (forall ts p rest, parse_path sy ts = Some (p, rest) -> length rest < length ts)
  /\ (forall ts e rest, parse_expr sy ts = Some (e, rest) -> length rest < length ts).

Lemma item_parse : forall sy ts m rest, match rest with [] | TComma :: _ => True | _ => False end ->
  (Meta_parse sy ts = Some (m, rest) <-> item sy ts m rest).
Proof.
  intros sy ts m rest HR. unfold Meta_parse. split.
  - destruct (parse_path sy ts) as [[p r]|] eqn:E; [|discriminate]. destruct r as [|[] r]; intros H;
      try (injection H as <- <-; now constructor).
    destruct (parse_expr sy r) as [[e r']|] eqn:EE; [|discriminate]. injection H as <- <-. now apply (it_value sy ts p r).
  - intros H. destruct H as [p rest E|p rest E|p es e rest E EE]; rewrite E; [|reflexivity|now rewrite EE].
    destruct rest as [|[]]; try contradiction; reflexivity.
Qed.

Lemma parse_arguments : forall sy, consumes sy -> forall fuel ts ms, length ts <= fuel ->
  (parse_terminated sy fuel ts = Some ms <-> arguments sy ts ms).
Proof.
  intros sy [HP HE].
  assert (HM : forall ts m rest, Meta_parse sy ts = Some (m, rest) -> length rest < length ts).
  { intros ts m rest H. unfold Meta_parse in H. destruct (parse_path sy ts) as [[p r]|] eqn:E; [|discriminate]. apply HP in E.
    destruct r as [|[] r]; try (injection H as <- <-; cbn [length] in *; lia).
    destruct (parse_expr sy r) as [[e r']|] eqn:EE; [|discriminate]. apply HE in EE. injection H as <- <-. cbn [length] in *. lia. }
  induction fuel as [|fuel IH]; intros ts ms HF.
  - destruct ts; [|cbn in HF; lia]. cbn [parse_terminated]. split; [intros H; injection H as <-; constructor|].
    intros H. inversion H as [|ts' m HI|ts' m rest ms' HI _]; subst; [reflexivity| |]; apply item_parse in HI; try exact I; apply HM in HI; cbn in HI; lia.
  - destruct ts as [|t ts].
    + cbn [parse_terminated]. split; [intros H; injection H as <-; constructor|].
      intros H. inversion H as [|ts' m HI|ts' m rest ms' HI _]; subst; [reflexivity| |]; apply item_parse in HI; try exact I; apply HM in HI; cbn in HI; lia.
    + cbn [parse_terminated]. split.
      * destruct (Meta_parse sy (t :: ts)) as [[m rest]|] eqn:E; [|discriminate]. pose proof (HM _ _ _ E) as L.
        destruct rest as [|[] rest]; try discriminate.
        -- intros H. injection H as <-. apply ar_last. now apply item_parse.
        -- destruct (parse_terminated sy fuel rest) as [ms'|] eqn:ET; [|discriminate]. intros H. injection H as <-.
           apply (ar_more sy _ m rest); [now apply item_parse|]. apply IH; [cbn [length] in *; lia|exact ET].
      * intros H. inversion H as [|ts' m HI|ts' m rest ms' HI HA]; subst; apply item_parse in HI; try exact I; rewrite HI; [reflexivity|].
        pose proof (HM _ _ _ HI) as L. rewrite (proj2 (IH rest ms' ltac:(cbn [length] in *; lia)) HA). reflexivity.
Qed.

(** These are read, and nothing else: anything left over, or a comma too many, makes the whole attribute an error. *)
Theorem C45_parse_exact : forall sy path ts, consumes sy -> let a := {| at_path := path; at_args := ArgsList ts |} in
  for_oauth1 a = true ->
  (forall ms, items sy [a] = map inl ms <-> arguments sy ts ms)
  /\ (items sy [a] = [inr SynError] <-> forall ms, ~ arguments sy ts ms).
Proof.
  intros sy path ts HC a Ha. pose proof (fun ms => parse_arguments sy HC (length ts) ts ms (le_n _)) as X.
  assert (E : items sy [a] = match parse_terminated sy (length ts) ts with Some ms => map inl ms | None => [inr SynError] end).
  { unfold items. cbn [flat_map]. rewrite Ha. unfold a, parse_args. cbn [at_args]. now rewrite app_nil_r. }
  rewrite E. destruct (parse_terminated sy (length ts) ts) as [ms0|] eqn:EP.
  - split.
    + intros ms. rewrite <- X. split; [|now intros H; injection H as ->]. intros H. f_equal. revert ms H. clear.
      induction ms0 as [|m l IH]; intros [|m' l'] H; try discriminate; [reflexivity|]. cbn [map] in H. injection H as -> H. f_equal. auto.
    + split; [|intros H; now destruct (H ms0); apply X]. destruct ms0; discriminate.
  - split.
    + intros ms. rewrite <- X. split; [|discriminate]. destruct ms; discriminate.
    + split; [|reflexivity]. intros _ ms H. apply X in H. discriminate.
Qed.
Print Assumptions C45_parse_exact.

Example C45_parse_example :
  let w := TTok (lit "encoded") in
  consumes toy /\ items toy [oauth1_attr [w; TComma; w; TComma]] = map inl (map (fun p => {| mt_path := p; mt_kind := MkPath |})
    [PIdent {| id_raw := false; id_text := lit "encoded" |}; PIdent {| id_raw := false; id_text := lit "encoded" |}])
  /\ items toy [oauth1_attr [w; w]] = [inr SynError] /\ items toy [oauth1_attr [w; TComma; TComma]] = [inr SynError]
  /\ items toy [oauth1_attr [TComma]] = [inr SynError] /\ items toy [oauth1_attr [w; TParen; w]] = [inr SynError].
Proof.
  split; [|repeat split].
  split; intros ts x rest H; destruct ts as [|[] ts]; try discriminate H; cbn in H; injection H as _ <-; cbn [length]; lia.
Qed.

(** [#[oauth1]] and [#[oauth1 = ..]] are errors. *)
Theorem C45_no_arguments : forall sy a, for_oauth1 a = true -> at_args a = ArgsNone \/ at_args a = ArgsEq ->
  items sy [a] = [inr SynError].
Proof. intros sy a Ha H. unfold items. cbn [flat_map]. rewrite Ha. unfold parse_args. destruct H as [-> | ->]; reflexivity. Qed.
Print Assumptions C45_no_arguments.

(** ** C52 Code generated for an accepted struct compiles *)

(** A field [r#type] (here even renamed) is accessed as [self.type]. *)
Definition raw_field : syn_field := {|
  sf_attrs := [eq_attr (lit "rename") (lit """kind")]; sf_ident := {| id_raw := true; id_text := lit "type" |}; sf_ty := TyOther |}.

Theorem C52_refuted :
  ~ (forall V (pg : program V) self sy dbg found attrs fs krate body callss,
     expand sy dbg found (decl attrs fs) = Ok (Impl krate body) ->
     Forall2 (emits pg self sy) fs callss ->
     forall (S : Serializer) (s : S), exec_body pg self body S s <> None).
Proof.
  intros H. destruct (expand toy false (CrateName (lit "oauth1_request")) (decl [] [raw_field])) as [[| |k body]|] eqn:E;
    try (vm_compute in E; discriminate E).
  apply (H bytes unit_program (fun _ => Some (lit "v")) toy false (CrateName (lit "oauth1_request")) [] [raw_field] k body
    [[CParam (lit "kind") (dstr (lit "v"))]] E) with (S := KeyS) (s := []).
  - constructor; [|constructor]. change (CParam (lit "kind") (dstr (lit "v"))) with
      (if word (lit "encoded") (metas toy (sf_attrs raw_field)) then CParamEnc (param_name toy raw_field) (dstr (lit "v"))
       else CParam (param_name toy raw_field) (dstr (lit "v"))).
    eapply em_param; [reflexivity| |reflexivity|reflexivity]. apply co_plain; [|reflexivity].
    intros [X|[_ X]]; [discriminate X|inversion X].
  - vm_compute in E. inversion E. reflexivity.
Qed.
Print Assumptions C52_refuted.

Theorem C52_partial : forall {V} (pg : program V) self sy dbg found attrs fs krate body,
  expand sy dbg found (decl attrs fs) = Ok (Impl krate body) ->
  (forall f, In f fs -> well_typed pg self sy f) -> no_reserved sy fs ->
  forall (S : Serializer) (s : S), exec_body pg self body S s <> None.
Proof.
  intros V pg self sy dbg found attrs fs krate body HE HW HK S s.
  assert (X : exists callss, Forall2 (emits pg self sy) fs callss).
  { clear - HW. induction fs as [|f fs IH]; [exists []; constructor|]. destruct IH as [c Hc]; [intros g Hg; apply HW; now right|].
    destruct (C41_defined pg self sy f (HW f (or_introl eq_refl))) as [cs Hcs]. exists (cs :: c). now constructor. }
  destruct X as [callss HF]. destruct (derived_calls _ _ _ _ _ _ _ _ _ _ HE HF HK) as [cs [H1 _]]. rewrite H1. discriminate.
Qed.
Print Assumptions C52_partial.

(** ** C53 A derived request sends each parameter name once *)

Lemma param_keys_of : forall {V} (pg : program V) self sy fs callss, Forall2 (emits pg self sy) fs callss ->
  forall k, In k (map call_key (concat callss)) -> In k (map (param_name sy) (filter (fun f => negb (skipped sy f)) fs)).
Proof.
  intros V pg self sy fs callss H. induction H as [|f cs fs callss Hf H IH]; intros k Hk; [destruct Hk|].
  cbn [concat] in Hk. rewrite map_app, in_app_iff in Hk. cbn [filter]. destruct Hk as [Hk|Hk].
  - assert (skipped sy f = false) by (inversion Hf; subst; auto; destruct Hk). rewrite H0. cbn [negb map]. left.
    apply emits_facts in Hf as [_ [_ [HK _]]]. apply in_map_iff in Hk as [c [<- Ic]]. rewrite Forall_forall in HK. symmetry. auto.
  - destruct (negb (skipped sy f)); [right|]; auto.
Qed.

Theorem C53_once_partial : forall {V} (pg : program V) self sy dbg found attrs fs krate body callss,
  expand sy dbg found (decl attrs fs) = Ok (Impl krate body) ->
  Forall2 (emits pg self sy) fs callss -> no_reserved sy fs ->
  (forall f, In f fs -> skipped sy f = false -> ~ In (param_name sy f) (map proto_key all_protos)) ->
  exists cs, body_calls pg self body cs /\ NoDup (map call_key cs).
Proof.
  intros V pg self sy dbg found attrs fs krate body callss HE HF HK HO.
  destruct (derived_calls _ _ _ _ _ _ _ _ _ _ HE HF HK) as [cs [H1 [H2 [H3 [_ H5]]]]]. exists cs. split; [exact H1|].
  assert (P : Permutation (map call_key cs) (map call_key (filter is_param cs) ++ map proto_key (call_protos cs))).
  { clear. induction cs as [|c cs IH]; [constructor|]. destruct c as [k v|k v|p]; cbn [map filter is_param call_protos flat_map app call_key].
    - now constructor.
    - now constructor.
    - change (flat_map _ cs) with (call_protos cs). rewrite IH. apply Permutation_middle. }
  apply (Permutation_NoDup (Permutation_sym P)). rewrite H3.
  assert (ND : forall a b : list bytes, NoDup a -> NoDup b -> (forall x, In x a -> ~ In x b) -> NoDup (a ++ b)).
  { induction a as [|x a IH]; intros b Ha Hb Hd; [exact Hb|]. inversion Ha; subst. cbn [app]. constructor.
    - rewrite in_app_iff. intros [I|I]; [contradiction|]. now apply (Hd x (or_introl eq_refl)).
    - apply IH; auto. intros y Hy. apply Hd. now right. }
  apply ND.
  - now apply strictly_nodup.
  - repeat constructor; cbn; intuition discriminate.
  - intros k Hk. assert (Hk' : In k (map call_key (concat callss))) by (eapply Permutation_in; [apply Permutation_map; exact H2|exact Hk]).
    apply (param_keys_of _ _ _ _ _ HF) in Hk'. apply in_map_iff in Hk' as [f [<- If]]. apply filter_In in If as [If Hs].
    apply HO; auto. now apply negb_true_iff in Hs.
Qed.
Print Assumptions C53_once_partial.

(** A field named [oauth_token] is accepted and sent next to the protocol parameter. *)
Theorem C53_refuted :
  ~ (forall V (pg : program V) self sy dbg found attrs fs krate body callss,
     expand sy dbg found (decl attrs fs) = Ok (Impl krate body) ->
     Forall2 (emits pg self sy) fs callss -> no_reserved sy fs ->
     forall cs, body_calls pg self body cs -> NoDup (map call_key cs)).
Proof.
  intros H. pose (f := field (lit "oauth_token") [] TyOther).
  destruct (expand toy false (CrateName (lit "oauth1_request")) (decl [] [f])) as [[| |k body]|] eqn:E;
    try (vm_compute in E; discriminate E).
  assert (HF : Forall2 (emits unit_program (fun _ => Some (lit "v")) toy) [f] [[CParam (lit "oauth_token") (dstr (lit "v"))]]).
  { constructor; [|constructor]. change (CParam (lit "oauth_token") (dstr (lit "v"))) with
      (if word (lit "encoded") (metas toy (sf_attrs f)) then CParamEnc (param_name toy f) (dstr (lit "v")) else CParam (param_name toy f) (dstr (lit "v"))).
    eapply em_param; [reflexivity| |reflexivity|reflexivity]. apply co_plain; [|reflexivity].
    intros [X|[_ X]]; [discriminate X|inversion X]. }
  assert (HK : no_reserved toy [f]) by (intros g [<-|[]] _; reflexivity).
  destruct (derived_calls _ _ _ _ _ _ _ _ _ _ E HF HK) as [cs [H1 [H2 [H3 _]]]].
  pose proof (H _ _ _ _ _ _ _ _ _ _ _ E HF HK cs H1) as ND. cbn [concat app] in H2.
  assert (IP : In (CParam (lit "oauth_token") (dstr (lit "v"))) (filter is_param cs)).
  { eapply Permutation_in; [apply Permutation_sym; exact H2|now left]. }
  apply filter_In in IP as [IP _].
  assert (IT : In (CProto PToken) cs).
  { assert (In PToken (call_protos cs)) by (rewrite H3; cbn; tauto). unfold call_protos in H0. apply in_flat_map in H0 as [c [Ic Hc]].
    destruct c as [| |p]; [destruct Hc|destruct Hc|]. destruct Hc as [->|[]]. exact Ic. }
  apply in_split in IP as [a [b ->]]. rewrite in_app_iff in IT. rewrite map_app in ND. cbn [map call_key] in ND.
  apply NoDup_remove_2 in ND. apply ND. rewrite <- map_app. change (lit "oauth_token") with (call_key (CProto PToken)). apply in_map.
  apply in_app_iff. destruct IT as [IT|[IT|IT]]; [now left|discriminate IT|now right].
Qed.
Print Assumptions C53_refuted.

(** ** C54 Derived requests can be verified by a conforming server *)

Lemma form_fields_filter : forall cs, form_fields cs = form_fields (filter is_param cs).
Proof.
  induction cs as [|c cs IH]; [reflexivity|]. destruct c as [k v|k v|p]; cbn [filter is_param]; unfold form_fields in *; cbn [flat_map]; rewrite IH; reflexivity.
Qed.

Lemma form_fields_keys : forall cs, map fst (form_fields cs) = map call_key (filter is_param cs).
Proof.
  induction cs as [|c cs IH]; [reflexivity|]. destruct c as [k v|k v|p]; cbn [filter is_param map call_key]; unfold form_fields in *; cbn [flat_map app map fst]; rewrite IH; reflexivity.
Qed.

Lemma strict_rfc : forall l, strictly_ascending (map fst l) -> rfc_sorted l.
Proof.
  unfold strictly_ascending, rfc_sorted. induction l as [|[k v] l IH]; intros H; [constructor|]. cbn [map fst] in H.
  inversion H as [|? ? A1 A2]; subst. cbn [map]. constructor; [now apply IH|]. rewrite Forall_forall in *. intros p Hp.
  apply in_map_iff in Hp as [q [<- Hq]]. unfold pair_le, pair_leb. cbn [enc_value fst snd].
  pose proof (A2 _ (in_map fst _ _ Hq)) as L. apply bltb_lt in L. now rewrite L.
Qed.

Lemma enc_perm : forall (a : list pair) b, Permutation (map enc_value b) a -> exists b', a = map enc_value b' /\ Permutation b b'.
Proof.
  intros a b P. apply Permutation_sym in P. apply Permutation_map_inv in P as [b' [E P]]. eauto.
Qed.

Theorem C54_honest : forall {V} (pg : program V) self sy dbg found attrs fs krate body callss l0,
  expand sy dbg found (decl attrs fs) = Ok (Impl krate body) ->
  Forall2 (emits pg self sy) fs callss -> no_reserved sy fs ->
  Forall displays_ok (concat callss) -> carries (concat callss) l0 -> safe_keys l0 -> no_oauth_keys l0 ->
  exists (r : Request) l,
    (forall (S : Serializer) (s : S), exec_body pg self body S s = Some (r S s))
    /\ honest r l /\ Permutation l l0.
Proof.
  intros V pg self sy dbg found attrs fs krate body callss l0 HE HF HK HD HC HS HO.
  destruct (derived_calls _ _ _ _ _ _ _ _ _ _ HE HF HK) as [cs [H1 [H2 [H3 [H4 H5]]]]].
  assert (PF : Permutation (form_fields (concat callss)) (form_fields cs)).
  { rewrite (form_fields_filter cs). unfold form_fields. apply flat_map_perm. now apply Permutation_sym. }
  unfold carries in HC. rewrite HC in PF. apply enc_perm in PF as [l [EL PL]].
  exists (fun S s => s <- run_calls cs s ;; sr_end s), l. split; [exact H1|]. split; [|now apply Permutation_sym].
  exists cs. split; [intros S s; reflexivity|]. split; [exact H3|]. split; [exact H4|]. split; [|split; [exact EL|split; [|split]]].
  - rewrite Forall_forall in *. intros c Hc. destruct (is_param c) eqn:EP; [|destruct c; try discriminate EP; exact I].
    apply HD. eapply Permutation_in; [exact H2|]. apply filter_In. auto.
  - unfold safe_keys in *. apply (Permutation_Forall PL HS).
  - unfold no_oauth_keys in *. apply (Permutation_Forall PL HO).
  - apply strict_rfc. rewrite <- (form_fields_keys cs) in H5. rewrite EL, map_map in H5. cbn [enc_value fst] in H5. exact H5.
Qed.
Print Assumptions C54_honest.

(** Hence, signed with HMAC-SHA1 and sent as a form, it is accepted, and the server sees the
    parameters of the struct. *)
Theorem C54_accepted : forall {V} (pg : program V) self sy dbg found attrs fs krate body callss l0 c e b method uri d,
  expand sy dbg found (decl attrs fs) = Ok (Impl krate body) ->
  Forall2 (emits pg self sy) fs callss -> no_reserved sy fs ->
  Forall displays_ok (concat callss) -> carries (concat callss) l0 -> safe_keys l0 -> no_oauth_keys l0 ->
  bd_signature_method b = HMAC_SHA1 -> timestamp_available c (hmac_conf e b) ->
  normal_method method -> normal_uri uri -> dtext d = uri -> dok d ->
  exists (r : Request) l header form,
    (forall (S : Serializer) (s : S), exec_body pg self body S s = Some (r S s))
    /\ Builder_authorize c e b method d r = Ok header /\ to_form r = Ok form
    /\ server_verify (client_secret b) (token_secret b) method uri header form
       = Some (protocol_pairs (hmac_conf e b) ++ [(lit "oauth_signature", rfc_signature e b method uri l)], l)
    /\ Permutation l l0.
Proof.
  intros V pg self sy dbg found attrs fs krate body callss l0 c e b method uri d HE HF HK HD HC HS HO HB HT HM HU ED OD.
  destruct (C54_honest _ _ _ _ _ _ _ _ _ _ _ HE HF HK HD HC HS HO) as [r [l [H1 [H2 H3]]]].
  destruct (C18_form c e b r l method uri d HB HT H2 HM HU ED OD) as [h [f [A1 [A2 A3]]]].
  exists r, l, h, f. auto.
Qed.
Print Assumptions C54_accepted.

(** ** A struct that meets the hypotheses *)

(** [#[oauth1(crate = path)] struct S { status: String, #[serde] #[oauth1(skip)] s: .., #[oauth1(encoded, rename = "z")] q: Option<..>,
    #[oauth1(fmt = shout, skip_if = is_empty,)] n: .. , none : Option<..> }] *)
Definition example_fields : list syn_field :=
  [field (lit "status") [] (TyPath false [({| id_raw := false; id_text := lit "String" |}, ArgNone)]);
   field (lit "s") [{| at_path := PIdent {| id_raw := false; id_text := lit "serde" |}; at_args := ArgsNone |};
                    oauth1_attr [TTok (lit "skip")]] TyOther;
   field (lit "q") [oauth1_attr [TTok (lit "encoded"); TComma; TTok (lit "rename"); TEq; TTok (lit """z")]] (TyGroup option_ty);
   field (lit "n") [oauth1_attr [TTok (lit "fmt"); TEq; TTok (lit "shout"); TComma; TTok (lit "skip_if"); TEq; TTok (lit "is_empty"); TComma]] TyOther;
   field (lit "none") [] option_ty].

Definition example_program : program (option bytes * bytes) := {|
  pg_display := fun v => dstr (snd v);
  pg_fmt := fun p => if bseqb p (lit "shout") then Some (fun v => dstr (snd v ++ lit "!")) else None;
  pg_skip_if := fun p => if bseqb p (lit "is_empty") then Some (fun v => Ok (bseqb (snd v) [])) else None;
  pg_option := fun v => Some match fst v with Some x => Some (None, x) | None => None end |}.

Definition example_value : struct_value (option bytes * bytes) := fun n =>
  if bseqb n (lit "status") then Some (None, lit "hello world")
  else if bseqb n (lit "s") then Some (None, lit "secret")
  else if bseqb n (lit "q") then Some (Some (lit "a%20b"), [])
  else if bseqb n (lit "n") then Some (None, lit "42")
  else if bseqb n (lit "none") then Some (None, [])
  else None.

Example example_accepted :
  match expand toy true CrateError (decl [eq_attr (lit "crate") (lit "path")] example_fields) with
  | Ok (Impl (UsePath p) body) => bseqb p (lit "path")
  | _ => false
  end = true.
Proof. vm_compute. reflexivity. Qed.

Example C52_example : Forall (well_typed example_program example_value toy) example_fields.
Proof.
  repeat (apply Forall_cons); try apply Forall_nil; constructor;
    first [ intros p H; vm_compute in H; discriminate H
          | intros p H; vm_compute in H; inversion H; subst; vm_compute; (discriminate || (eexists; split; [reflexivity|]; intros; eexists; reflexivity))
          | eexists; split; [vm_compute; reflexivity|intros _; vm_compute; discriminate] ].
Qed.

(** What it sends as a form. *)
Example example_form :
  match expand toy true CrateError (decl [eq_attr (lit "crate") (lit "path")] example_fields) with
  | Ok (Impl _ body) =>
      match to_form (fun S s => match exec_body example_program example_value body S s with Some r => r | None => Panic PFuel end) with
      | Ok out => bseqb out (lit "n=42%21&status=hello%20world&z=a%20b")
      | _ => false
      end
  | _ => false
  end = true.
Proof. vm_compute. reflexivity. Qed.

(** Several mistakes at once are all reported: unknown, duplicate, ill-typed, unparsable, not
    URI-safe, and two equal names. *)
Example C45_example :
  match expand toy true CrateError (decl []
    [field (lit "a") [oauth1_attr [TTok (lit "skp"); TComma; TTok (lit "skip"); TComma; TTok (lit "skip")]] TyOther;
     field (lit "b") [eq_attr (lit "rename") (lit """a"); eq_attr (lit "option") (lit "maybe"); oauth1_attr [TEq];
                      eq_attr (lit "rename") (lit """a b")] TyOther]) with
  | Ok (Fallback [UnknownAttribute t; DuplicateAttribute s; ExpectedBool; SynError; NotUriSafe; DuplicateParameter n; CrateNotFound] _) =>
      bseqb t (lit "skp") && bseqb s (lit "skip") && bseqb n (lit "a")
  | _ => false
  end = true.
Proof. vm_compute. reflexivity. Qed.

(** The hypotheses of the theorems for C41, C42, C44, C52, C53 and C54 all hold of this struct and this value:
    three of the five fields send something. *)
Definition example_calls : list (list call) :=
  [[CParam (lit "status") (dstr (lit "hello world"))]; [];
   [CParamEnc (lit "z") (dstr (lit "a%20b"))]; [CParam (lit "n") (dstr (lit "42!"))]; []].
Definition example_pairs : list pair :=
  [(lit "status", lit "hello world"); (lit "z", lit "a b"); (lit "n", lit "42!")].

Example C41_example : Forall2 (emits example_program example_value toy) example_fields example_calls.
Proof.
  assert (P : forall f v d, skipped toy f = false -> contributes example_program example_value toy f (Some v) ->
    skip_if_says example_program toy f v false -> formatted example_program toy f v d ->
    forall c, c = (if word (lit "encoded") (metas toy (sf_attrs f)) then CParamEnc (param_name toy f) d else CParam (param_name toy f) d) ->
    emits example_program example_value toy f [c]).
  { intros f v d H1 H2 H3 H4 c ->. now apply (em_param _ _ _ _ v d). }
  constructor; [|constructor; [|constructor; [|constructor; [|constructor; [|constructor]]]]].
  - apply (P _ (None, lit "hello world") (dstr (lit "hello world"))); try reflexivity. apply co_plain; [|reflexivity].
    rewrite treated_spec. vm_compute. discriminate.
  - apply em_skip. reflexivity.
  - apply (P _ (None, lit "a%20b") (dstr (lit "a%20b"))); try reflexivity.
    apply (co_some _ _ _ _ (Some (lit "a%20b"), [])); [|reflexivity|reflexivity]. apply treated_spec. reflexivity.
  - apply (P _ (None, lit "42") (dstr (lit "42!"))); try reflexivity.
    + apply co_plain; [|reflexivity]. rewrite treated_spec. vm_compute. discriminate.
    + vm_compute. eauto.
    + vm_compute. eauto.
  - apply em_none; [reflexivity|]. apply (co_none _ _ _ _ (None, [])); [|reflexivity|reflexivity]. apply treated_spec. reflexivity.
Qed.

Example C54_example :
  (exists krate body, expand toy true CrateError (decl [eq_attr (lit "crate") (lit "path")] example_fields) = Ok (Impl krate body))
  /\ no_reserved toy example_fields
  /\ (forall f, In f example_fields -> skipped toy f = false -> ~ In (param_name toy f) (map proto_key all_protos))
  /\ Forall displays_ok (concat example_calls) /\ carries (concat example_calls) example_pairs
  /\ safe_keys example_pairs /\ no_oauth_keys example_pairs.
Proof.
  split; [do 2 eexists; vm_compute; reflexivity|].
  split; [intros f Hf _; repeat (destruct Hf as [<-|Hf]; [reflexivity|]); destruct Hf|].
  split; [intros f Hf _ I; repeat (destruct Hf as [<-|Hf]; [vm_compute in I; intuition discriminate|]); destruct Hf|].
  split; [repeat constructor|]. split; [vm_compute; reflexivity|].
  split.
  - unfold safe_keys, example_pairs. repeat (apply Forall_cons; [intros x Hx; repeat (destruct Hx as [<-|Hx]; [reflexivity|]); destruct Hx|]). apply Forall_nil.
  - unfold no_oauth_keys, example_pairs. repeat (apply Forall_cons; [vm_compute; intuition discriminate|]). apply Forall_nil.
Qed.

(** Swapping the fields gives the same code (C42). *)
Example C42_example : Permutation example_fields (rev example_fields)
  /\ expand toy true CrateError (decl [eq_attr (lit "crate") (lit "path")] (rev example_fields))
     = expand toy true CrateError (decl [eq_attr (lit "crate") (lit "path")] example_fields).
Proof. split; [apply Permutation_rev|vm_compute; reflexivity]. Qed.

(** The attributes are in order and the names differ (C43, C45), but not if [q] is renamed to "n". *)
Example C43_example :
  attrs_ok toy CrateError [eq_attr (lit "crate") (lit "path")] example_fields
  /\ NoDup (map (param_name toy) example_fields) /\ ~ In [] (map (param_name toy) example_fields)
  /\ expand toy true (CrateName (lit "oauth1_request")) (decl [] [field (lit "n") [] TyOther; field (lit "q") [eq_attr (lit "rename") (lit """n")] TyOther])
     = Ok (Fallback [DuplicateParameter (lit "n")] (ExternCrate (lit "oauth1_request"))).
Proof.
  split; [apply attrs_ok_errors; vm_compute; auto|].
  split; [vm_compute; repeat constructor; cbn; intuition discriminate|].
  split; [vm_compute; intuition discriminate|vm_compute; reflexivity].
Qed.
