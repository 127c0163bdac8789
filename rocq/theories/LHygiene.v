(** Lemmas about name resolution in the generated code of the derive macro. *)
From Coq Require Import String.
From Coq Require Import Lia Arith Permutation Bool.
From Verif Require Import Bytes Spec MFmt MPercent MSerializer MRequest MDerive MHygiene SpecCalls SpecDerive LBytes LTrace LDerive.

Definition cat_res (o : option (list stmt)) (l : list stmt) : option (list stmt) := match o with Some r => Some (l ++ r) | None => None end.

(** Is the path free of names that the generated code defines? *)
Definition path_ok (sc : scope) (T : list bytes) (p : bytes) : bool :=
  negb (existsb (fun t => mem t T) (pn_types (sc_path sc p))).

Definition opath_ok (sc : scope) (T : list bytes) (o : option bytes) : bool := match o with Some p => path_ok sc T p | None => true end.

Definition serialize_name (f : Field) : bytes :=
  if fm_encoded (fd_meta f) then lit "serialize_parameter_encoded" else lit "serialize_parameter".

(** No trait in scope has a method of this name that takes what it is called on by value or, respectively, not by mutable reference. *)
Definition free_value (sc : scope) (m : bytes) : bool :=
  negb (existsb (fun t => tm_fresh t && bseqb (tm_name t) m && kind_eqb (tm_self t) ByValue) (sc_methods sc)).
Definition free_shared (sc : scope) (m : bytes) : bool :=
  negb (existsb (fun t => tm_serializers t && bseqb (tm_name t) m && negb (kind_eqb (tm_self t) ByMut)) (sc_methods sc)).

Lemma existsb_others : forall sc has m k, existsb (kind_eqb k) (others sc has m)
  = existsb (fun t => has t && bseqb (tm_name t) m && kind_eqb (tm_self t) k) (sc_methods sc).
Proof.
  intros sc has m k. unfold others. induction (sc_methods sc) as [|t l IH]; [reflexivity|]. cbn [filter existsb].
  assert (E : kind_eqb k (tm_self t) = kind_eqb (tm_self t) k) by (destruct k, (tm_self t); reflexivity).
  destruct (has t && bseqb (tm_name t) m); cbn [andb map existsb orb]; rewrite IH, ?E; reflexivity.
Qed.

Lemma finds_ref : forall sc m, finds (Some ByRef) (others sc tm_fresh m) = free_value sc m.
Proof.
  intros sc m. unfold finds, free_value. cbn [probe kind_eqb]. rewrite existsb_others. now destruct (existsb _ _).
Qed.

Lemma finds_mut : forall sc m, finds (Some ByMut) (others sc tm_serializers m) = free_shared sc m.
Proof.
  intros sc m. unfold finds, free_shared. cbn [probe kind_eqb]. rewrite !existsb_others. induction (sc_methods sc) as [|t l IH]; [reflexivity|].
  cbn [existsb]. destruct (tm_serializers t && bseqb (tm_name t) m); cbn [andb orb]; [|exact IH].
  destruct (tm_self t); cbn [kind_eqb negb orb]; try reflexivity; [|exact IH]. now destruct (existsb _ l).
Qed.

Lemma calls_end : forall sc, calls_serializer sc (lit "end") = true.
Proof. reflexivity. Qed.

Lemma calls_proto : forall sc p, calls_serializer sc (lit "serialize_" ++ proto_key p) = free_shared sc (lit "serialize_" ++ proto_key p).
Proof. intros sc p. unfold calls_serializer. rewrite <- finds_mut. destruct p; reflexivity. Qed.

Lemma calls_param : forall sc f, calls_serializer sc (serialize_name f) = free_shared sc (serialize_name f).
Proof. intros sc f. unfold calls_serializer, serialize_name. rewrite <- finds_mut. destruct (fm_encoded _); reflexivity. Qed.

Lemma calls_fmt : forall sc hs, calls_helper sc true hs (lit "fmt") = free_value sc (lit "fmt").
Proof. intros. unfold calls_helper. rewrite <- finds_ref. reflexivity. Qed.
Lemma calls_fmt_impls : forall sc hs, calls_helper sc true hs (lit "fmt_impls_fn") = free_value sc (lit "fmt_impls_fn").
Proof. intros. unfold calls_helper. rewrite <- finds_ref. reflexivity. Qed.
Lemma calls_skip_if : forall sc hf, calls_helper sc hf true (lit "skip_if_impls_fn") = free_value sc (lit "skip_if_impls_fn").
Proof. intros. unfold calls_helper. rewrite <- finds_ref. now destruct hf. Qed.

Definition field_ok (sc : scope) (T : list bytes) (f : Field) : bool :=
  bindable sc (at_call (lit "tmp"))
  && (if ty_is_option f then bindable sc bind else true)
  && (match fm_fmt (fd_meta f) with Some _ => bindable sc (at_call (lit "fmt")) | None => true end)
  && opath_ok sc T (fm_fmt (fd_meta f)) && opath_ok sc T (fm_skip_if (fd_meta f))
  && free_shared sc (serialize_name f)
  && (match fm_fmt (fd_meta f) with Some _ => free_value sc (lit "fmt") && free_value sc (lit "fmt_impls_fn") | None => true end)
  && (match fm_skip_if (fd_meta f) with Some _ => free_value sc (lit "skip_if_impls_fn") | None => true end).

Definition ctx (T : list bytes) (locals : list (name * sym)) : context :=
  {| cx_locals := locals; cx_types := T; cx_values := [] |}.

Definition outer : list (name * sym) := [(this, YSelf); (ser, YSer)].

Lemma lookup_mixed : forall l x, Forall (fun p => nm_site (fst p) = MixedSite) l -> lookup l (at_call x) = None.
Proof.
  induction l as [|[m v] l IH]; intros x H; [reflexivity|]. inversion H; subst. cbn [lookup fst] in *. unfold name_eqb.
  rewrite H2. cbn [site_eqb at_call nm_site]. rewrite andb_false_r. now apply IH.
Qed.

Lemma resolve_spec : forall sc T l p, Forall (fun p => nm_site (fst p) = MixedSite) l ->
  resolve_path sc (ctx T l) p = if path_ok sc T p then Some (YPath p) else None.
Proof.
  intros sc T l p H. unfold resolve_path, path_ok. cbn [ctx cx_locals cx_types cx_values]. destruct (pn_value (sc_path sc p)) as [x|].
  - rewrite lookup_mixed by exact H. cbn [some_p mem existsb orb]. now destruct (existsb _ _).
  - now destruct (existsb _ _).
Qed.

Lemma resolve_mixed : forall sc T l p, forallb (fun p => site_eqb (nm_site (fst p)) MixedSite) l = true ->
  resolve_path sc {| cx_locals := l; cx_types := T; cx_values := [] |} p
  = if path_ok sc T p then Some (YPath p) else None.
Proof.
  intros sc T l p H. apply resolve_spec. apply Forall_forall. intros x Hx. rewrite forallb_forall in H. specialize (H x Hx).
  destruct (nm_site (fst x)); [discriminate|reflexivity].
Qed.

Ltac go EK EB mb :=
  repeat first
    [ progress (cbn -[resolve_path path_ok Field_name calls_serializer calls_helper free_value free_shared]; unfold bindable)
    | rewrite calls_fmt | rewrite calls_fmt_impls | rewrite calls_skip_if
    | rewrite <- EK | rewrite <- EB
    | progress (unfold push; cbn [cx_locals cx_types cx_values])
    | rewrite resolve_mixed by reflexivity
    | match goal with
      | |- context [sc_value ?sc ?x] => destruct (sc_value sc x)
      | |- context [path_ok ?sc ?T ?x] => destruct (path_ok sc T x)
      | |- context [free_value ?sc ?x] => destruct (free_value sc x)
      end
    | reflexivity ];
  clear EB; try (destruct mb; first [reflexivity|
    match goal with kk : option (list stmt) |- _ => destruct kk end; reflexivity]).

Lemma field_spec : forall sc T f k locals,
  locals = outer /\ fm_fmt (fd_meta f) = None /\ fm_skip_if (fd_meta f) = None
  \/ (exists hf hs, locals = (helper, YHelper hf hs) :: outer
       /\ (fm_fmt (fd_meta f) <> None -> hf = true) /\ (fm_skip_if (fd_meta f) <> None -> hs = true)) ->
  elab sc (ctx T locals) (field_code f k)
  = if field_ok sc T f then cat_res (elab sc (ctx T locals) k) [field_stmt f] else None.
Proof.
  intros sc T f k locals H. unfold field_code, field_ok, field_stmt, opath_ok.
  remember (elab sc (ctx T locals) k) as kk eqn:EK.
  fold (serialize_name f). pose proof (calls_param sc f) as EM. rewrite <- EM.
  remember (calls_serializer sc (serialize_name f)) as mb eqn:EB. clear EM.
  remember (serialize_name f) as mm eqn:EMM. clear EMM.
  destruct H as [[-> [EF ES]]|(hf & hs & -> & Hf & Hs)]; [rewrite EF, ES|
    destruct (fm_fmt (fd_meta f)) as [fp|]; [assert (hf = true) by (apply Hf; discriminate); subst hf|];
    (destruct (fm_skip_if (fd_meta f)) as [sp|]; [assert (hs = true) by (apply Hs; discriminate); subst hs|])];
    destruct (ty_is_option f); unfold ctx in *; go EK EB mb.
Qed.

Definition proto_free (sc : scope) (p : proto) : bool := free_shared sc (lit "serialize_" ++ proto_key p).

Lemma oauth_code_spec : forall sc T locals ps k, lookup locals ser = Some YSer ->
  elab sc (ctx T locals) (oauth_code (map proto_stmt ps) k)
  = if forallb (proto_free sc) ps then cat_res (elab sc (ctx T locals) k) (map proto_stmt ps) else None.
Proof.
  intros sc T locals ps k HS. induction ps as [|p ps IH]; [cbn; now destruct (elab _ _ k)|].
  cbn [map forallb].
  change (oauth_code (proto_stmt p :: map proto_stmt ps) k) with (CExpr (GMethod0 ser (lit "serialize_" ++ proto_key p)) (oauth_code (map proto_stmt ps) k)).
  cbn [elab]. rewrite IH.
  assert (E : eval sc (ctx T locals) (GMethod0 ser (lit "serialize_" ++ proto_key p))
    = if proto_free sc p then Some (YOAuth (lit "serialize_" ++ proto_key p)) else None)
    by (unfold proto_free; rewrite <- calls_proto; cbn [eval ctx cx_locals]; now rewrite HS).
  rewrite E. destruct (proto_free sc p); [|reflexivity]. cbn [andb]. destruct (forallb _ ps); [|reflexivity].
  destruct (elab sc (ctx T locals) k); reflexivity.
Qed.

Fixpoint merge_code (ps : list proto) (fs : list Field) : code :=
  match fs with
  | [] => oauth_code (map proto_stmt ps) CDone
  | f :: fs' => oauth_code (map proto_stmt (take_lt (Field_name f) ps)) (field_code f (merge_code (drop_lt (Field_name f) ps) fs'))
  end.

Lemma code_loop_spec : forall dbg fs ps, suffix ps -> code_loop dbg fs (op_of ps) = Ok (merge_code ps (unskipped fs)).
Proof.
  intros dbg. induction fs as [|f fs IH]; intros ps HS.
  - cbn [code_loop]. rewrite body_rest_spec; [reflexivity|exact HS|apply suffix_length in HS; lia].
  - cbn [code_loop unskipped filter]. destruct (fm_skip (fd_meta f)); cbn [negb]; [now apply IH|].
    rewrite body_before_spec by (auto; apply suffix_length in HS; lia). cbn [rbind merge_code].
    rewrite IH by now apply suffix_drop. reflexivity.
Qed.

Definition has_fmt (fs : list Field) : bool := existsb (fun f => some_p (fm_fmt (fd_meta f))) fs.
Definition has_skip_if (fs : list Field) : bool := existsb (fun f => some_p (fm_skip_if (fd_meta f))) fs.

Lemma method_code_spec : forall dbg fs, method_code dbg fs
  = Ok (if has_fmt fs || has_skip_if fs then CLet helper (GHelper (has_fmt fs) (has_skip_if fs)) (merge_code all_protos (unskipped fs))
        else merge_code all_protos (unskipped fs)).
Proof.
  intros dbg fs. unfold method_code. change OAuthParameter_default with (op_of all_protos). rewrite code_loop_spec; [reflexivity|].
  exists []. reflexivity.
Qed.

Lemma merge_code_spec : forall sc T locals fs,
  (locals = outer /\ (forall f, In f fs -> fm_fmt (fd_meta f) = None /\ fm_skip_if (fd_meta f) = None)
   \/ (exists hf hs, locals = (helper, YHelper hf hs) :: outer /\ forall f, In f fs ->
        (fm_fmt (fd_meta f) <> None -> hf = true) /\ (fm_skip_if (fd_meta f) <> None -> hs = true))) ->
  forall ps,
  elab sc (ctx T locals) (merge_code ps fs)
    = if forallb (proto_free sc) ps && forallb (field_ok sc T) fs then Some (merge_stmts ps fs) else None.
Proof.
  intros sc T locals fs H.
  assert (LS : lookup locals ser = Some YSer) by (destruct H as [[-> _]|(hf & hs & -> & _)]; reflexivity).
  induction fs as [|f fs IH]; intros ps.
  - cbn [merge_code]. rewrite oauth_code_spec by exact LS. cbn [forallb]. rewrite andb_true_r. destruct (forallb _ ps); [|reflexivity].
    cbn. now rewrite app_nil_r.
  - cbn [merge_code]. rewrite oauth_code_spec by exact LS. rewrite field_spec.
    + rewrite IH. 2:{ destruct H as [[-> H]|(hf & hs & -> & H)]; [left|right; exists hf, hs]; (split; [reflexivity|]); intros g Hg; apply H; now right. }
      assert (EP : forallb (proto_free sc) ps = forallb (proto_free sc) (take_lt (Field_name f) ps) && forallb (proto_free sc) (drop_lt (Field_name f) ps))
        by now rewrite <- forallb_app, take_drop.
      rewrite EP. cbn [forallb]. destruct (forallb _ (take_lt _ _)); [|reflexivity]. cbn [andb].
      destruct (field_ok sc T f); [|now rewrite andb_false_r]. destruct (forallb _ (drop_lt _ _)); [|reflexivity]. cbn [andb].
      destruct (forallb _ fs); reflexivity.
    + destruct H as [[-> H]|(hf & hs & -> & H)]; [left|right; exists hf, hs]; (split; [reflexivity|]); apply H; now left.
Qed.

(** ** The implementation *)

Definition generated_types : list bytes := [lit "_S"; lit "_oauth1_request"].

Definition helper_ok (sc : scope) (hf hs : bool) : bool :=
  forallb (fun x => negb (sc_value sc x)) (helper_binds hf hs) && forallb (fun t => negb (user_type sc t)) (helper_types hf hs)
  && negb (sc_value sc (lit "helper")).

Definition all_ok (sc : scope) (fs : list Field) : bool :=
  negb (mem (lit "_oauth1_request") (sc_struct sc :: sc_params sc ++ sc_mentions sc)) && negb (mem (lit "_S") (sc_params sc))
  && negb (sc_value sc (lit "serializer"))
  && (if has_fmt fs || has_skip_if fs then helper_ok sc (has_fmt fs) (has_skip_if fs) else true)
  && (forallb (proto_free sc) all_protos && forallb (field_ok sc generated_types) (unskipped fs)).

Lemma unskipped_in : forall f fs, In f (unskipped fs) -> In f fs.
Proof. intros f fs H. now apply filter_In in H. Qed.

Lemma elab_impl_spec : forall sc dbg fs, exists c, method_code dbg fs = Ok c
  /\ elab_impl sc c = if all_ok sc fs then Some (merge_stmts all_protos (unskipped fs)) else None.
Proof.
  intros sc dbg fs. eexists. split; [apply method_code_spec|]. unfold elab_impl, all_ok.
  destruct (mem (lit "_oauth1_request") _); [reflexivity|]. destruct (mem (lit "_S") (sc_params sc)); [reflexivity|].
  change (bindable sc ser) with (negb (sc_value sc (lit "serializer"))).
  destruct (sc_value sc (lit "serializer")); [reflexivity|]. rewrite calls_end. cbn [negb andb].
  fold outer. fold generated_types. fold (ctx generated_types outer).
  destruct (has_fmt fs || has_skip_if fs) eqn:EH.
  - cbn [elab eval]. unfold helper_ok.
    change (forallb (fun x => bindable sc (at_call x)) (helper_binds (has_fmt fs) (has_skip_if fs)))
      with (forallb (fun x => negb (sc_value sc x)) (helper_binds (has_fmt fs) (has_skip_if fs))).
    change (bindable sc helper) with (negb (sc_value sc (lit "helper"))).
    destruct (forallb (fun x => negb (sc_value sc x)) _); [|reflexivity]. destruct (forallb (fun t => negb (user_type sc t)) _); [|reflexivity].
    cbn [andb]. destruct (negb (sc_value sc (lit "helper"))); [|reflexivity]. cbn [andb].
    change (push helper (YHelper (has_fmt fs) (has_skip_if fs)) (ctx generated_types outer))
      with (ctx generated_types ((helper, YHelper (has_fmt fs) (has_skip_if fs)) :: outer)).
    apply merge_code_spec. right. eexists; eexists. split; [reflexivity|]. intros f Hf. apply unskipped_in in Hf.
    split; intros H; apply existsb_exists; exists f; (split; [exact Hf|]).
    + now destruct (fm_fmt (fd_meta f)).
    + now destruct (fm_skip_if (fd_meta f)).
  - apply merge_code_spec. left. split; [reflexivity|]. intros f Hf. apply unskipped_in in Hf. apply orb_false_iff in EH as [E1 E2].
    split.
    + destruct (fm_fmt (fd_meta f)) eqn:E; [|reflexivity]. assert (has_fmt fs = true) by (apply existsb_exists; exists f; now rewrite E). congruence.
    + destruct (fm_skip_if (fd_meta f)) eqn:E; [|reflexivity]. assert (has_skip_if fs = true) by (apply existsb_exists; exists f; now rewrite E). congruence.
Qed.
