(** Type checking of derived implementations: C71, C72. *)
From Coq Require Import String.
From Coq Require Import Lia Arith Sorted Permutation.
From Verif Require Import Bytes Spec MFmt MSerializer MRequest MDerive MTypes SpecCalls SpecDerive LBytes LTrace LDerive PropsDerive.

(** ** What the documentation asks of a field (lib.rs:132-206) *)

(** [T] in the documentation of the attributes: the field's type, or what is in the option. *)
Definition value_type (sy : syn) (f : syn_field) (t u : rty) : Prop :=
  (treated_as_option sy f -> t = ROption u) /\ (~ treated_as_option sy f -> t = u).

(** "Callable as": the path names a function that accepts references to the type. *)
Definition callable (fns : bytes -> option (rty -> bool)) (p : bytes) (u : rty) : Prop :=
  exists g, fns p = Some g /\ g u = true.

(** Parameter [i] of the struct is a type. *)
Definition type_param (g : list gparam) (i : nat) : Prop := exists bs, nth_error g i = Some (GType bs).

(** [t : Display], where the type parameters in [known] are. *)
Inductive is_display (tw : tworld) (known : nat -> Prop) : rty -> Prop :=
  | di_param i : known i -> is_display tw known (RParam i)
  | di_con n : tw_display0 tw n = true -> is_display tw known (RCon n)
  | di_always n t : tw_display1 tw n = Always -> is_display tw known (RApp n t)
  | di_arg n t : tw_display1 tw n = IfArg -> is_display tw known t -> is_display tw known (RApp n t).

(** Outside of generic code there are no type parameters. *)
Definition nowhere : nat -> Prop := fun _ => False.

(** A field of type [t] is as documented, where the type parameters in [known] implement [Display]. *)
Definition documented (tw : tworld) (known : nat -> Prop) (sy : syn) (f : syn_field) (t : rty) : Prop :=
  exists u, value_type sy f t u
    /\ (forall p, path_value (lit "skip_if") (metas sy (sf_attrs f)) = Some p -> callable (tw_skip_if tw) p u)
    /\ match path_value (lit "fmt") (metas sy (sf_attrs f)) with
       | Some p => callable (tw_fmt tw) p u
       | None => is_display tw known u
       end.

(** ** C71 Exactly the documented field types compile *)

Lemma displays_iff : forall tw env t, displays tw env t = true <-> is_display tw (fun i => env i = true) t.
Proof.
  intros tw env t. induction t as [i|n|n t IH|t IH]; cbn [displays]; split; intros H.
  - now constructor.
  - now inversion H.
  - now constructor.
  - now inversion H.
  - destruct (tw_display1 tw n) eqn:E; [discriminate|now apply di_always|apply di_arg; tauto].
  - inversion H as [| |n' t' E|n' t' E D]; subst; rewrite E; tauto.
  - discriminate.
  - inversion H.
Qed.

Lemma is_display_mono : forall tw (k k' : nat -> Prop) t, (forall i, k i -> k' i) -> is_display tw k t -> is_display tw k' t.
Proof. intros tw k k' t HK H. induction H; [apply di_param|apply di_con|apply di_always|apply di_arg]; auto. Qed.

Lemma displays_nowhere : forall tw t, displays tw no_params t = true <-> is_display tw nowhere t.
Proof. intros tw t. rewrite displays_iff. split; apply is_display_mono; [discriminate|intros i []]. Qed.

Lemma documented_mono : forall tw (k k' : nat -> Prop) sy f t, (forall i, k i -> k' i) -> documented tw k sy f t -> documented tw k' sy f t.
Proof.
  intros tw k k' sy f t HK [u [V [H1 H2]]]. exists u. split; [exact V|]. split; [exact H1|].
  destruct (path_value (lit "fmt") (metas sy (sf_attrs f))); [exact H2|]. now apply (is_display_mono tw k).
Qed.

(** Inside the implementation, exactly the type parameters are known to implement [Display]. *)
Theorem C72_inside : forall g i, known_display (add_trait_bounds g) i = true <-> type_param g i.
Proof.
  intros g i. unfold known_display, add_trait_bounds, type_param. rewrite nth_error_map.
  destruct (nth_error g i) as [[|bs|]|]; cbn [option_map]; split; intros H; try discriminate; try (destruct H as [? H]; discriminate H).
  - exists bs. reflexivity.
  - rewrite existsb_app. cbn [existsb]. rewrite bseqb_refl. now rewrite orb_comm.
Qed.
Print Assumptions C72_inside.

Lemma accepts_spec : forall fns p t, accepts fns p t = true <-> callable fns p t.
Proof.
  intros fns p t. unfold accepts, callable. destruct (fns p) as [g|]; split; intros H.
  - exists g. auto.
  - destruct H as [h [E H]]. inversion E; subst. exact H.
  - discriminate.
  - destruct H as [h [E _]]. discriminate.
Qed.

Lemma check_proto : forall tw env ts p, check tw env ts (proto_stmt p) None = true.
Proof. intros. destruct p; reflexivity. Qed.

Lemma check_merge : forall tw env ts fs ps,
  forallb (fun st => check tw env ts st None) (merge_stmts ps fs) = forallb (fun f => check tw env ts (field_stmt f) None) fs.
Proof.
  intros tw env ts. assert (P : forall ps, forallb (fun st => check tw env ts st None) (map proto_stmt ps) = true).
  { induction ps as [|p ps IH]; [reflexivity|]. cbn [map forallb]. now rewrite check_proto. }
  induction fs as [|f fs IH]; intros ps; cbn [merge_stmts]; [apply P|].
  rewrite forallb_app, P. cbn [forallb andb]. now rewrite IH.
Qed.

Lemma check_field : forall tw env ts sy f,
  check tw env ts (field_stmt (field_of_syn sy f)) None = true <->
  is_keyword (id_text (sf_ident f)) = false /\ exists t, ts (id_text (sf_ident f)) = Some t /\ documented tw (fun i => env i = true) sy f t.
Proof.
  intros tw env ts sy f. set (F := field_of_syn sy f).
  assert (FT : field_type ts (fd_ident F) = if is_keyword (id_text (sf_ident f)) then None else ts (id_text (sf_ident f))) by reflexivity.
  pose (inner := fun tmp => SSerialize (if fm_encoded (fd_meta F) then lit "serialize_parameter_encoded" else lit "serialize_parameter")
            (Field_name F) (fm_fmt (fd_meta F)) tmp).
  assert (INNER : forall tmp bind u, type_v ts bind tmp = Some u ->
    check tw env ts (match fm_skip_if (fd_meta F) with Some p => SIfNot p tmp (inner tmp) | None => inner tmp end) bind = true <->
    (forall p, path_value (lit "skip_if") (metas sy (sf_attrs f)) = Some p -> callable (tw_skip_if tw) p u)
    /\ match path_value (lit "fmt") (metas sy (sf_attrs f)) with
       | Some p => callable (tw_fmt tw) p u
       | None => is_display tw (fun i => env i = true) u
       end).
  { intros tmp bind u HU.
    assert (S0 : check tw env ts (inner tmp) bind = true <-> match path_value (lit "fmt") (metas sy (sf_attrs f)) with
       | Some p => callable (tw_fmt tw) p u | None => is_display tw (fun i => env i = true) u end).
    { unfold inner. cbn [check]. rewrite HU. change (fm_fmt (fd_meta F)) with (path_value (lit "fmt") (metas sy (sf_attrs f))).
      assert (M : existsb (bseqb (if fm_encoded (fd_meta F) then lit "serialize_parameter_encoded" else lit "serialize_parameter")) parameter_methods = true)
        by (destruct (fm_encoded (fd_meta F)); reflexivity).
      rewrite M. cbn [andb]. destruct (path_value (lit "fmt") _); [apply accepts_spec|apply displays_iff]. }
    change (fm_skip_if (fd_meta F)) with (path_value (lit "skip_if") (metas sy (sf_attrs f))).
    destruct (path_value (lit "skip_if") (metas sy (sf_attrs f))) as [p|].
    - cbn [check]. rewrite HU, andb_true_iff, accepts_spec, S0. split; intros [H1 H2]; split; auto. intros q Hq. inversion Hq; subst. exact H1.
    - rewrite S0. split; [intros H; split; [discriminate|exact H]|tauto]. }
  assert (NONE : forall tmp bind, type_v ts bind tmp = None ->
    check tw env ts (match fm_skip_if (fd_meta F) with Some p => SIfNot p tmp (inner tmp) | None => inner tmp end) bind = false).
  { intros tmp bind HU. destruct (fm_skip_if (fd_meta F)); cbn [check]; unfold inner; cbn [check]; rewrite HU; [reflexivity|apply andb_false_r]. }
  destruct (ty_is_option F) eqn:EO.
  - assert (E : check tw env ts (field_stmt F) None = match field_type ts (fd_ident F) with
        | Some (ROption u) => check tw env ts (match fm_skip_if (fd_meta F) with Some p => SIfNot p VBind (inner VBind) | None => inner VBind end) (Some u)
        | _ => false end).
    { unfold field_stmt. rewrite EO. fold (inner VBind). destruct (fm_skip_if (fd_meta F)); reflexivity. }
    rewrite E, FT. apply treated_spec in EO. split.
    + destruct (is_keyword (id_text (sf_ident f))); [discriminate|]. destruct (ts (id_text (sf_ident f))) as [[i|n|n t|u]|]; try discriminate.
      intros H. apply (INNER VBind (Some u) u eq_refl) in H. split; [reflexivity|]. exists (ROption u). split; [reflexivity|].
      exists u. split; [split; [reflexivity|tauto]|exact H].
    + intros [-> [t [-> [u [[V1 V2] H]]]]]. rewrite (V1 EO). now apply (INNER VBind (Some u) u eq_refl).
  - assert (E : check tw env ts (field_stmt F) None
      = check tw env ts (match fm_skip_if (fd_meta F) with Some p => SIfNot p (VField (fd_ident F)) (inner (VField (fd_ident F)))
                         | None => inner (VField (fd_ident F)) end) None).
    { unfold field_stmt. rewrite EO. fold (inner (VField (fd_ident F))). destruct (fm_skip_if (fd_meta F)); reflexivity. }
    assert (NT : ~ treated_as_option sy f) by (rewrite treated_spec; fold F; congruence).
    rewrite E. destruct (field_type ts (fd_ident F)) as [t|] eqn:ET.
    + rewrite (INNER (VField (fd_ident F)) None t ET). destruct (is_keyword (id_text (sf_ident f))); [discriminate|]. split.
      * intros H. split; [reflexivity|]. exists t. split; [now symmetry|]. exists t. split; [split; [tauto|reflexivity]|exact H].
      * intros [_ [t' [ET' [u [[V1 V2] H]]]]]. rewrite <- FT in ET'. inversion ET'; subst t'. rewrite <- (V2 NT) in H. exact H.
    + rewrite (NONE (VField (fd_ident F)) None ET). split; [discriminate|]. intros [HK [t [Ht _]]]. rewrite HK, Ht in FT. discriminate.
Qed.

Lemma forallb_perm : forall {A} (p : A -> bool) l l', Permutation l l' -> forallb p l = forallb p l'.
Proof.
  intros A p l l' P. induction P as [|x l l' P IH|x y l|l1 l2 l3 P1 IH1 P2 IH2]; cbn [forallb].
  - reflexivity.
  - now rewrite IH.
  - destruct (p x), (p y); reflexivity.
  - congruence.
Qed.

(** Generated code type-checks exactly if every field that is not skipped is as documented and is not
    called like a reserved word. *)
Theorem C71_exact : forall tw g ts sy dbg found attrs fs krate body,
  expand sy dbg found (decl attrs fs) = Ok (Impl krate body) ->
  compiles tw g ts (Impl krate body) = true <->
  (forall f, In f fs -> skipped sy f = false ->
     reserved_word (id_text (sf_ident f)) = false
     /\ exists t, ts (id_text (sf_ident f)) = Some t /\ documented tw (type_param g) sy f t).
Proof.
  intros tw g ts sy dbg found attrs fs krate body HE. apply accepted_facts in HE as [_ [_ ->]].
  cbn [compiles]. set (env := known_display (add_trait_bounds g)). rewrite check_merge.
  assert (P : forallb (fun f => check tw env ts (field_stmt f) None) (unskipped (sorted_fields sy fs))
            = forallb (fun f => fm_skip (fd_meta f) || check tw env ts (field_stmt f) None) (map (field_of_syn sy) fs)).
  { rewrite <- (forallb_perm _ _ _ (sort_perm (map (field_of_syn sy) fs))). fold (sorted_fields sy fs).
    generalize (sorted_fields sy fs). unfold unskipped. induction l as [|f l IH]; [reflexivity|]. cbn [filter forallb].
    destruct (fm_skip (fd_meta f)); cbn [negb forallb orb andb]; now rewrite IH. }
  rewrite P, forallb_forall. split.
  - intros H f Hf HS. specialize (H _ (in_map _ _ _ Hf)). apply orb_prop in H as [H|H].
    + change (fm_skip (fd_meta (field_of_syn sy f))) with (skipped sy f) in H. congruence.
    + apply check_field in H as [HK [t [HT HD]]]. split; [exact HK|]. exists t. split; [exact HT|].
      revert HD. apply documented_mono. intros i. apply C72_inside.
  - intros H x Hx. apply in_map_iff in Hx as [f [<- Hf]]. change (fm_skip (fd_meta (field_of_syn sy f))) with (skipped sy f).
    destruct (skipped sy f) eqn:ES; [reflexivity|]. cbn [orb]. apply check_field.
    destruct (H f Hf ES) as [HK [t [HT HD]]]. split; [exact HK|]. exists t. split; [exact HT|].
    revert HD. apply documented_mono. intros i. apply C72_inside.
Qed.
Print Assumptions C71_exact.

(** Skipped fields may have any type. *)
Theorem C71_skipped : forall tw g ts ts' sy dbg found attrs fs krate body,
  expand sy dbg found (decl attrs fs) = Ok (Impl krate body) ->
  (forall f, In f fs -> skipped sy f = false -> ts (id_text (sf_ident f)) = ts' (id_text (sf_ident f))) ->
  compiles tw g ts (Impl krate body) = compiles tw g ts' (Impl krate body).
Proof.
  intros tw g ts ts' sy dbg found attrs fs krate body HE HT.
  pose proof (C71_exact tw g ts _ _ _ _ _ _ _ HE) as A. pose proof (C71_exact tw g ts' _ _ _ _ _ _ _ HE) as B.
  apply eq_true_iff_eq. rewrite A, B. split; intros H f Hf HS; specialize (H f Hf HS); [rewrite <- HT|rewrite HT]; auto.
Qed.
Print Assumptions C71_skipped.

(** *** Code that type-checks runs *)

(** [pg] is a program of world [tw]: [has v t] says which values a type has.  Options are options, and
    functions that type-check exist. *)
Record runs_in {V} (tw : tworld) (pg : program V) (has : V -> rty -> Prop) : Prop := {
  ri_option : forall v t, has v (ROption t) -> exists o, pg_option pg v = Some o /\ forall x, o = Some x -> has x t;
  ri_fmt : forall p t, accepts (tw_fmt tw) p t = true -> exists g, pg_fmt pg p = Some g;
  ri_skip_if : forall p t, accepts (tw_skip_if tw) p t = true -> exists g, pg_skip_if pg p = Some g;
}.

(** The value [self] of the struct has the types [ts]; [args] are the arguments of its parameters. *)
Definition value_has {V} (has : V -> rty -> Prop) (self : struct_value V) (args : type_args) (ts : struct_type) : Prop :=
  forall i t, ts i = Some t -> exists v, self i = Some v /\ has v (subst args t).

Lemma oauth_method_ok : forall {S : Serializer} m, existsb (bseqb m) oauth_methods = true -> exists f, @oauth_method S m = Some f.
Proof.
  intros S m H. apply existsb_exists in H as [x [Hx E]]. apply bseqb_eq in E. subst x.
  cbn in Hx. repeat (destruct Hx as [<-|Hx]; [eexists; reflexivity|]). destruct Hx.
Qed.
Lemma parameter_method_ok : forall {S : Serializer} m, existsb (bseqb m) parameter_methods = true -> exists f, @parameter_method S m = Some f.
Proof.
  intros S m H. apply existsb_exists in H as [x [Hx E]]. apply bseqb_eq in E. subst x.
  cbn in Hx. repeat (destruct Hx as [<-|Hx]; [eexists; reflexivity|]). destruct Hx.
Qed.

Lemma check_runs : forall {V} tw (pg : program V) has env self args ts, runs_in tw pg has -> value_has has self args ts ->
  forall st bind bt, check tw env ts st bt = true ->
  (forall t, bt = Some t -> exists v, bind = Some v /\ has v (subst args t)) ->
  forall (S : Serializer) (s : S), exec pg self st bind s <> None.
Proof.
  intros V tw pg has env self args ts [RO RF RS] HV. induction st as [m|m key fmt tmp|p tmp body IH|i body IH|body IH];
    intros bind bt HC HB S s; cbn [check] in HC; cbn [exec].
  - destruct (@oauth_method_ok S m HC) as [f ->]. discriminate.
  - apply andb_prop in HC as [HM HC]. destruct (@parameter_method_ok S m HM) as [f ->].
    destruct (type_v ts bt tmp) as [t|] eqn:ET; [|discriminate].
    assert (EV : exists v, eval_v self bind tmp = Some v).
    { destruct tmp as [|i]; cbn [type_v eval_v] in *.
      - destruct (HB t ET) as [v [-> _]]. eauto.
      - unfold field_type in ET. unfold field_access. destruct (negb (id_raw i) && is_keyword (id_text i)); [discriminate|].
        destruct (HV _ _ ET) as [v [-> _]]. eauto. }
    destruct EV as [v ->]. destruct fmt as [p|]; [|discriminate]. destruct (RF p t HC) as [g ->]. discriminate.
  - apply andb_prop in HC as [H1 H2]. destruct (type_v ts bt tmp) as [t|] eqn:ET; [|discriminate].
    destruct (RS p t H1) as [g ->].
    assert (EV : exists v, eval_v self bind tmp = Some v).
    { destruct tmp as [|i]; cbn [type_v eval_v] in *.
      - destruct (HB t ET) as [v [-> _]]. eauto.
      - unfold field_type in ET. unfold field_access. destruct (negb (id_raw i) && is_keyword (id_text i)); [discriminate|].
        destruct (HV _ _ ET) as [v [-> _]]. eauto. }
    destruct EV as [v ->]. specialize (IH bind bt H2 HB S s). destruct (exec pg self body bind s); [discriminate|contradiction].
  - destruct (field_type ts i) as [[j|n|n t|u]|] eqn:ET; try discriminate.
    unfold field_type in ET. unfold field_access. destruct (negb (id_raw i) && is_keyword (id_text i)); [discriminate|].
    destruct (HV _ _ ET) as [v [-> Hv]]. cbn [subst] in Hv. destruct (RO _ _ Hv) as [o [-> Ho]]. destruct o as [x|]; [|discriminate].
    apply (IH (Some x) (Some u) HC). intros t Et. inversion Et; subst t. exists x. split; [reflexivity|]. now apply Ho.
  - apply (IH bind bt HC HB).
Qed.

(** Code that type-checks never fails for want of a name or a type, whatever the values of the struct,
    the arguments of its type parameters and the serializer. *)
Theorem C71_sound : forall {V} tw (pg : program V) has g self args ts e body krate,
  e = Impl krate body -> compiles tw g ts e = true -> runs_in tw pg has -> value_has has self args ts ->
  forall (S : Serializer) (s : S), exec_body pg self body S s <> None.
Proof.
  intros V tw pg has g self args ts e body krate -> HC HR HV S s. cbn [compiles] in HC.
  set (env := known_display (add_trait_bounds g)) in HC. unfold exec_body.
  assert (X : exec_all pg self body s <> None).
  { revert s. induction body as [|st body IH]; intros s; [discriminate|]. cbn [forallb] in HC. apply andb_prop in HC as [H1 H2].
    cbn [exec_all]. pose proof (check_runs tw pg has env self args ts HR HV st None None H1 ltac:(discriminate) S s) as N.
    destruct (exec pg self st None s) as [[s1|]|]; [auto|discriminate|contradiction]. }
  destruct (exec_all pg self body s); [discriminate|contradiction].
Qed.
Print Assumptions C71_sound.

(** *** The cases of the repository's own tests (oauth1-request-derive/tests/ui/typeck.rs, resolve.rs) *)

(** [u8], [String] and [&str] are displayed, [()] is not; [&T], [Box<T>] are if [T] is, [Vec<T>] is not. *)
Definition std_world : tworld := {|
  tw_display0 := fun n => existsb (bseqb n) (map lit ["u8"; "u32"; "String"; "str"]%string);
  tw_display1 := fun n => if existsb (bseqb n) (map lit ["&"; "Box"]%string) then IfArg else Never;
  tw_fmt := fun p =>
    if bseqb p (lit "fmt_unit") then Some (fun t => match t with RCon n => bseqb n (lit "()") | _ => false end)
    else if existsb (bseqb p) (map lit ["fmt_arg_mismatch"]%string) then Some (fun t => match t with RCon n => bseqb n (lit "u8") | _ => false end)
    else if bseqb p (lit "fmt_trait_bound_unsatisfied") then Some (fun t => match t with RCon n => bseqb n (lit "String") | _ => false end)
    else if existsb (bseqb p) (map lit ["fmt_missing_arg"; "fmt_arg_not_ref"; "fmt_ret_mismatch"; "NOT_FN"]%string) then Some (fun _ => false)
    else None;
  tw_skip_if := fun p =>
    if bseqb p (lit "str::is_empty") then
      Some (fun t => match t with RCon n => bseqb n (lit "String") | RApp n (RCon m) => bseqb n (lit "&") && bseqb m (lit "str") | _ => false end)
    else if bseqb p (lit "skip_if_arg_mismatch") then Some (fun t => match t with RCon n => bseqb n (lit "()") | _ => false end)
    else if bseqb p (lit "skip_if_trait_bound_unsatisfied") then Some (fun t => match t with RCon n => bseqb n (lit "String") | _ => false end)
    else if existsb (bseqb p) (map lit ["skip_if_too_many_args"; "skip_if_arg_not_ref"; "skip_if_ret_mismatch"; "NOT_FN"]%string) then Some (fun _ => false)
    else None |}.

(** Whether the struct with this one field compiles. *)
Definition one_field (attrs : list attr) (written : ty) (t : rty) : option bool :=
  match expand toy false (CrateName (lit "oauth1_request")) (decl [] [field (lit "x") attrs written]) with
  | Ok e => Some (compiles std_world [] (fun n => if bseqb n (lit "x") then Some t else None) e)
  | Panic _ => None
  end.

Definition rejected (r : option bool) : bool := match r with Some false => true | _ => false end.
Definition accepted (r : option bool) : bool := match r with Some true => true | _ => false end.

Example ui_typeck :
  forallb rejected
    [one_field [] TyOther (RCon (lit "()"));
     one_field [eq_attr (lit "fmt") (lit "fmt_missing_arg")] TyOther (RCon (lit "()"));
     one_field [eq_attr (lit "fmt") (lit "fmt_arg_not_ref")] TyOther (RCon (lit "()"));
     one_field [eq_attr (lit "fmt") (lit "fmt_arg_mismatch")] TyOther (RCon (lit "()"));
     one_field [eq_attr (lit "fmt") (lit "fmt_trait_bound_unsatisfied")] TyOther (RCon (lit "()"));
     one_field [eq_attr (lit "fmt") (lit "fmt_ret_mismatch")] TyOther (RCon (lit "()"));
     one_field [eq_attr (lit "fmt") (lit "NOT_FN")] TyOther (RCon (lit "()"));
     one_field [eq_attr (lit "option") (lit "true")] TyOther (RCon (lit "u8"));
     one_field [eq_attr (lit "skip_if") (lit "skip_if_too_many_args")] TyOther (RCon (lit "u8"));
     one_field [eq_attr (lit "skip_if") (lit "skip_if_arg_not_ref")] TyOther (RCon (lit "u8"));
     one_field [eq_attr (lit "skip_if") (lit "skip_if_arg_mismatch")] TyOther (RCon (lit "u8"));
     one_field [eq_attr (lit "skip_if") (lit "skip_if_trait_bound_unsatisfied")] TyOther (RCon (lit "u8"));
     one_field [eq_attr (lit "skip_if") (lit "skip_if_ret_mismatch")] TyOther (RCon (lit "u8"));
     one_field [eq_attr (lit "skip_if") (lit "NOT_FN")] TyOther (RCon (lit "u8"));
     (* ui/resolve.rs *)
     one_field [eq_attr (lit "fmt") (lit "missing_fmt")] TyOther (RCon (lit "()"));
     one_field [eq_attr (lit "skip_if") (lit "missing_skip_if")] TyOther (RCon (lit "u8"))]
  && forallb accepted
    [one_field [] TyOther (RCon (lit "u8"));
     one_field [oauth1_attr [TTok (lit "skip")]] TyOther (RCon (lit "()"));
     one_field [eq_attr (lit "fmt") (lit "fmt_unit")] TyOther (RCon (lit "()"));
     one_field [] option_ty (ROption (RCon (lit "u32")));
     one_field [eq_attr (lit "option") (lit "true")] TyOther (ROption (RCon (lit "u8")));
     one_field [eq_attr (lit "skip_if") (lit "str::is_empty")] TyOther (RApp (lit "&") (RCon (lit "str")))] = true.
Proof. vm_compute. reflexivity. Qed.

(** A type that is merely called [Option], and an [Option] by another name, need the attribute. *)
Example other_options :
  rejected (one_field [] option_ty (RApp (lit "my::Option") (RCon (lit "u8"))))
  && rejected (one_field [] TyOther (ROption (RCon (lit "u8"))))
  && rejected (one_field [eq_attr (lit "option") (lit "false")] option_ty (ROption (RCon (lit "u8")))) = true.
Proof. vm_compute. reflexivity. Qed.

(** ** C72 Generic structs *)

(** The bounds that the struct itself declares hold of the arguments. *)
Definition declared_bounds (tw : tworld) (holds : bytes -> rty -> bool) (g : list gparam) (args : type_args) : Prop :=
  forall i bs b, nth_error g i = Some (GType bs) -> In b bs ->
    if bseqb b display_path then is_display tw nowhere (args i) else holds b (args i) = true.

(** Every field that is not skipped is as documented, at the types that the arguments give. *)
Definition fields_documented (tw : tworld) (args : type_args) (sy : syn) (fs : list syn_field) (ts : struct_type) : Prop :=
  forall f, In f fs -> skipped sy f = false ->
    exists t, ts (id_text (sf_ident f)) = Some t /\ documented tw nowhere sy f (subst args t).

Lemma applies_spec : forall tw holds g args k,
  applies tw holds g args k = true <->
  (forall i bs b, nth_error g i = Some (GType bs) -> In b bs -> bound_holds tw holds b (args (k + i)) = true).
Proof.
  intros tw holds. induction g as [|p g IH]; intros args k.
  - split; [|reflexivity]. intros _ [|i] bs b H; discriminate H.
  - assert (R : applies tw holds (p :: g) args k = true <->
      (forall bs b, p = GType bs -> In b bs -> bound_holds tw holds b (args k) = true) /\ applies tw holds g args (S k) = true).
    { destruct p as [|bs|]; cbn [applies]; [|rewrite andb_true_iff, forallb_forall|]; split; intros H.
      - split; [discriminate|exact H].
      - apply H.
      - destruct H as [H1 H2]. split; [|exact H2]. intros bs' b E. inversion E; subst. auto.
      - destruct H as [H1 H2]. split; [|exact H2]. intros b. now apply H1.
      - split; [discriminate|exact H].
      - apply H. }
    rewrite R, IH. split.
    + intros [H1 H2] [|i] bs b HN HI; cbn [nth_error] in HN.
      * inversion HN; subst. rewrite Nat.add_0_r. eauto.
      * replace (k + S i) with (S k + i) by lia. eauto.
    + intros H. split.
      * intros bs b -> HI. specialize (H 0 bs b eq_refl HI). now rewrite Nat.add_0_r in H.
      * intros i bs b HN HI. specialize (H (S i) bs b HN HI). now replace (k + S i) with (S k + i) in H by lia.
Qed.

Lemma bound_iff : forall tw holds b t,
  bound_holds tw holds b t = true <-> if bseqb b display_path then is_display tw nowhere t else holds b t = true.
Proof. intros. unfold bound_holds. destruct (bseqb b display_path); [apply displays_nowhere|reflexivity]. Qed.

(** The derived implementation applies exactly if the declared bounds hold and every type argument
    implements [Display]. *)
Theorem C72_exactly_partial : forall tw holds g args ts e, compiles tw g ts e = true ->
  implements_request tw holds g args ts e = true <->
  declared_bounds tw holds g args /\ (forall i, type_param g i -> is_display tw nowhere (args i)).
Proof.
  intros tw holds g args ts e HC. unfold implements_request. rewrite HC. cbn [andb]. rewrite applies_spec. cbn [Nat.add].
  unfold add_trait_bounds. split.
  - intros H. split.
    + intros i bs b HN HI. apply bound_iff. apply (H i (bs ++ [display_path]) b); [now rewrite nth_error_map, HN|]. apply in_app_iff. auto.
    + intros i [bs HN]. specialize (H i (bs ++ [display_path]) display_path). rewrite nth_error_map, HN in H.
      specialize (H eq_refl ltac:(apply in_app_iff; right; now left)). apply bound_iff in H. now rewrite bseqb_refl in H.
  - intros [H1 H2] i bs b HN HI. rewrite nth_error_map in HN. destruct (nth_error g i) as [[|bs'|]|] eqn:EN; try discriminate HN.
    inversion HN; subst bs. apply in_app_iff in HI as [HI|[<-|[]]]; [exact (proj2 (bound_iff _ _ _ _) (H1 _ _ _ EN HI))|]. apply (proj2 (bound_iff _ _ _ _)). rewrite bseqb_refl. apply H2. now exists bs'.
Qed.
Print Assumptions C72_exactly_partial.

Lemma displays_subst : forall tw (known : nat -> Prop) args t, (forall i, known i -> is_display tw nowhere (args i)) ->
  is_display tw known t -> is_display tw nowhere (subst args t).
Proof.
  intros tw known args t HA H. induction H; cbn [subst]; [auto|apply di_con|apply di_always|apply di_arg]; auto.
Qed.

(** Functions that accept a type with parameters accept its instances. *)
Definition parametric (fns : bytes -> option (rty -> bool)) (args : type_args) : Prop :=
  forall p f t, fns p = Some f -> f t = true -> f (subst args t) = true.

(** Where the implementation applies, every field is as documented. *)
Theorem C72_instances : forall tw holds g args ts sy dbg found attrs fs krate body,
  expand sy dbg found (decl attrs fs) = Ok (Impl krate body) ->
  parametric (tw_fmt tw) args -> parametric (tw_skip_if tw) args ->
  implements_request tw holds g args ts (Impl krate body) = true ->
  fields_documented tw args sy fs ts.
Proof.
  intros tw holds g args ts sy dbg found attrs fs krate body HE PF PS HI f Hf HS.
  assert (HC : compiles tw g ts (Impl krate body) = true) by (unfold implements_request in HI; now apply andb_prop in HI).
  apply (proj1 (C72_exactly_partial tw holds g args ts _ HC)) in HI as [_ HD].
  destruct (proj1 (C71_exact _ _ _ _ _ _ _ _ _ _ HE) HC f Hf HS) as [_ [t [HT [u [[V1 V2] [H1 H2]]]]]].
  exists t. split; [exact HT|]. exists (subst args u). split; [|split].
  - split; intros HO; [now rewrite (V1 HO)|now rewrite (V2 HO)].
  - intros p Hp. destruct (H1 p Hp) as [q [Q1 Q2]]. exists q. eauto.
  - destruct (path_value (lit "fmt") (metas sy (sf_attrs f))) as [p|].
    + destruct H2 as [q [Q1 Q2]]. exists q. eauto.
    + apply (displays_subst tw _ args u) in H2; [exact H2|]. exact HD.
Qed.
Print Assumptions C72_instances.

(** [struct S<T> { #[oauth1(skip)] extra: T, #[oauth1(fmt = fmt_unit)] unit: () }]: no field needs [T: Display],
    but the implementation does. *)
Definition generic_fields : list syn_field :=
  [field (lit "extra") [oauth1_attr [TTok (lit "skip")]] TyOther; field (lit "unit") [eq_attr (lit "fmt") (lit "fmt_unit")] TyOther].
Definition generic_types : struct_type := fun n =>
  if bseqb n (lit "extra") then Some (RParam 0) else if bseqb n (lit "unit") then Some (RCon (lit "()")) else None.

Theorem C72_refuted :
  ~ (forall tw holds g args ts sy dbg found attrs fs krate body,
     expand sy dbg found (decl attrs fs) = Ok (Impl krate body) -> compiles tw g ts (Impl krate body) = true ->
     declared_bounds tw holds g args -> fields_documented tw args sy fs ts ->
     implements_request tw holds g args ts (Impl krate body) = true).
Proof.
  intros H.
  destruct (expand toy false (CrateName (lit "oauth1_request")) (decl [] generic_fields)) as [[| |k body]|] eqn:E;
    try (vm_compute in E; discriminate E).
  specialize (H std_world (fun _ _ => true) [GType []] (fun _ => RApp (lit "Vec") (RCon (lit "u8"))) generic_types toy false
    (CrateName (lit "oauth1_request")) [] generic_fields k body E).
  assert (C : compiles std_world [GType []] generic_types (Impl k body) = true).
  { vm_compute in E. inversion E; subst. vm_compute. reflexivity. }
  specialize (H C).
  assert (N : implements_request std_world (fun _ _ => true) [GType []] (fun _ => RApp (lit "Vec") (RCon (lit "u8"))) generic_types (Impl k body) = false).
  { unfold implements_request. rewrite C. vm_compute. reflexivity. }
  rewrite N in H. enough (false = true) by discriminate. apply H.
  - intros [|[|i]] bs b HN HI; cbn in HN; try discriminate HN. inversion HN; subst. destruct HI.
  - intros f [<-|[<-|[]]] HS; [vm_compute in HS; discriminate HS|].
    exists (RCon (lit "()")). split; [reflexivity|]. exists (RCon (lit "()")). split; [|split].
    + split; [|reflexivity]. intros [X|[_ X]]; [vm_compute in X; discriminate X|inversion X].
    + intros p X. vm_compute in X. discriminate X.
    + assert (X : path_value (lit "fmt") (metas toy (sf_attrs (field (lit "unit") [eq_attr (lit "fmt") (lit "fmt_unit")] TyOther)))
                  = Some (lit "fmt_unit")) by (vm_compute; reflexivity).
      rewrite X. eexists. split; [reflexivity|]. vm_compute. reflexivity.
Qed.
Print Assumptions C72_refuted.

(** Displaying a [t] displays a [T_i] in it. *)
Fixpoint shows (tw : tworld) (t : rty) (i : nat) : Prop :=
  match t with
  | RParam j => j = i
  | RApp n t => tw_display1 tw n = IfArg /\ shows tw t i
  | _ => False
  end.

Lemma shows_displays : forall tw t i args, shows tw t i -> is_display tw nowhere (subst args t) -> is_display tw nowhere (args i).
Proof.
  intros tw t i args. induction t as [j|n|n t IH|t IH]; cbn [shows subst]; intros H HD; try contradiction.
  - now subst.
  - destruct H as [E H]. inversion HD as [| |n' t' E'|n' t' E' D]; subst; [congruence|auto].
Qed.

(** If every type parameter is displayed by some field, nothing is lost. *)
Theorem C72_displayed_partial : forall tw holds g args ts sy dbg found attrs fs krate body,
  expand sy dbg found (decl attrs fs) = Ok (Impl krate body) -> compiles tw g ts (Impl krate body) = true ->
  (forall i, type_param g i -> exists f t u, In f fs /\ skipped sy f = false
     /\ path_value (lit "fmt") (metas sy (sf_attrs f)) = None
     /\ ts (id_text (sf_ident f)) = Some t /\ value_type sy f t u /\ shows tw u i) ->
  declared_bounds tw holds g args -> fields_documented tw args sy fs ts ->
  implements_request tw holds g args ts (Impl krate body) = true.
Proof.
  intros tw holds g args ts sy dbg found attrs fs krate body HE HC HP HB HF. apply C72_exactly_partial; [exact HC|]. split; [exact HB|].
  intros i Hi. destruct (HP i Hi) as [f [t [u [Hf [HS [HN [HT [[V1 V2] HU]]]]]]]].
  destruct (HF f Hf HS) as [t' [HT' [u' [[W1 W2] [_ HD]]]]]. rewrite HT in HT'. inversion HT'; subst t'. rewrite HN in HD.
  apply (shows_displays tw u i args HU). enough (subst args u = u') as -> by exact HD.
  destruct (ty_is_option (field_of_syn sy f)) eqn:EO.
  - apply treated_spec in EO. specialize (W1 EO). rewrite (V1 EO) in W1. cbn [subst] in W1. now inversion W1.
  - assert (NT : ~ treated_as_option sy f) by (rewrite treated_spec; congruence). now rewrite <- (W2 NT), (V2 NT).
Qed.
Print Assumptions C72_displayed_partial.

(** [struct S<'a, T, U: Clone> { id: Option<T>, name: &'a U }] at [T = u32], [U = String], and at [T = Vec<u8>]. *)
Definition generic2 : list gparam := [GLifetime; GType []; GType [lit "Clone"]].
Definition generic2_fields : list syn_field := [field (lit "id") [] option_ty; field (lit "name") [] TyOther].
Definition generic2_types : struct_type := fun n =>
  if bseqb n (lit "id") then Some (ROption (RParam 1)) else if bseqb n (lit "name") then Some (RApp (lit "&") (RParam 2)) else None.
Definition generic2_at (t : rty) : bool :=
  match expand toy false (CrateName (lit "oauth1_request")) (decl [] generic2_fields) with
  | Ok e => compiles std_world generic2 generic2_types e
            && implements_request std_world (fun _ _ => true) generic2 (fun i => if Nat.eqb i 1 then t else RCon (lit "String")) generic2_types e
  | Panic _ => false
  end.
Example C72_example : generic2_at (RCon (lit "u32")) && negb (generic2_at (RApp (lit "Vec") (RCon (lit "u8")))) = true.
Proof. vm_compute. reflexivity. Qed.

Example C72_example_displayed : forall i, type_param generic2 i -> exists f t u, In f generic2_fields /\ skipped toy f = false
     /\ path_value (lit "fmt") (metas toy (sf_attrs f)) = None
     /\ generic2_types (id_text (sf_ident f)) = Some t /\ value_type toy f t u /\ shows std_world u i.
Proof.
  intros [|[|[|i]]] [bs H]; cbn in H; try discriminate H; [| |destruct i; discriminate H].
  - exists (field (lit "id") [] option_ty), (ROption (RParam 1)), (RParam 1). repeat split; try (now left); try reflexivity.
    intros X. exfalso. apply X. right. split; [reflexivity|constructor].
  - exists (field (lit "name") [] TyOther), (RApp (lit "&") (RParam 2)), (RApp (lit "&") (RParam 2)). repeat split; try (right; now left); try reflexivity.
    intros [X|[_ X]]; [discriminate X|inversion X].
Qed.

(** A program in [std_world]: the values are a text, or an option of one. *)
Definition std_program : program (option (option bytes) * bytes) := {|
  pg_display := fun v => dstr (snd v);
  pg_fmt := fun p => option_map (fun _ v => dstr (snd v)) (tw_fmt std_world p);
  pg_skip_if := fun p => option_map (fun _ v => Ok (bseqb (snd v) [])) (tw_skip_if std_world p);
  pg_option := fun v => match fst v with Some o => Some (option_map (fun x => (None, x)) o) | None => None end |}.
Definition std_has (v : option (option bytes) * bytes) (t : rty) : Prop :=
  match t with
  | ROption (ROption _) => False
  | ROption _ => exists o, fst v = Some o
  | _ => fst v = None
  end.

Example C71_example_world : runs_in std_world std_program std_has.
Proof.
  constructor.
  - intros [[o|] v] t H; cbn [std_has fst] in H.
    + exists (option_map (fun x => (None, x)) o). split; [reflexivity|]. intros x E. destruct o; inversion E; subst.
      destruct t; try reflexivity. destruct H.
    + destruct t; try (destruct H as [o X]; discriminate X). destruct H.
  - intros p t H. unfold accepts in H. cbn [pg_fmt std_program]. destruct (tw_fmt std_world p); [eexists; reflexivity|discriminate].
  - intros p t H. unfold accepts in H. cbn [pg_skip_if std_program]. destruct (tw_skip_if std_world p); [eexists; reflexivity|discriminate].
Qed.

Example C71_example_value :
  value_has std_has (fun n => if bseqb n (lit "id") then Some (Some (Some (lit "7")), []) else
                              if bseqb n (lit "name") then Some (None, lit "x") else None)
    (fun _ => RCon (lit "u32")) generic2_types.
Proof.
  intros i t H. unfold generic2_types in H. destruct (bseqb i (lit "id")).
  - inversion H; subst. eexists. split; [reflexivity|]. now exists (Some (lit "7")).
  - destruct (bseqb i (lit "name")); inversion H; subst. eexists. split; reflexivity.
Qed.
