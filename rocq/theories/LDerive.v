(** Facts about the derive macro. *)
From Coq Require Import String.
From Coq Require Import Lia Arith Sorted Permutation.
From Verif Require Import Bytes Spec MFmt MPercent MSerializer MRequest MDerive SpecCalls SpecDerive LBytes LFmt LPercent LTrace.

(** ** Attributes *)

Lemma uri_safe_byte_spec : forall b, uri_safe_byte b = unreserved b.
Proof. intros b. destruct b; reflexivity. Qed.

Lemma forallb_safe : forall s, forallb uri_safe_byte s = forallb unreserved s.
Proof. induction s; [reflexivity|]. cbn [forallb]. now rewrite uri_safe_byte_spec, IHs. Qed.

Definition report (cx : Ctxt) (es : list error) : Ctxt := fold_left add_error es cx.

Lemma report_app : forall cx a b, report cx (a ++ b) = report (report cx a) b.
Proof. intros. apply fold_left_app. Qed.

Lemma report_some : forall es l, report (Some l) es = Some (l ++ es).
Proof.
  induction es as [|e es IH]; intros l; cbn; [now rewrite app_nil_r|]. unfold report in IH. rewrite IH, <- app_assoc. reflexivity.
Qed.

Lemma report_none : forall es, report None es = match es with [] => None | _ => Some es end.
Proof. intros [|e es]; [reflexivity|]. cbn. apply (report_some es [e]). Qed.

Lemma is_oauth1_spec : forall a, is_oauth1 a = for_oauth1 a.
Proof.
  intros [[[[] t]|t] args]; try reflexivity.
Qed.

Definition step {M} (add : M -> Meta -> M + error) (x : M * Ctxt) (i : Meta + error) : M * Ctxt :=
  match i with
  | inl m => match add (fst x) m with inl ret => (ret, snd x) | inr e => (fst x, add_error (snd x) e) end
  | inr e => (fst x, add_error (snd x) e)
  end.

Lemma meta_new_items : forall {M} sy (d : M) add attrs cx,
  meta_new sy d add attrs cx = fold_left (step add) (items sy attrs) (d, cx).
Proof.
  intros M sy d add attrs cx. unfold meta_new, items. generalize (d, cx). induction attrs as [|a attrs IH]; intros x; [reflexivity|].
  cbn [fold_left flat_map]. rewrite IH, fold_left_app. f_equal. rewrite <- is_oauth1_spec. destruct (is_oauth1 a); [|reflexivity].
  destruct (parse_args sy a) as [l|]; [|reflexivity]. unfold add_metas. clear. revert x. induction l as [|m l IH]; intros x; [reflexivity|].
  cbn [map fold_left]. apply IH.
Qed.

Lemma fold_items : forall {M} (add : M -> Meta -> M + error) (view : list Meta -> M) table,
  (forall before m, add (view before) m = match fault table before m with Some e => inr e | None => inl (view (before ++ [m])) end) ->
  (forall before m e, fault table before m = Some e -> view (before ++ [m]) = view before) ->
  forall l before cx,
  fold_left (step add) l (view before, cx)
  = (view (before ++ flat_map (fun x => match x with inl m => [m] | inr _ => [] end) l), report cx (faults table before l)).
Proof.
  intros M add view table H1 H2. induction l as [|[m|e] l IH]; intros before cx.
  - cbn. now rewrite app_nil_r.
  - cbn [fold_left step fst snd flat_map faults]. rewrite H1. destruct (fault table before m) as [e|] eqn:E.
    + rewrite <- (H2 _ _ _ E) at 1. rewrite IH. now rewrite <- app_assoc.
    + rewrite IH. now rewrite <- app_assoc.
  - cbn [fold_left step fst snd flat_map faults]. rewrite IH. reflexivity.
Qed.

(** What the attributes of a field say. *)
Definition field_view (ms : list Meta) : FieldMeta := {|
  fm_encoded := word (lit "encoded") ms;
  fm_fmt := path_value (lit "fmt") ms;
  fm_option := bool_value (lit "option") ms;
  fm_rename := name_value (lit "rename") ms;
  fm_skip := word (lit "skip") ms;
  fm_skip_if := path_value (lit "skip_if") ms |}.

Lemma first_some_app : forall {A B} (f : A -> option B) l1 l2,
  first_some f (l1 ++ l2) = match first_some f l1 with Some y => Some y | None => first_some f l2 end.
Proof. induction l1 as [|x l1 IH]; intros l2; [reflexivity|]. cbn. destruct (f x); auto. Qed.

Lemma good_path : forall n l, existsb (good n APath) l = match path_value n l with Some _ => true | None => false end.
Proof.
  intros n. induction l as [|m l IH]; [reflexivity|]. cbn [existsb]. unfold path_value in *. cbn [first_some]. rewrite IH.
  unfold good. destruct (named n m); [|reflexivity]. cbn [andb]. destruct (mt_kind m) as [| |[]]; reflexivity.
Qed.
Lemma good_bool : forall n l, existsb (good n ABool) l = match bool_value n l with Some _ => true | None => false end.
Proof.
  intros n. induction l as [|m l IH]; [reflexivity|]. cbn [existsb]. unfold bool_value in *. cbn [first_some]. rewrite IH.
  unfold good. destruct (named n m); [|reflexivity]. cbn [andb]. destruct (mt_kind m) as [| |[]]; reflexivity.
Qed.
Lemma good_name : forall n l, existsb (good n AName) l = match name_value n l with Some _ => true | None => false end.
Proof.
  intros n. induction l as [|m l IH]; [reflexivity|]. cbn [existsb]. unfold name_value in *. cbn [first_some]. rewrite IH.
  unfold good. destruct (named n m); [|reflexivity]. cbn [andb]. destruct (mt_kind m) as [| |[]]; try reflexivity.
  cbn [complaint]. destruct (forallb unreserved s); reflexivity.
Qed.

(** The name of an item decides which attribute it is. *)
Lemma ident_name : forall i n, match n with "r"%byte :: "#"%byte :: _ => False | _ => True end ->
  bseqb (ident_to_string i) n = negb (id_raw i) && bseqb (id_text i) n.
Proof.
  intros [[] t] n Hn; cbn [id_raw id_text negb andb]; [|reflexivity].
  unfold ident_to_string. cbn [id_raw id_text]. destruct (bseqb (lit "r#" ++ t) n) eqn:E; [|reflexivity].
  apply bseqb_eq in E. subst n. now cbn in Hn.
Qed.

Lemma path_text_ident : forall i, path_text (PIdent i) = ident_to_string i.
Proof. reflexivity. Qed.

Lemma named_ident : forall n i k, named n {| mt_path := PIdent i; mt_kind := k |} = negb (id_raw i) && bseqb (id_text i) n.
Proof. reflexivity. Qed.

Lemma view_snoc : forall before m, field_view (before ++ [m]) = {|
  fm_encoded := word (lit "encoded") before || good (lit "encoded") AWord m;
  fm_fmt := match path_value (lit "fmt") before with Some y => Some y | None => path_value (lit "fmt") [m] end;
  fm_option := match bool_value (lit "option") before with Some y => Some y | None => bool_value (lit "option") [m] end;
  fm_rename := match name_value (lit "rename") before with Some y => Some y | None => name_value (lit "rename") [m] end;
  fm_skip := word (lit "skip") before || good (lit "skip") AWord m;
  fm_skip_if := match path_value (lit "skip_if") before with Some y => Some y | None => path_value (lit "skip_if") [m] end |}.
Proof.
  intros. unfold field_view, word, path_value, bool_value, name_value. rewrite !first_some_app, !existsb_app. cbn [existsb].
  now rewrite !orb_false_r.
Qed.

Ltac solve_opt := match goal with |- context [match ?x with Some _ => _ | None => _ end] => destruct x end.

Lemma field_view_same : forall before m,
  (named (lit "encoded") m = false) -> (named (lit "fmt") m = false) -> (named (lit "option") m = false) ->
  (named (lit "rename") m = false) -> (named (lit "skip") m = false) -> (named (lit "skip_if") m = false) ->
  field_view (before ++ [m]) = field_view before.
Proof.
  intros before m H1 H2 H3 H4 H5 H6. rewrite view_snoc. unfold field_view.
  unfold good. rewrite H1, H5. cbn [andb]. rewrite !orb_false_r.
  assert (E1 : forall n, named n m = false -> path_value n [m] = None) by (intros n H; cbn; now rewrite H).
  assert (E2 : forall n, named n m = false -> bool_value n [m] = None) by (intros n H; cbn; now rewrite H).
  assert (E3 : forall n, named n m = false -> name_value n [m] = None) by (intros n H; cbn; now rewrite H).
  rewrite !E1, E2, E3 by auto. f_equal; solve_opt; reflexivity.
Qed.

Lemma FieldMeta_add_spec : forall before m,
  FieldMeta_add (field_view before) m
  = match fault field_attributes before m with Some e => inr e | None => inl (field_view (before ++ [m])) end
  /\ (forall e, fault field_attributes before m = Some e -> field_view (before ++ [m]) = field_view before).
Proof.
  intros before [p k]. destruct p as [i|t].
  2: { split; [reflexivity|]. intros e _. now apply field_view_same. }
  unfold FieldMeta_add. cbn [mt_path mt_kind get_ident]. rewrite !ident_name by exact I.
  unfold fault, field_attributes. cbn [find fst snd mt_path mt_kind]. rewrite !named_ident.
  destruct i as [raw t]. cbn [id_raw id_text]. destruct raw; cbn [negb andb].
  { split; [reflexivity|]. intros e _. now apply field_view_same. }
  assert (HN : forall n, named n {| mt_path := PIdent {| id_raw := false; id_text := t |}; mt_kind := k |} = bseqb t n) by reflexivity.
  destruct (bseqb t (lit "encoded")) eqn:E1.
  { apply bseqb_eq in E1. subst t. cbn [fst snd]. unfold add_word.
    assert (HV : forall k', field_view (before ++ [{| mt_path := PIdent {| id_raw := false; id_text := lit "encoded" |}; mt_kind := k' |}])
      = {| fm_encoded := word (lit "encoded") before || match k' with MkPath => true | _ => false end;
           fm_fmt := path_value (lit "fmt") before; fm_option := bool_value (lit "option") before;
           fm_rename := name_value (lit "rename") before; fm_skip := word (lit "skip") before; fm_skip_if := path_value (lit "skip_if") before |}).
    { intros k'. rewrite view_snoc. f_equal; try (solve_opt; reflexivity); [|apply orb_false_r]. f_equal. destruct k'; reflexivity. }
    rewrite HV. change (existsb (good (lit "encoded") AWord) before) with (word (lit "encoded") before).
    cbn [fm_encoded field_view]. destruct k; cbn [complaint]; [destruct (word (lit "encoded") before) eqn:EW|..]; cbn [on orb];
      split; try reflexivity; intros er He; try discriminate He; unfold field_view; rewrite ?EW, ?orb_false_r; reflexivity. }
  destruct (bseqb t (lit "fmt")) eqn:E2.
  { apply bseqb_eq in E2. subst t. cbn [fst snd]. unfold add_value. rewrite good_path.
    assert (HV : forall k', field_view (before ++ [{| mt_path := PIdent {| id_raw := false; id_text := lit "fmt" |}; mt_kind := k' |}])
      = {| fm_encoded := word (lit "encoded") before;
           fm_fmt := match path_value (lit "fmt") before with Some y => Some y | None => match k' with MkNameValue (EPath p) => Some p | _ => None end end;
           fm_option := bool_value (lit "option") before;
           fm_rename := name_value (lit "rename") before; fm_skip := word (lit "skip") before; fm_skip_if := path_value (lit "skip_if") before |}).
    { intros k'. rewrite view_snoc. f_equal; try apply orb_false_r; try (solve_opt; reflexivity).
      destruct (path_value (lit "fmt") before); [reflexivity|]. destruct k' as [| |[]]; reflexivity. }
    rewrite HV. cbn [fm_fmt field_view].
    destruct k as [| |[]]; cbn [complaint path_from_expr]; destruct (path_value (lit "fmt") before) eqn:EW; cbn [on];
      split; try reflexivity; intros er He; try discriminate He; unfold field_view; rewrite ?EW; reflexivity. }
  destruct (bseqb t (lit "option")) eqn:E3.
  { apply bseqb_eq in E3. subst t. cbn [fst snd]. unfold add_value. rewrite good_bool.
    assert (HV : forall k', field_view (before ++ [{| mt_path := PIdent {| id_raw := false; id_text := lit "option" |}; mt_kind := k' |}])
      = {| fm_encoded := word (lit "encoded") before; fm_fmt := path_value (lit "fmt") before;
           fm_option := match bool_value (lit "option") before with Some y => Some y | None => match k' with MkNameValue (EBool p) => Some p | _ => None end end;
           fm_rename := name_value (lit "rename") before; fm_skip := word (lit "skip") before; fm_skip_if := path_value (lit "skip_if") before |}).
    { intros k'. rewrite view_snoc. f_equal; try apply orb_false_r; try (solve_opt; reflexivity).
      destruct (bool_value (lit "option") before); [reflexivity|]. destruct k' as [| |[]]; reflexivity. }
    rewrite HV. cbn [fm_option field_view].
    destruct k as [| |[]]; cbn [complaint bool_from_expr]; destruct (bool_value (lit "option") before) eqn:EW; cbn [on];
      split; try reflexivity; intros er He; try discriminate He; unfold field_view; rewrite ?EW; reflexivity. }
  destruct (bseqb t (lit "rename")) eqn:E4.
  { apply bseqb_eq in E4. subst t. cbn [fst snd]. unfold add_value. rewrite good_name.
    assert (HV : forall k', field_view (before ++ [{| mt_path := PIdent {| id_raw := false; id_text := lit "rename" |}; mt_kind := k' |}])
      = {| fm_encoded := word (lit "encoded") before; fm_fmt := path_value (lit "fmt") before; fm_option := bool_value (lit "option") before;
           fm_rename := match name_value (lit "rename") before with Some y => Some y
             | None => match k' with MkNameValue (EStr p) => if forallb unreserved p then Some p else None | _ => None end end;
           fm_skip := word (lit "skip") before; fm_skip_if := path_value (lit "skip_if") before |}).
    { intros k'. rewrite view_snoc. f_equal; try apply orb_false_r; try (solve_opt; reflexivity).
      destruct (name_value (lit "rename") before); [reflexivity|]. destruct k' as [| |[]]; try reflexivity. cbn.
      destruct (forallb unreserved s); reflexivity. }
    rewrite HV. cbn [fm_rename field_view].
    destruct k as [| |[]]; cbn [complaint uri_safe_from_expr]; rewrite ?forallb_safe; try destruct (forallb unreserved s);
      destruct (name_value (lit "rename") before) eqn:EW; cbn [on];
      split; try reflexivity; intros er He; try discriminate He; unfold field_view; rewrite ?EW; reflexivity. }
  destruct (bseqb t (lit "skip")) eqn:E5.
  { apply bseqb_eq in E5. subst t. cbn [fst snd]. unfold add_word.
    assert (HV : forall k', field_view (before ++ [{| mt_path := PIdent {| id_raw := false; id_text := lit "skip" |}; mt_kind := k' |}])
      = {| fm_encoded := word (lit "encoded") before;
           fm_fmt := path_value (lit "fmt") before; fm_option := bool_value (lit "option") before;
           fm_rename := name_value (lit "rename") before; fm_skip := word (lit "skip") before || match k' with MkPath => true | _ => false end;
           fm_skip_if := path_value (lit "skip_if") before |}).
    { intros k'. rewrite view_snoc. f_equal; try (solve_opt; reflexivity); [apply orb_false_r|]. f_equal. destruct k'; reflexivity. }
    rewrite HV. change (existsb (good (lit "skip") AWord) before) with (word (lit "skip") before).
    cbn [fm_skip field_view]. destruct k; cbn [complaint]; [destruct (word (lit "skip") before) eqn:EW|..]; cbn [on orb];
      split; try reflexivity; intros er He; try discriminate He; unfold field_view; rewrite ?EW, ?orb_false_r; reflexivity. }
  destruct (bseqb t (lit "skip_if")) eqn:E6.
  { apply bseqb_eq in E6. subst t. cbn [fst snd]. unfold add_value. rewrite good_path.
    assert (HV : forall k', field_view (before ++ [{| mt_path := PIdent {| id_raw := false; id_text := lit "skip_if" |}; mt_kind := k' |}])
      = {| fm_encoded := word (lit "encoded") before; fm_fmt := path_value (lit "fmt") before;
           fm_option := bool_value (lit "option") before;
           fm_rename := name_value (lit "rename") before; fm_skip := word (lit "skip") before;
           fm_skip_if := match path_value (lit "skip_if") before with Some y => Some y | None => match k' with MkNameValue (EPath p) => Some p | _ => None end end |}).
    { intros k'. rewrite view_snoc. f_equal; try apply orb_false_r; try (solve_opt; reflexivity).
      destruct (path_value (lit "skip_if") before); [reflexivity|]. destruct k' as [| |[]]; reflexivity. }
    rewrite HV. cbn [fm_skip_if field_view].
    destruct k as [| |[]]; cbn [complaint path_from_expr]; destruct (path_value (lit "skip_if") before) eqn:EW; cbn [on];
      split; try reflexivity; intros er He; try discriminate He; unfold field_view; rewrite ?EW; reflexivity. }
  split; [reflexivity|]. intros e _. now apply field_view_same.
Qed.

Lemma meta_new_field : forall sy attrs cx,
  meta_new sy FieldMeta_default FieldMeta_add attrs cx
  = (field_view (metas sy attrs), report cx (faults field_attributes [] (items sy attrs))).
Proof.
  intros. rewrite meta_new_items. change FieldMeta_default with (field_view []).
  apply (fold_items FieldMeta_add field_view field_attributes).
  - intros before m. now apply FieldMeta_add_spec.
  - intros before m. now apply FieldMeta_add_spec.
Qed.

Lemma crate_snoc : forall before m, path_value (lit "crate") (before ++ [m])
  = match path_value (lit "crate") before with Some y => Some y | None => path_value (lit "crate") [m] end.
Proof. intros. apply first_some_app. Qed.

Lemma container_add_spec : forall before m,
  ContainerMeta_add (path_value (lit "crate") before) m
  = match fault container_attributes before m with Some e => inr e | None => inl (path_value (lit "crate") (before ++ [m])) end
  /\ (forall e, fault container_attributes before m = Some e -> path_value (lit "crate") (before ++ [m]) = path_value (lit "crate") before).
Proof.
  intros before [p k]. rewrite crate_snoc. destruct p as [i|t].
  2: { split; [reflexivity|]. intros e _. cbn [path_value first_some named mt_path]. solve_opt; reflexivity. }
  unfold ContainerMeta_add. cbn [mt_path mt_kind get_ident]. rewrite !ident_name by exact I.
  unfold fault, container_attributes. cbn [find fst snd mt_path mt_kind]. rewrite !named_ident.
  assert (HO : path_value (lit "crate") [{| mt_path := PIdent i; mt_kind := k |}]
    = if negb (id_raw i) && bseqb (id_text i) (lit "crate") then match k with MkNameValue (EPath p) => Some p | _ => None end else None).
  { cbn [path_value first_some]. rewrite named_ident. cbn [mt_kind]. destruct (_ && _); [|reflexivity]. destruct k as [| |[]]; reflexivity. }
  rewrite HO. destruct (negb (id_raw i) && bseqb (id_text i) (lit "crate")).
  - cbn [fst snd]. unfold add_value. rewrite good_path.
    destruct k as [| |[]]; cbn [complaint path_from_expr]; destruct (path_value (lit "crate") before) eqn:EW;
      (split; [reflexivity|]); intros er He; try discriminate He; reflexivity.
  - split; [reflexivity|]. intros e _. destruct (path_value (lit "crate") before); reflexivity.
Qed.

Lemma meta_new_container : forall sy attrs cx,
  meta_new sy None ContainerMeta_add attrs cx
  = (path_value (lit "crate") (metas sy attrs), report cx (faults container_attributes [] (items sy attrs))).
Proof.
  intros. rewrite meta_new_items. change (@None bytes) with (path_value (lit "crate") []).
  apply (fold_items ContainerMeta_add (path_value (lit "crate")) container_attributes).
  - intros before m. now apply container_add_spec.
  - intros before m. now apply container_add_spec.
Qed.

(** ** Fields *)

Definition field_of_syn (sy : syn) (f : syn_field) : Field :=
  {| fd_ident := {| id_raw := false; id_text := id_text (sf_ident f) |}; fd_ty := sf_ty f;
     fd_meta := field_view (metas sy (sf_attrs f)) |}.

Definition field_faults (sy : syn) (f : syn_field) : list error := faults field_attributes [] (items sy (sf_attrs f)).

Lemma new_fields_spec : forall sy l cx,
  new_fields sy l cx = (map (field_of_syn sy) l, report cx (flat_map (field_faults sy) l)).
Proof.
  intros sy. induction l as [|f l IH]; intros cx; [reflexivity|].
  cbn [new_fields map flat_map]. unfold Field_new. rewrite meta_new_field. rewrite IH, report_app. reflexivity.
Qed.

Lemma field_name_spec : forall sy f, Field_name (field_of_syn sy f) = param_name sy f.
Proof. reflexivity. Qed.

(** ** Names *)

Fixpoint dups (prev : bytes) (ns : list bytes) : list bytes :=
  match ns with
  | [] => []
  | n :: ns' => if bseqb n prev then n :: dups n ns' else dups n ns'
  end.

Lemma check_names_spec : forall fs prev cx,
  check_names prev fs cx = report cx (map DuplicateParameter (dups prev (map Field_name fs))).
Proof.
  induction fs as [|f fs IH]; intros prev cx; [reflexivity|].
  cbn [check_names map dups]. rewrite IH. destruct (bseqb (Field_name f) prev); reflexivity.
Qed.

Lemma insert_perm : forall f l, Permutation (insert_field f l) (f :: l).
Proof.
  intros f. induction l as [|g l IH]; [reflexivity|]. cbn [insert_field]. destruct (bleb _ _); [reflexivity|].
  rewrite IH. apply perm_swap.
Qed.

Lemma sort_perm : forall l, Permutation (sort_fields l) l.
Proof. induction l as [|f l IH]; [reflexivity|]. cbn [sort_fields]. rewrite insert_perm. now constructor. Qed.

Lemma insert_sorted : forall f l, ascending (map Field_name l) -> ascending (map Field_name (insert_field f l)).
Proof.
  unfold ascending. intros f. induction l as [|g l IH]; intros H; [repeat constructor|].
  cbn [insert_field]. cbn [map] in H. inversion H; subst. destruct (bleb (Field_name f) (Field_name g)) eqn:E.
  - cbn [map]. constructor; [exact H|]. constructor; [exact E|]. revert H3. apply Forall_impl. intros a. apply bleb_trans. exact E.
  - cbn [map]. constructor; [auto|].
    assert (P : Permutation (map Field_name (insert_field f l)) (Field_name f :: map Field_name l)).
    { rewrite (Permutation_map Field_name (insert_perm f l)). reflexivity. }
    apply Permutation_sym in P. apply (Permutation_Forall P). constructor; auto.
    destruct (bleb_total (Field_name f) (Field_name g)) as [X|X]; congruence.
Qed.

Lemma sort_sorted : forall l, ascending (map Field_name (sort_fields l)).
Proof. induction l as [|f l IH]; [constructor|]. cbn [sort_fields]. now apply insert_sorted. Qed.

Lemma sorted_unique : forall (l1 l2 : list bytes), Permutation l1 l2 -> ascending l1 -> ascending l2 -> l1 = l2.
Proof.
  unfold ascending. induction l1 as [|x l1 IH]; intros l2 P H1 H2.
  - apply Permutation_nil in P. now subst.
  - destruct l2 as [|y l2]; [apply Permutation_sym, Permutation_nil in P; discriminate|].
    inversion H1; subst. inversion H2; subst. rewrite Forall_forall in H4, H6.
    assert (x = y).
    { assert (Ix : In x (y :: l2)) by (eapply Permutation_in; [exact P|now left]).
      assert (Iy : In y (x :: l1)) by (eapply Permutation_in; [apply Permutation_sym; exact P|now left]).
      destruct Ix as [->|Ix]; [reflexivity|]. destruct Iy as [->|Iy]; [reflexivity|].
      apply bleb_antisym; auto. }
    subst y. f_equal. apply IH; auto. eapply Permutation_cons_inv; exact P.
Qed.

(** No duplicates found means strictly ascending names. *)
Lemma dups_nil : forall ns prev, ascending ns -> dups prev ns = [] -> strictly_ascending ns.
Proof.
  unfold ascending, strictly_ascending. induction ns as [|n ns IH]; intros prev HA HD; [constructor|].
  cbn [dups] in HD. inversion HA; subst. destruct (bseqb n prev); [discriminate|].
  pose proof (IH n H1 HD) as HS. constructor; [exact HS|].
  destruct ns as [|m ns]; [constructor|]. cbn [dups] in HD. destruct (bseqb m n) eqn:E; [discriminate|].
  inversion H2; subst.
  assert (L : bltb n m = true).
  { rewrite bltb_negb_bleb. apply negb_true_iff. destruct (bleb m n) eqn:E'; [|reflexivity].
    rewrite (bleb_antisym _ _ E' H3), bseqb_refl in E. discriminate. }
  inversion HS as [|? ? HS1 HS2]; subst. constructor; [exact L|]. revert HS2. apply Forall_impl. intros a Ha.
  eapply bltb_trans; eauto.
Qed.

Lemma strictly_nodup : forall ns, strictly_ascending ns -> NoDup ns.
Proof.
  unfold strictly_ascending. induction ns as [|n ns IH]; intros H; [constructor|]. inversion H; subst. constructor; auto.
  intros I. rewrite Forall_forall in H3. pose proof (H3 _ I) as L. rewrite bltb_negb_bleb, bleb_refl in L. discriminate.
Qed.

Definition count (n : bytes) (ns : list bytes) : nat := length (filter (bseqb n) ns).

Lemma count_zero : forall n ns, ~ In n ns -> count n ns = 0.
Proof.
  intros n. unfold count. induction ns as [|m ns IH]; intros H; [reflexivity|]. cbn [filter]. destruct (bseqb n m) eqn:E.
  - exfalso. apply H. left. symmetry. now apply bseqb_eq.
  - apply IH. intros I. apply H. now right.
Qed.

Lemma count_cons : forall n m ns, count n (m :: ns) = (if bseqb n m then 1 else 0) + count n ns.
Proof. intros. unfold count. cbn [filter]. destruct (bseqb n m); reflexivity. Qed.

Lemma bseqb_sym : forall a b, bseqb a b = bseqb b a.
Proof.
  intros a b. destruct (bseqb a b) eqn:E.
  - apply bseqb_eq in E. subst. symmetry. apply bseqb_refl.
  - destruct (bseqb b a) eqn:E'; [|reflexivity]. apply bseqb_eq in E'. subst. now rewrite bseqb_refl in E.
Qed.

(** How often a name is reported. *)
Lemma dups_count : forall ns prev n, ascending ns -> Forall (fun m => bleb prev m = true) ns ->
  count n (dups prev ns) = if bseqb n prev then count n ns else pred (count n ns).
Proof.
  unfold ascending. induction ns as [|m ns IH]; intros prev n HA HP; [cbn; destruct (bseqb n prev); reflexivity|].
  inversion HA; subst. inversion HP; subst. cbn [dups]. specialize (IH m n H1 H2).
  destruct (bseqb m prev) eqn:E.
  - apply bseqb_eq in E. subst m. rewrite !count_cons, IH. destruct (bseqb n prev) eqn:E2; [reflexivity|]. reflexivity.
  - rewrite IH, count_cons. destruct (bseqb n m) eqn:E2.
    + apply bseqb_eq in E2. subst m. rewrite E. reflexivity.
    + destruct (bseqb n prev) eqn:E3; [|reflexivity]. apply bseqb_eq in E3. subst prev.
      rewrite count_zero; [reflexivity|]. intros I. rewrite Forall_forall in H2, H4.
      assert (m = n) by (apply bleb_antisym; [now apply H2|exact H3]). subst. rewrite bseqb_refl in E2. discriminate.
Qed.

(** ** The generated statements *)

Definition proto_stmt (p : proto) : stmt := SOAuth (lit "serialize_" ++ proto_key p).

Fixpoint merge_stmts (ps : list proto) (fs : list Field) : list stmt :=
  match fs with
  | [] => map proto_stmt ps
  | f :: fs' => map proto_stmt (take_lt (Field_name f) ps) ++ field_stmt f :: merge_stmts (drop_lt (Field_name f) ps) fs'
  end.

Lemma oauth_stmt_spec : forall p ps, suffix (p :: ps) -> oauth_stmt (op_of (p :: ps)) = Ok (proto_stmt p).
Proof. intros p ps _. destruct p; reflexivity. Qed.

Lemma body_before_spec : forall dbg k ps fuel, suffix ps -> length ps <= fuel ->
  body_before dbg fuel k (op_of ps) = Ok (op_of (drop_lt k ps), map proto_stmt (take_lt k ps)).
Proof.
  intros dbg k. induction ps as [|p ps IH]; intros fuel HS HF.
  - destruct fuel; reflexivity.
  - destruct fuel as [|fuel]; [simpl in HF; lia|]. cbn [body_before take_lt drop_lt]. rewrite op_lt_cons by auto.
    destruct (bltb (proto_key p) k); [|reflexivity]. rewrite oauth_stmt_spec by auto. cbn [rbind].
    destruct (op_of_cons dbg p ps HS) as [-> _]. cbn [rbind]. rewrite IH; [reflexivity| |].
    + eapply suffix_tail; eauto.
    + simpl in HF. lia.
Qed.

Lemma body_rest_spec : forall dbg ps fuel, suffix ps -> length ps <= fuel ->
  body_rest dbg fuel (op_of ps) = Ok (map proto_stmt ps).
Proof.
  intros dbg. induction ps as [|p ps IH]; intros fuel HS HF.
  - destruct fuel; reflexivity.
  - destruct fuel as [|fuel]; [simpl in HF; lia|]. destruct (op_of_cons dbg p ps HS) as [H1 [_ [H3 _]]].
    cbn [body_rest]. rewrite H3. rewrite oauth_stmt_spec by auto. cbn [rbind]. rewrite H1. cbn [rbind]. rewrite IH; [reflexivity| |].
    + eapply suffix_tail; eauto.
    + simpl in HF. lia.
Qed.

Definition unskipped (l : list Field) : list Field := filter (fun f => negb (fm_skip (fd_meta f))) l.

Lemma method_body_spec : forall dbg fs, method_body dbg fs = Ok (merge_stmts all_protos (unskipped fs)).
Proof.
  intros dbg fs. unfold method_body.
  assert (HS : suffix all_protos) by (exists []; reflexivity).
  change OAuthParameter_default with (op_of all_protos). revert HS. generalize all_protos.
  induction fs as [|f fs IH]; intros ps HS.
  - cbn [body_loop rbind unskipped filter merge_stmts]. rewrite body_rest_spec; auto. apply suffix_length in HS. lia.
  - cbn [body_loop unskipped filter]. destruct (fm_skip (fd_meta f)); cbn [negb]; [now apply IH|].
    rewrite body_before_spec by (auto; apply suffix_length in HS; lia). cbn [rbind merge_stmts].
    specialize (IH (drop_lt (Field_name f) ps) (suffix_drop _ _ HS)).
    destruct (body_loop dbg fs (op_of (drop_lt (Field_name f) ps))) as [[p rest]|e]; [|discriminate IH]. cbn [rbind] in *.
    destruct (body_rest dbg 9 p) as [r|e]; [|discriminate IH]. cbn [rbind] in *. inversion IH as [X]. unfold unskipped in X. rewrite <- X.
    now rewrite <- app_assoc.
Qed.

(** ** Running them *)

Lemma exec_all_app : forall {V} (pg : program V) self {S : Serializer} a b (s : S) r,
  exec_all pg self a s = Some r ->
  exec_all pg self (a ++ b) s = match r with Ok s => exec_all pg self b s | Panic e => Some (Panic e) end.
Proof.
  intros V pg self S. induction a as [|st a IH]; intros b s r H.
  - inversion H; subst. reflexivity.
  - cbn [exec_all app] in *. destruct (exec pg self st None s) as [[s1|e]|]; [|inversion H; reflexivity|discriminate H]. now apply IH.
Qed.

Lemma exec_proto : forall {V} (pg : program V) self {S : Serializer} p (s : S),
  exec pg self (proto_stmt p) None s = Some (run_call (CProto p) s).
Proof. intros. destruct p; reflexivity. Qed.

Lemma exec_protos : forall {V} (pg : program V) self {S : Serializer} ps (s : S),
  exec_all pg self (map proto_stmt ps) s = Some (run_calls (map CProto ps) s).
Proof.
  intros V pg self S. induction ps as [|p ps IH]; intros s; [reflexivity|].
  cbn [map exec_all run_calls]. rewrite exec_proto. destruct (run_call (CProto p) s) as [s1|]; cbn [rbind]; auto.
Qed.

Fixpoint merge_gen (ps : list proto) (l : list (bytes * list call)) : list call :=
  match l with
  | [] => map CProto ps
  | (k, cs) :: l' => map CProto (take_lt k ps) ++ cs ++ merge_gen (drop_lt k ps) l'
  end.

(** A field runs as the calls [cs]. *)
Definition runs {V} (pg : program V) (self : struct_value V) (f : Field) (cs : list call) : Prop :=
  forall (S : Serializer) (s : S), exec pg self (field_stmt f) None s = Some (run_calls cs s).

Lemma exec_merge : forall {V} (pg : program V) self fs cls, Forall2 (runs pg self) fs cls ->
  forall (S : Serializer) ps (s : S),
  exec_all pg self (merge_stmts ps fs) s = Some (run_calls (merge_gen ps (combine (map Field_name fs) cls)) s).
Proof.
  intros V pg self fs cls H S. induction H as [|f cs fs cls Hr HF IH]; intros ps s.
  - apply exec_protos.
  - cbn [merge_stmts map combine merge_gen]. erewrite exec_all_app by apply exec_protos. rewrite run_calls_app.
    destruct (run_calls (map CProto (take_lt (Field_name f) ps)) s) as [s1|e]; cbn [rbind]; [|reflexivity].
    cbn [exec_all]. rewrite Hr, run_calls_app. destruct (run_calls cs s1) as [s2|e]; cbn [rbind]; [|reflexivity]. apply IH.
Qed.

Lemma option_type_spec : forall t, option_type t <-> is_option t = true.
Proof.
  intros t. split.
  - intros H. induction H; [reflexivity|exact IHoption_type].
  - induction t as [t IH|lead segs|]; cbn [is_option]; intros H; [constructor; auto| |discriminate].
    destruct segs as [|[i args] [|]]; try discriminate. apply andb_prop in H as [H1 H2]. apply andb_prop in H1 as [H0 H1].
    destruct args as [|n|]; try discriminate. apply Nat.eqb_eq in H2. subst n. rewrite ident_name in H1 by exact I.
    destruct i as [[] t]; [discriminate|]. cbn [id_raw id_text negb andb] in H1. apply bseqb_eq in H1. subst t.
    destruct lead; [discriminate|]. constructor.
Qed.

Lemma treated_spec : forall sy f, treated_as_option sy f <-> ty_is_option (field_of_syn sy f) = true.
Proof.
  intros sy f. unfold treated_as_option, ty_is_option. cbn [field_of_syn fd_meta field_view fm_option fd_ty].
  destruct (bool_value (lit "option") (metas sy (sf_attrs f))) as [b|].
  - split; [intros [H|[H _]]; congruence|]. intros ->. now left.
  - split; [intros [H|[_ H]]; [discriminate|]; now apply option_type_spec|]. intros H. right. split; auto. now apply option_type_spec.
Qed.

Lemma emits_runs : forall {V} (pg : program V) self sy f cs,
  emits pg self sy f cs -> skipped sy f = false -> is_keyword (id_text (sf_ident f)) = false ->
  runs pg self (field_of_syn sy f) cs.
Proof.
  intros V pg self sy f cs H HS HK S s.
  assert (FA : field_access self {| id_raw := false; id_text := id_text (sf_ident f) |} = self (id_text (sf_ident f))).
  { unfold field_access. cbn [id_raw id_text negb andb]. now rewrite HK. }
  set (F := field_of_syn sy f).
  (* the statement that serializes *)
  assert (SER : forall (tmp : vexpr) bind v d, eval_v self bind tmp = Some v -> formatted pg sy f v d ->
    exec pg self (SSerialize (if fm_encoded (fd_meta F) then lit "serialize_parameter_encoded" else lit "serialize_parameter")
       (Field_name F) (fm_fmt (fd_meta F)) tmp) bind s
    = Some (run_call (if word (lit "encoded") (metas sy (sf_attrs f)) then CParamEnc (param_name sy f) d else CParam (param_name sy f) d) s)).
  { intros tmp bind v d HE HF. cbn [exec]. rewrite HE. unfold F. rewrite field_name_spec.
    cbn [field_of_syn fd_meta field_view fm_encoded fm_fmt]. unfold formatted in HF.
    destruct (word (lit "encoded") (metas sy (sf_attrs f))); cbn [run_call];
      (change (parameter_method (lit "serialize_parameter_encoded")) with (Some (@sr_parameter_encoded S))
       || change (parameter_method (lit "serialize_parameter")) with (Some (@sr_parameter S)));
      (destruct (path_value (lit "fmt") (metas sy (sf_attrs f))) as [p|]; [destruct HF as [g [-> ->]]; reflexivity|now subst d]). }
  (* with skip_if around it *)
  assert (SKIP : forall (tmp : vexpr) bind v d b, eval_v self bind tmp = Some v -> formatted pg sy f v d -> skip_if_says pg sy f v b ->
    exec pg self (match fm_skip_if (fd_meta F) with
       | Some skip_if => SIfNot skip_if tmp (SSerialize (if fm_encoded (fd_meta F) then lit "serialize_parameter_encoded" else lit "serialize_parameter")
            (Field_name F) (fm_fmt (fd_meta F)) tmp)
       | None => SSerialize (if fm_encoded (fd_meta F) then lit "serialize_parameter_encoded" else lit "serialize_parameter")
            (Field_name F) (fm_fmt (fd_meta F)) tmp end) bind s
    = Some (run_calls (if b then [] else [if word (lit "encoded") (metas sy (sf_attrs f)) then CParamEnc (param_name sy f) d else CParam (param_name sy f) d]) s)).
  { intros tmp bind v d b HE HF HB. pose proof (SER tmp bind v d HE HF) as X. unfold skip_if_says in HB.
    change (fm_skip_if (fd_meta F)) with (path_value (lit "skip_if") (metas sy (sf_attrs f))).
    destruct (path_value (lit "skip_if") (metas sy (sf_attrs f))) as [p|].
    - destruct HB as [g [HG Hb]]. cbn [exec]. cbn [exec] in X. rewrite HG, HE. rewrite HE in X. rewrite X. rewrite Hb. cbn [rbind].
      destruct b; cbn [negb]; [reflexivity|]. f_equal. cbn [run_calls].
      match goal with |- ?x = _ => destruct x; reflexivity end.
    - subst b. rewrite X. f_equal. cbn [run_calls]. match goal with |- ?x = _ => destruct x; reflexivity end. }
  assert (ENTER : forall (o : option V) d b, contributes pg self sy f o ->
      match o with Some v => formatted pg sy f v d /\ skip_if_says pg sy f v b | None => b = true end ->
    exec pg self (field_stmt F) None s
    = Some (run_calls (if b then [] else [if word (lit "encoded") (metas sy (sf_attrs f)) then CParamEnc (param_name sy f) d else CParam (param_name sy f) d]) s)).
  { intros o d b HC Ho. unfold field_stmt. inversion HC as [v HT HV E|v x HT HV HO E|v HT HV HO E]; subst o.
    - destruct Ho as [HF HB]. destruct (ty_is_option F) eqn:ET; [exfalso; apply HT, treated_spec; exact ET|].
      pose proof (SKIP (VField (fd_ident F)) None v d b) as X.
      assert (HE : eval_v self None (VField (fd_ident F)) = Some v) by (cbn [eval_v]; unfold F; cbn [field_of_syn fd_ident]; now rewrite FA).
      specialize (X HE HF HB). destruct (fm_skip_if (fd_meta F)); [exact X|]. cbn [exec]. exact X.
    - destruct Ho as [HF HB]. apply treated_spec in HT. fold F in HT. rewrite HT.
      pose proof (SKIP VBind (Some x) x d b eq_refl HF HB) as X.
      assert (Y : forall body, exec pg self (SIfSome (fd_ident F) body) None s = exec pg self body (Some x) s).
      { intros body. cbn [exec]. unfold F. cbn [field_of_syn fd_ident]. rewrite FA, HV, HO. reflexivity. }
      destruct (fm_skip_if (fd_meta F)); rewrite Y; exact X.
    - subst b. apply treated_spec in HT. fold F in HT. rewrite HT.
      assert (Y : forall body, exec pg self (SIfSome (fd_ident F) body) None s = Some (Ok s)).
      { intros body. cbn [exec]. unfold F. cbn [field_of_syn fd_ident]. rewrite FA, HV, HO. reflexivity. }
      destruct (fm_skip_if (fd_meta F)); rewrite Y; reflexivity. }
  inversion H as [H1|H1 H2|v d H1 H2 H3 H4|v d H1 H2 H3 H4]; subst cs.
  - congruence.
  - apply (ENTER None (dstr []) true H2 eq_refl).
  - apply (ENTER (Some v) d true H2 (conj H4 H3)).
  - apply (ENTER (Some v) d false H2 (conj H4 H3)).
Qed.

(** ** What the merged calls contain *)

Lemma merge_gen_protos : forall l ps, Forall (fun kc => call_protos (snd kc) = []) l -> call_protos (merge_gen ps l) = ps.
Proof.
  induction l as [|[k cs] l IH]; intros ps H; cbn [merge_gen]; [apply call_protos_map|]. inversion H; subst.
  rewrite !call_protos_app, call_protos_map. cbn [snd] in H2. rewrite H2, IH by auto. apply take_drop.
Qed.

Lemma filter_protos : forall ps, filter is_param (map CProto ps) = [].
Proof. induction ps; simpl; auto. Qed.

Lemma merge_gen_params : forall l ps, Forall (fun kc => filter is_param (snd kc) = snd kc) l ->
  filter is_param (merge_gen ps l) = flat_map snd l.
Proof.
  induction l as [|[k cs] l IH]; intros ps H; cbn [merge_gen flat_map]; [apply filter_protos|]. inversion H; subst.
  rewrite !filter_app, filter_protos, IH by auto. cbn [snd app] in *. now rewrite H2.
Qed.

Lemma merge_gen_keys_in : forall l ps x, Forall (fun kc => Forall (fun c => call_key c = fst kc) (snd kc)) l ->
  In x (map call_key (merge_gen ps l)) -> In x (map fst l) \/ In x (map proto_key ps).
Proof.
  induction l as [|[k cs] l IH]; intros ps x HK; cbn [merge_gen map fst].
  - rewrite map_map. cbn. auto.
  - inversion HK; subst. rewrite !map_app, !in_app_iff, map_map. cbn. intros [H|[H|H]].
    + right. rewrite <- (take_drop k ps), map_app, in_app_iff. auto.
    + left. left. apply in_map_iff in H as [c [Hc Ic]]. cbn [fst snd] in H1. rewrite Forall_forall in H1. rewrite <- Hc. symmetry. auto.
    + apply IH in H as [H|H]; auto. right. rewrite <- (take_drop k ps), map_app, in_app_iff. auto.
Qed.

Lemma const_ascending : forall k l, Forall (fun x => x = k) l -> ascending l.
Proof.
  unfold ascending. induction l as [|x l IH]; intros H; [constructor|]. inversion H; subst. constructor; auto.
  revert H3. apply Forall_impl. intros a ->. apply bleb_refl.
Qed.

Lemma merge_gen_ascending : forall l ps, suffix ps -> ascending (map fst l) ->
  Forall (fun kc => Forall (fun c => call_key c = fst kc) (snd kc)) l ->
  ascending (map call_key (merge_gen ps l)).
Proof.
  induction l as [|[k cs] l IH]; intros ps HS HL HK.
  - cbn. rewrite map_map. cbn. now apply suffix_ascending.
  - inversion HK; subst. cbn [map fst] in HL. inversion HL; subst. cbn [merge_gen]. rewrite !map_app, map_map. cbn [call_key].
    cbn [fst snd] in H1. rewrite Forall_forall in H4.
    assert (HD : forall y, In y (map call_key (merge_gen (drop_lt k ps) l)) -> bleb k y = true).
    { intros y Hy. apply merge_gen_keys_in in Hy as [Hy|Hy]; auto. apply in_map_iff in Hy as [p [<- Hp]].
      eapply in_drop_lt; eauto. }
    assert (HC : forall y, In y (map call_key cs) -> y = k).
    { intros y Hy. apply in_map_iff in Hy as [c [<- Ic]]. rewrite Forall_forall in H1. auto. }
    assert (HT : forall y, In y (map proto_key (take_lt k ps)) -> bleb y k = true).
    { intros y Hy. apply in_map_iff in Hy as [p [<- Hp]]. apply bltb_bleb. now apply in_take_lt in Hp. }
    apply ascending_app. split; [|split].
    + pose proof (suffix_ascending ps HS) as A. rewrite <- (take_drop k ps), map_app in A. now apply ascending_app in A.
    + apply ascending_app. split; [|split].
      * apply (const_ascending k). rewrite Forall_forall. exact HC.
      * apply IH; auto. now apply suffix_drop.
      * intros x y Hx Hy. rewrite (HC x Hx). auto.
    + intros x y Hx Hy. apply in_app_iff in Hy as [Hy|Hy].
      * rewrite (HC y Hy). auto.
      * eapply bleb_trans; [apply HT; exact Hx|]. auto.
Qed.

(** ** The outcome of the macro *)

Definition crate_choice (sy : syn) (found : found_crate) (attrs : list attr) : crate_ref * list error :=
  match path_value (lit "crate") (metas sy attrs), found with
  | Some p, _ => (UsePath p, [])
  | None, CrateName k => (ExternCrate k, [])
  | None, CrateError => (ExternCrate (lit "oauth1_request"), [CrateNotFound])
  | None, CratePanic => (ExternCrate (lit "oauth1_request"), [CrateNotFound])
  end.
Definition crate_panics (sy : syn) (found : found_crate) (attrs : list attr) : bool :=
  match path_value (lit "crate") (metas sy attrs), found with None, CratePanic => true | _, _ => false end.

Definition sorted_fields (sy : syn) (fs : list syn_field) : list Field := sort_fields (map (field_of_syn sy) fs).

Definition all_errors (sy : syn) (found : found_crate) (attrs : list attr) (fs : list syn_field) : list error :=
  flat_map (field_faults sy) fs ++ map DuplicateParameter (dups [] (map Field_name (sorted_fields sy fs)))
  ++ faults container_attributes [] (items sy attrs) ++ snd (crate_choice sy found attrs).

Lemma expand_spec : forall sy dbg found attrs fs,
  expand sy dbg found {| di_attrs := attrs; di_data := NamedFields fs |}
  = if crate_panics sy found attrs then Panic PCrateName else
    Ok match all_errors sy found attrs fs with
       | [] => Impl (fst (crate_choice sy found attrs)) (merge_stmts all_protos (unskipped (sorted_fields sy fs)))
       | es => Fallback es (fst (crate_choice sy found attrs))
       end.
Proof.
  intros sy dbg found attrs fs. unfold expand. cbn [di_data di_attrs]. rewrite new_fields_spec. fold (sorted_fields sy fs).
  rewrite check_names_spec, meta_new_container. rewrite <- !report_app. unfold Ctxt_new.
  unfold all_errors, crate_choice, crate_panics. rewrite method_body_spec. cbn [rbind].
  destruct (path_value (lit "crate") (metas sy attrs)) as [p|]; [|destruct found as [k| |]; [| |reflexivity]]; cbn [rbind].
  - cbn [fst snd]. rewrite report_none, ?app_nil_r, ?app_assoc. destruct (_ ++ _); reflexivity.
  - cbn [fst snd]. rewrite report_none, ?app_nil_r, ?app_assoc. destruct (_ ++ _); reflexivity.
  - cbn [fst snd]. match goal with |- context [add_error ?c CrateNotFound] => change (add_error c CrateNotFound) with (report c [CrateNotFound]) end.
    rewrite <- report_app, report_none, ?app_assoc. destruct (_ ++ _); reflexivity.
Qed.

(** ** The calls of a derived request *)

Lemma Forall2_perm : forall {A B} (R : A -> B -> Prop) l l', Permutation l l' -> forall c, Forall2 R l c ->
  exists c', Permutation c c' /\ Forall2 R l' c'.
Proof.
  intros A B R l l' P. induction P as [|x l l' P IH|x y l|l1 l2 l3 P1 IH1 P2 IH2]; intros c H.
  - inversion H; subst. exists []. split; constructor.
  - inversion H as [|? b ? c0 Hb Hc]; subst. destruct (IH _ Hc) as [c' [PC HC]]. exists (b :: c'). split; [now constructor|now constructor].
  - inversion H as [|? b ? c0 Hb Hc]; subst. inversion Hc as [|? b' ? c1 Hb' Hc']; subst. exists (b' :: b :: c1). split; [apply perm_swap|].
    now repeat constructor.
  - destruct (IH1 _ H) as [c1 [PC1 H1]]. destruct (IH2 _ H1) as [c2 [PC2 H2]]. exists c2. split; [now rewrite PC1|exact H2].
Qed.

Lemma Permutation_concat : forall {A} (l l' : list (list A)), Permutation l l' -> Permutation (concat l) (concat l').
Proof.
  intros A l l' P. induction P as [|x l l' P IH|x y l|l1 l2 l3 P1 IH1 P2 IH2]; cbn [concat].
  - constructor.
  - now apply Permutation_app_head.
  - rewrite !app_assoc. apply Permutation_app_tail, Permutation_app_comm.
  - now rewrite IH1.
Qed.

Lemma emits_facts : forall {V} (pg : program V) self sy f cs, emits pg self sy f cs ->
  call_protos cs = [] /\ filter is_param cs = cs /\ Forall (fun c => call_key c = param_name sy f) cs /\ length cs <= 1.
Proof.
  intros V pg self sy f cs H. inversion H; subst; (split; [|split; [|split]]); cbn [length]; try reflexivity; try lia;
    try constructor; try constructor; destruct (word (lit "encoded") _); reflexivity.
Qed.

Definition of_field {V} (pg : program V) (self : struct_value V) (sy : syn) (fs : list syn_field) (F : Field) (cs : list call) : Prop :=
  exists f, In f fs /\ F = field_of_syn sy f /\ emits pg self sy f cs.

Lemma Forall2_of_field : forall {V} (pg : program V) self sy fs callss, Forall2 (emits pg self sy) fs callss ->
  Forall2 (of_field pg self sy fs) (map (field_of_syn sy) fs) callss.
Proof.
  intros V pg self sy fs callss H.
  assert (G : forall fs0 callss0, Forall2 (emits pg self sy) fs0 callss0 -> (forall f, In f fs0 -> In f fs) ->
    Forall2 (of_field pg self sy fs) (map (field_of_syn sy) fs0) callss0).
  { intros fs0 callss0 H0. induction H0; intros HI; cbn [map]; constructor.
    - exists x. split; [apply HI; now left|]. auto.
    - apply IHForall2. intros f Hf. apply HI. now right. }
  apply G; auto.
Qed.

Lemma Forall2_unskipped : forall {V} (pg : program V) self sy fs Fs callss, Forall2 (of_field pg self sy fs) Fs callss ->
  exists callss', Forall2 (of_field pg self sy fs) (unskipped Fs) callss' /\ concat callss' = concat callss.
Proof.
  intros V pg self sy fs Fs callss H. induction H as [|F cs Fs callss HF H [c' [IH1 IH2]]]; [exists []; split; constructor|].
  unfold unskipped. cbn [filter]. destruct (fm_skip (fd_meta F)) eqn:E; cbn [negb].
  - exists c'. split; [exact IH1|]. destruct HF as [f [_ [-> Hf]]]. cbn [concat].
    change (skipped sy f = true) in E. inversion Hf; subst; try congruence; try exact IH2.
  - exists (cs :: c'). split; [now constructor|]. cbn [concat]. now rewrite IH2.
Qed.

Lemma combine_facts : forall {V} (pg : program V) self sy fs Fs callss, Forall2 (of_field pg self sy fs) Fs callss ->
  let l := combine (map Field_name Fs) callss in
  map fst l = map Field_name Fs /\ flat_map snd l = concat callss
  /\ Forall (fun kc => call_protos (snd kc) = []) l
  /\ Forall (fun kc => filter is_param (snd kc) = snd kc) l
  /\ Forall (fun kc => Forall (fun c => call_key c = fst kc) (snd kc)) l
  /\ Forall (fun kc => length (snd kc) <= 1) l.
Proof.
  intros V pg self sy fs Fs callss H. induction H as [|F cs Fs callss HF H [I1 [I2 [I3 [I4 [I5 I6]]]]]]; [repeat split; constructor|].
  cbn [map combine fst snd flat_map concat]. destruct HF as [f [_ [-> Hf]]]. apply emits_facts in Hf as [F1 [F2 [F3 F4]]].
  rewrite I1, I2. repeat split; auto; constructor; auto.
Qed.

Lemma strict_calls : forall (l : list (bytes * list call)), strictly_ascending (map fst l) ->
  Forall (fun kc => Forall (fun c => call_key c = fst kc) (snd kc)) l -> Forall (fun kc => length (snd kc) <= 1) l ->
  strictly_ascending (map call_key (flat_map snd l)).
Proof.
  unfold strictly_ascending. induction l as [|[k cs] l IH]; intros HS HK HL; [constructor|].
  cbn [map fst] in HS. inversion HS as [|? ? HS1 HS2]; subst. inversion HK as [|? ? HK1 HK2]; subst. inversion HL as [|? ? HL1 HL2]; subst.
  cbn [flat_map snd fst] in *. destruct cs as [|c [|]]; [now apply IH| |cbn in HL1; lia]. cbn [app map]. constructor; [now apply IH|].
  inversion HK1; subst. rewrite Forall_forall in *. intros x Hx. apply in_map_iff in Hx as [c' [<- Hc]]. apply in_flat_map in Hc as [[k' cs'] [I1 I2]].
  specialize (HK2 _ I1). cbn [fst snd] in HK2. rewrite Forall_forall in HK2. rewrite (HK2 _ I2). apply HS2. apply in_map_iff.
  exists (k', cs'). auto.
Qed.

Lemma strictly_sub : forall (P : Field -> bool) Fs, strictly_ascending (map Field_name Fs) -> strictly_ascending (map Field_name (filter P Fs)).
Proof.
  unfold strictly_ascending. intros P. induction Fs as [|F Fs IH]; intros H; [constructor|]. cbn [map] in H. inversion H as [|? ? H1 H2]; subst.
  cbn [filter]. destruct (P F); [|now apply IH]. cbn [map]. constructor; [now apply IH|].
  rewrite Forall_forall in *. intros x Hx. apply H2. apply in_map_iff in Hx as [G [<- HG]]. apply filter_In in HG as [HG _]. now apply in_map.
Qed.

Lemma strictly_ascending_weak : forall l, strictly_ascending l -> ascending l.
Proof.
  unfold strictly_ascending, ascending. induction l as [|x l IH]; intros H; [constructor|]. inversion H as [|? ? H1 H2]; subst. constructor; auto.
  revert H2. apply Forall_impl. intros a. apply bltb_bleb.
Qed.

Lemma accepted_facts : forall sy dbg found attrs fs krate body,
  expand sy dbg found {| di_attrs := attrs; di_data := NamedFields fs |} = Ok (Impl krate body) ->
  all_errors sy found attrs fs = [] /\ krate = fst (crate_choice sy found attrs)
  /\ body = merge_stmts all_protos (unskipped (sorted_fields sy fs)).
Proof.
  intros sy dbg found attrs fs krate body H. rewrite expand_spec in H.
  destruct (crate_panics sy found attrs); [discriminate H|]. destruct (all_errors sy found attrs fs); [|discriminate H].
  inversion H; subst. auto.
Qed.

Lemma no_errors_no_panic : forall sy found attrs fs, all_errors sy found attrs fs = [] -> crate_panics sy found attrs = false.
Proof.
  intros sy found attrs fs H. unfold all_errors in H. apply app_eq_nil in H as [_ H]. apply app_eq_nil in H as [_ H].
  apply app_eq_nil in H as [_ H]. unfold crate_choice in H. unfold crate_panics.
  destruct (path_value _ _); [reflexivity|]. destruct found; [reflexivity|reflexivity|discriminate H].
Qed.

Lemma accepted_strict : forall sy found attrs fs, all_errors sy found attrs fs = [] -> strictly_ascending (map Field_name (sorted_fields sy fs)).
Proof.
  intros sy found attrs fs H. unfold all_errors in H. apply app_eq_nil in H as [_ H]. apply app_eq_nil in H as [H _]. apply map_eq_nil in H.
  eapply dups_nil; [apply sort_sorted|exact H].
Qed.

(** The code runs as the merge of the protocol parameters and what the fields emit. *)
Lemma derived_merge : forall {V} (pg : program V) self sy dbg found attrs fs krate body callss,
  expand sy dbg found {| di_attrs := attrs; di_data := NamedFields fs |} = Ok (Impl krate body) ->
  Forall2 (emits pg self sy) fs callss ->
  (forall f, In f fs -> skipped sy f = false -> is_keyword (id_text (sf_ident f)) = false) ->
  exists l,
    (forall (S : Serializer) (s : S), exec_body pg self body S s = Some (s <- run_calls (merge_gen all_protos l) s ;; sr_end s))
    /\ Permutation (flat_map snd l) (concat callss)
    /\ strictly_ascending (map fst l)
    /\ Forall (fun kc => call_protos (snd kc) = []) l
    /\ Forall (fun kc => filter is_param (snd kc) = snd kc) l
    /\ Forall (fun kc => Forall (fun c => call_key c = fst kc) (snd kc)) l
    /\ Forall (fun kc => length (snd kc) <= 1) l.
Proof.
  intros V pg self sy dbg found attrs fs krate body callss HE HF HK.
  apply accepted_facts in HE as [HE [_ HB]].
  pose proof (accepted_strict _ _ _ _ HE) as HS.
  apply Forall2_of_field in HF.
  destruct (Forall2_perm _ _ _ (Permutation_sym (sort_perm (map (field_of_syn sy) fs))) _ HF) as [c1 [P1 F1]].
  fold (sorted_fields sy fs) in F1. destruct (Forall2_unskipped _ _ _ _ _ _ F1) as [c2 [F2 E2]].
  pose proof (combine_facts _ _ _ _ _ _ F2) as [I1 [I2 [I3 [I4 [I5 I6]]]]].
  assert (FR : Forall2 (runs pg self) (unskipped (sorted_fields sy fs)) c2).
  { assert (G : forall Fs c, Forall2 (of_field pg self sy fs) Fs c -> (forall F, In F Fs -> fm_skip (fd_meta F) = false) -> Forall2 (runs pg self) Fs c).
    { intros Fs c H. induction H as [|F cs Fs c HF0 H IH]; intros HN; constructor.
      - destruct HF0 as [f [If [-> Hf]]].
        assert (SK : skipped sy f = false) by (apply (HN (field_of_syn sy f)); now left).
        apply emits_runs; auto.
      - apply IH. intros G HG. apply HN. now right. }
    apply G; [exact F2|]. intros F HI. unfold unskipped in HI. apply filter_In in HI as [_ HI]. now apply negb_true_iff in HI. }
  set (l := combine (map Field_name (unskipped (sorted_fields sy fs))) c2) in *.
  assert (SL : strictly_ascending (map fst l)) by (rewrite I1; now apply strictly_sub).
  exists l. split; [|split; [|auto 8]].
  - intros S s. unfold exec_body. rewrite HB, (exec_merge _ _ _ _ FR). reflexivity.
  - rewrite I2, E2. apply Permutation_concat. now apply Permutation_sym.
Qed.

Lemma derived_calls : forall {V} (pg : program V) self sy dbg found attrs fs krate body callss,
  expand sy dbg found {| di_attrs := attrs; di_data := NamedFields fs |} = Ok (Impl krate body) ->
  Forall2 (emits pg self sy) fs callss ->
  (forall f, In f fs -> skipped sy f = false -> is_keyword (id_text (sf_ident f)) = false) ->
  exists cs,
    (forall (S : Serializer) (s : S), exec_body pg self body S s = Some (s <- run_calls cs s ;; sr_end s))
    /\ Permutation (filter is_param cs) (concat callss)
    /\ call_protos cs = all_protos
    /\ ascending (map call_key cs)
    /\ strictly_ascending (map call_key (filter is_param cs)).
Proof.
  intros V pg self sy dbg found attrs fs krate body callss HE HF HK.
  destruct (derived_merge pg self sy dbg found attrs fs krate body callss HE HF HK) as [l [H1 [H2 [SL [I3 [I4 [I5 I6]]]]]]].
  exists (merge_gen all_protos l). split; [exact H1|split; [|split; [|split]]].
  - now rewrite merge_gen_params by exact I4.
  - now apply merge_gen_protos.
  - apply merge_gen_ascending; auto; [exists []; reflexivity|now apply strictly_ascending_weak].
  - rewrite merge_gen_params by exact I4. now apply strict_calls.
Qed.

(** ** Field order *)

Lemma names_perm : forall sy fs fs', Permutation fs fs' ->
  map Field_name (sorted_fields sy fs) = map Field_name (sorted_fields sy fs').
Proof.
  intros sy fs fs' P. apply sorted_unique; try apply sort_sorted. apply Permutation_map. unfold sorted_fields.
  rewrite !sort_perm. now apply Permutation_map.
Qed.

Lemma names_of_sorted : forall sy fs, Permutation (map Field_name (sorted_fields sy fs)) (map (param_name sy) fs).
Proof.
  intros sy fs. unfold sorted_fields. rewrite (Permutation_map Field_name (sort_perm _)). rewrite map_map. reflexivity.
Qed.

Lemma fields_unique : forall (l1 l2 : list Field), Permutation l1 l2 -> strictly_ascending (map Field_name l1) -> strictly_ascending (map Field_name l2) -> l1 = l2.
Proof.
  unfold strictly_ascending. induction l1 as [|x l1 IH]; intros l2 P H1 H2.
  - apply Permutation_nil in P. now subst.
  - destruct l2 as [|y l2]; [apply Permutation_sym, Permutation_nil in P; discriminate|].
    cbn [map] in *. inversion H1 as [|? ? A1 A2]; subst. inversion H2 as [|? ? B1 B2]; subst. rewrite Forall_forall in A2, B2.
    assert (x = y).
    { assert (Ix : In x (y :: l2)) by (eapply Permutation_in; [exact P|now left]).
      assert (Iy : In y (x :: l1)) by (eapply Permutation_in; [apply Permutation_sym; exact P|now left]).
      destruct Ix as [->|Ix]; [reflexivity|]. destruct Iy as [->|Iy]; [reflexivity|]. exfalso.
      assert (C1 := A2 _ (in_map Field_name _ _ Iy)). assert (C2 := B2 _ (in_map Field_name _ _ Ix)).
      pose proof (bltb_trans _ _ _ C1 C2) as C3. rewrite bltb_irrefl in C3. discriminate. }
    subst y. f_equal. apply IH; auto. eapply Permutation_cons_inv; exact P.
Qed.

Lemma flat_map_perm : forall {A B} (f : A -> list B) l l', Permutation l l' -> Permutation (flat_map f l) (flat_map f l').
Proof. intros A B f l l' P. rewrite !flat_map_concat_map. apply Permutation_concat. now apply Permutation_map. Qed.

Lemma errors_perm : forall sy found attrs fs fs', Permutation fs fs' ->
  Permutation (all_errors sy found attrs fs) (all_errors sy found attrs fs').
Proof.
  intros sy found attrs fs fs' P. unfold all_errors. rewrite (names_perm sy fs fs' P). apply Permutation_app_tail. now apply flat_map_perm.
Qed.
