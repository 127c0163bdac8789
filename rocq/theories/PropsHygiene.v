(** Property C76: names of the surrounding program and names in the generated code. *)
From Coq Require Import String.
From Coq Require Import Lia Arith Permutation Bool.
From Verif Require Import Bytes Spec MFmt MPercent MSerializer MRequest MDerive MHygiene SpecCalls SpecDerive LBytes LTrace LDerive
  LHygiene PropsDerive.

(** ** What the generated code needs *)

Definition attribute (sy : syn) (n : string) (f : syn_field) : option bytes := path_value (lit n) (metas sy (sf_attrs f)).

(** The local variables that it may define. *)
Definition binds (sy : syn) (fs : list syn_field) (x : bytes) : Prop :=
  x = lit "serializer"
  \/ (x = lit "helper" \/ x = lit "f")
     /\ (exists f p, In f fs /\ (attribute sy "fmt" f = Some p \/ attribute sy "skip_if" f = Some p))
  \/ x = lit "t" /\ (exists f p, In f fs /\ attribute sy "fmt" f = Some p)
  \/ x = lit "tmp" /\ (exists f, In f fs /\ skipped sy f = false)
  \/ x = lit "value" /\ (exists f, In f fs /\ skipped sy f = false /\ treated_as_option sy f)
  \/ x = lit "fmt" /\ (exists f p, In f fs /\ skipped sy f = false /\ attribute sy "fmt" f = Some p).

(** The types and traits of Rust's prelude that it may name. *)
Definition borrows (sy : syn) (fs : list syn_field) (t : bytes) : Prop :=
  In t [lit "Copy"; lit "Fn"; lit "Sized"] /\ (exists f p, In f fs /\ attribute sy "fmt" f = Some p)
  \/ In t [lit "Fn"; lit "Sized"; lit "bool"] /\ (exists f p, In f fs /\ attribute sy "skip_if" f = Some p).

(** The methods that it calls on the serializer and on its helper. *)
Definition called_on_serializer (sy : syn) (fs : list syn_field) (x : bytes) : Prop :=
  In x (map lit ["serialize_oauth_callback"; "serialize_oauth_consumer_key"; "serialize_oauth_nonce"; "serialize_oauth_signature_method";
                 "serialize_oauth_timestamp"; "serialize_oauth_token"; "serialize_oauth_verifier"; "serialize_oauth_version"]%string)
  \/ (exists f, In f fs /\ skipped sy f = false
        /\ x = if word (lit "encoded") (metas sy (sf_attrs f)) then lit "serialize_parameter_encoded" else lit "serialize_parameter").
Definition called_on_helper (sy : syn) (fs : list syn_field) (x : bytes) : Prop :=
  (x = lit "fmt" \/ x = lit "fmt_impls_fn") /\ (exists f p, In f fs /\ skipped sy f = false /\ attribute sy "fmt" f = Some p)
  \/ x = lit "skip_if_impls_fn" /\ (exists f p, In f fs /\ skipped sy f = false /\ attribute sy "skip_if" f = Some p).

(** A method of a trait is called in place of a method of the serializer, which takes [&mut self], if every serializer has it
    and it takes [self] or [&self]; and in place of a method of the helper, which takes [&self], if it takes [self]. *)
Definition intercepts (sy : syn) (fs : list syn_field) (m : trait_method) : Prop :=
  tm_serializers m = true /\ tm_self m <> ByMut /\ called_on_serializer sy fs (tm_name m)
  \/ tm_fresh m = true /\ tm_self m = ByValue /\ called_on_helper sy fs (tm_name m).

(** Nothing around the struct is in the way.  Names of functions do not occur here. *)
Definition undisturbed (sc : scope) (sy : syn) (fs : list syn_field) : Prop :=
  (forall x, binds sy fs x -> sc_value sc x = false)
  /\ (forall t, borrows sy fs t -> sc_type sc t = false /\ ~ In t (sc_params sc))
  /\ ~ In (lit "_S") (sc_params sc)
  /\ ~ In (lit "_oauth1_request") (sc_struct sc :: sc_params sc ++ sc_mentions sc)
  /\ (forall f p t, In f fs -> skipped sy f = false -> attribute sy "fmt" f = Some p \/ attribute sy "skip_if" f = Some p ->
        In t (pn_types (sc_path sc p)) -> t <> lit "_S" /\ t <> lit "_oauth1_request")
  /\ (forall m, In m (sc_methods sc) -> ~ intercepts sy fs m).

(** ** C76 *)

Lemma mem_In : forall x l, mem x l = true <-> In x l.
Proof.
  intros x l. unfold mem. rewrite existsb_exists. split.
  - intros [y [H E]]. apply bseqb_eq in E. now subst.
  - intros H. exists x. split; [exact H|apply bseqb_refl].
Qed.

Lemma mem_not : forall x l, mem x l = false <-> ~ In x l.
Proof. intros x l. rewrite <- mem_In. now destruct (mem x l). Qed.

Lemma new_fields_fst : forall sy fs, fst (new_fields sy fs Ctxt_new) = map (field_of_syn sy) fs.
Proof. intros. now rewrite new_fields_spec. Qed.

Lemma in_sorted : forall sy fs F, In F (sorted_fields sy fs) <-> exists f, In f fs /\ F = field_of_syn sy f.
Proof.
  intros sy fs F. unfold sorted_fields. split.
  - intros H. apply (Permutation_in _ (sort_perm _)) in H. apply in_map_iff in H as [f [<- H]]. now exists f.
  - intros [f [H ->]]. apply (Permutation_in _ (Permutation_sym (sort_perm _))). now apply in_map.
Qed.

Lemma has_fmt_spec : forall sy fs, has_fmt (sorted_fields sy fs) = true <-> exists f p, In f fs /\ attribute sy "fmt" f = Some p.
Proof.
  intros sy fs. unfold has_fmt. rewrite existsb_exists. split.
  - intros [F [H E]]. apply in_sorted in H as [f [H ->]]. unfold field_of_syn, field_view in E. cbn [fd_meta fm_fmt] in E. exists f. unfold attribute.
    destruct (path_value (lit "fmt") (metas sy (sf_attrs f))) as [p|]; [|discriminate]. now exists p.
  - intros [f [p [H E]]]. exists (field_of_syn sy f). split; [apply in_sorted; now exists f|]. unfold field_of_syn, field_view. cbn [fd_meta fm_fmt].
    unfold attribute in E. now rewrite E.
Qed.

Lemma has_skip_if_spec : forall sy fs, has_skip_if (sorted_fields sy fs) = true <-> exists f p, In f fs /\ attribute sy "skip_if" f = Some p.
Proof.
  intros sy fs. unfold has_skip_if. rewrite existsb_exists. split.
  - intros [F [H E]]. apply in_sorted in H as [f [H ->]]. unfold field_of_syn, field_view in E. cbn [fd_meta fm_skip_if] in E. exists f. unfold attribute.
    destruct (path_value (lit "skip_if") (metas sy (sf_attrs f))) as [p|]; [|discriminate]. now exists p.
  - intros [f [p [H E]]]. exists (field_of_syn sy f). split; [apply in_sorted; now exists f|]. unfold field_of_syn, field_view. cbn [fd_meta fm_skip_if].
    unfold attribute in E. now rewrite E.
Qed.

Lemma exists_or : forall (fs : list syn_field) (a b : syn_field -> option bytes),
  (exists f p, In f fs /\ (a f = Some p \/ b f = Some p))
  <-> (exists f p, In f fs /\ a f = Some p) \/ (exists f p, In f fs /\ b f = Some p).
Proof.
  intros fs a b. split.
  - intros (f & p & H & [E|E]); [left|right]; eauto.
  - intros [(f & p & H & E)|(f & p & H & E)]; eauto 6.
Qed.

Lemma path_ok_spec : forall sc p, path_ok sc generated_types p = true
  <-> forall t, In t (pn_types (sc_path sc p)) -> t <> lit "_S" /\ t <> lit "_oauth1_request".
Proof.
  intros sc p. unfold path_ok. rewrite negb_true_iff, <- not_true_iff_false, existsb_exists. split.
  - intros H t Ht. split; intros ->; apply H; [exists (lit "_S")|exists (lit "_oauth1_request")]; (split; [exact Ht|reflexivity]).
  - intros H [t [Ht E]]. destruct (H t Ht) as [H1 H2]. apply mem_In in E. destruct E as [E|[E|[]]]; congruence.
Qed.

Definition field_method (sy : syn) (f : syn_field) : bytes :=
  if word (lit "encoded") (metas sy (sf_attrs f)) then lit "serialize_parameter_encoded" else lit "serialize_parameter".

Lemma kind_eqb_eq : forall a b, kind_eqb a b = true <-> a = b.
Proof. intros [] []; split; (reflexivity || discriminate). Qed.

Lemma free_shared_spec : forall sc x, free_shared sc x = true
  <-> forall m, In m (sc_methods sc) -> tm_serializers m = true -> tm_self m <> ByMut -> tm_name m <> x.
Proof.
  intros sc x. unfold free_shared. rewrite negb_true_iff, <- not_true_iff_false, existsb_exists. split.
  - intros H m I1 I2 I3 E. apply H. exists m. split; [exact I1|]. rewrite I2. rewrite E, bseqb_refl.
    destruct (tm_self m); cbn; try reflexivity. congruence.
  - intros H [m [I E]]. apply andb_true_iff in E as [E E3]. apply andb_true_iff in E as [E1 E2]. apply bseqb_eq in E2.
    apply (H m I E1); [|exact E2]. intros K. rewrite K in E3. discriminate.
Qed.

Lemma free_value_spec : forall sc x, free_value sc x = true
  <-> forall m, In m (sc_methods sc) -> tm_fresh m = true -> tm_self m = ByValue -> tm_name m <> x.
Proof.
  intros sc x. unfold free_value. rewrite negb_true_iff, <- not_true_iff_false, existsb_exists. split.
  - intros H m I1 I2 I3 E. apply H. exists m. split; [exact I1|]. rewrite I2, I3. rewrite E, bseqb_refl. reflexivity.
  - intros H [m [I E]]. apply andb_true_iff in E as [E E3]. apply andb_true_iff in E as [E1 E2]. apply bseqb_eq in E2.
    apply kind_eqb_eq in E3. now apply (H m I E1).
Qed.

Lemma field_ok_spec : forall sc sy f, field_ok sc generated_types (field_of_syn sy f) = true
  <-> sc_value sc (lit "tmp") = false /\ (treated_as_option sy f -> sc_value sc (lit "value") = false)
      /\ (attribute sy "fmt" f <> None -> sc_value sc (lit "fmt") = false)
      /\ (forall p t, attribute sy "fmt" f = Some p \/ attribute sy "skip_if" f = Some p ->
            In t (pn_types (sc_path sc p)) -> t <> lit "_S" /\ t <> lit "_oauth1_request")
      /\ free_shared sc (field_method sy f) = true
      /\ (attribute sy "fmt" f <> None -> free_value sc (lit "fmt") = true /\ free_value sc (lit "fmt_impls_fn") = true)
      /\ (attribute sy "skip_if" f <> None -> free_value sc (lit "skip_if_impls_fn") = true).
Proof.
  intros sc sy f. unfold field_ok. rewrite !andb_true_iff.
  change (fm_fmt (fd_meta (field_of_syn sy f))) with (attribute sy "fmt" f).
  change (fm_skip_if (fd_meta (field_of_syn sy f))) with (attribute sy "skip_if" f).
  change (serialize_name (field_of_syn sy f)) with (field_method sy f).
  unfold bindable. cbn [nm_text at_call bind at_mixed]. rewrite negb_true_iff.
  assert (O : (if ty_is_option (field_of_syn sy f) then negb (sc_value sc (lit "value")) else true) = true
    <-> (treated_as_option sy f -> sc_value sc (lit "value") = false)).
  { rewrite treated_spec. destruct (ty_is_option _); [rewrite negb_true_iff; tauto|]. split; [discriminate|reflexivity]. }
  rewrite O. unfold opath_ok.
  destruct (attribute sy "fmt" f) as [p|], (attribute sy "skip_if" f) as [q|]; rewrite ?path_ok_spec, ?negb_true_iff, ?andb_true_iff; split.
  all: first
    [ intros (((((((H1 & H2) & H3) & H4) & H5) & H6) & H7) & H8); split; [exact H1|split; [exact H2|split; [intros X; first [exact H3|now destruct X]|]]];
      split; [intros p0 t [E|E] Ht; try discriminate E; injection E as <-; auto|];
      split; [exact H6|split; intros X; first [exact H7|exact H8|now destruct X]]
    | intros (H1 & H2 & H3 & H4 & H6 & H7 & H8); split; [split; [split; [split; [split; [split; [split|]|]|]|]|]|]; try assumption; try reflexivity;
      first [apply H3; discriminate|apply H7; discriminate|apply H8; discriminate|intros t Ht; solve [apply (H4 p t); auto|apply (H4 q t); auto]] ].
Qed.

Lemma protos_free_spec : forall sc, forallb (proto_free sc) all_protos = true
  <-> forall x, In x (map lit ["serialize_oauth_callback"; "serialize_oauth_consumer_key"; "serialize_oauth_nonce"; "serialize_oauth_signature_method";
                 "serialize_oauth_timestamp"; "serialize_oauth_token"; "serialize_oauth_verifier"; "serialize_oauth_version"]%string) ->
      free_shared sc x = true.
Proof.
  intros sc. rewrite forallb_forall. split.
  - intros H x Hx.
    assert (E : exists p, x = lit "serialize_" ++ proto_key p /\ In p all_protos).
    { repeat (destruct Hx as [<-|Hx]).
      - exists PCallback. split; [reflexivity|cbn; tauto].
      - exists PConsumerKey. split; [reflexivity|cbn; tauto].
      - exists PNonce. split; [reflexivity|cbn; tauto].
      - exists PSignatureMethod. split; [reflexivity|cbn; tauto].
      - exists PTimestamp. split; [reflexivity|cbn; tauto].
      - exists PToken. split; [reflexivity|cbn; tauto].
      - exists PVerifier. split; [reflexivity|cbn; tauto].
      - exists PVersion. split; [reflexivity|cbn; tauto].
      - destruct Hx. }
    destruct E as [p [-> Hp]]. exact (H p Hp).
  - intros H p _. apply H. destruct p; vm_compute; tauto.
Qed.

Lemma all_ok_spec : forall sc sy fs, all_ok sc (sorted_fields sy fs) = true <-> undisturbed sc sy fs.
Proof.
  intros sc sy fs. unfold all_ok, undisturbed. rewrite !andb_true_iff, !negb_true_iff, !mem_not.
  set (F := exists f p, In f fs /\ attribute sy "fmt" f = Some p).
  set (S := exists f p, In f fs /\ attribute sy "skip_if" f = Some p).
  assert (HF : has_fmt (sorted_fields sy fs) = true <-> F) by apply has_fmt_spec.
  assert (HS : has_skip_if (sorted_fields sy fs) = true <-> S) by apply has_skip_if_spec.
  assert (FO : forallb (field_ok sc generated_types) (unskipped (sorted_fields sy fs)) = true
    <-> forall f, In f fs -> skipped sy f = false -> field_ok sc generated_types (field_of_syn sy f) = true).
  { rewrite forallb_forall. split.
    - intros H f If Hs. apply H. unfold unskipped. apply filter_In. split; [apply in_sorted; now exists f|].
      change (fm_skip (fd_meta (field_of_syn sy f))) with (skipped sy f). now rewrite Hs.
    - intros H g Hg. unfold unskipped in Hg. apply filter_In in Hg as [Hg Hs]. apply in_sorted in Hg as [f [If ->]]. apply H; [exact If|].
      change (fm_skip (fd_meta (field_of_syn sy f))) with (skipped sy f) in Hs. now apply negb_true_iff in Hs. }
  rewrite FO.
  assert (HO : (if has_fmt (sorted_fields sy fs) || has_skip_if (sorted_fields sy fs)
                then helper_ok sc (has_fmt (sorted_fields sy fs)) (has_skip_if (sorted_fields sy fs)) else true) = true
    <-> (F \/ S -> sc_value sc (lit "helper") = false /\ sc_value sc (lit "f") = false) /\ (F -> sc_value sc (lit "t") = false)
        /\ forall t, borrows sy fs t -> sc_type sc t = false /\ ~ In t (sc_params sc)).
  { assert (U : forall t, user_type sc t = false <-> sc_type sc t = false /\ ~ In t (sc_params sc)).
    { intros t. unfold user_type. rewrite orb_false_iff, mem_not. tauto. }
    assert (B : forall t, borrows sy fs t <-> In t (helper_types (has_fmt (sorted_fields sy fs)) (has_skip_if (sorted_fields sy fs)))).
    { intros t. unfold borrows. fold F S. rewrite <- HF, <- HS. unfold helper_types. rewrite in_app_iff.
      clear. generalize [lit "Copy"; lit "Fn"; lit "Sized"], [lit "Fn"; lit "Sized"; lit "bool"]. intros l1 l2.
      destruct (has_fmt _), (has_skip_if _); cbn [In]; intuition congruence. }
    unfold helper_ok. rewrite <- HF, <- HS.
    transitivity ((has_fmt (sorted_fields sy fs) = true \/ has_skip_if (sorted_fields sy fs) = true ->
                   sc_value sc (lit "helper") = false /\ sc_value sc (lit "f") = false)
      /\ (has_fmt (sorted_fields sy fs) = true -> sc_value sc (lit "t") = false)
      /\ forallb (fun t => negb (user_type sc t)) (helper_types (has_fmt (sorted_fields sy fs)) (has_skip_if (sorted_fields sy fs))) = true).
    - destruct (has_fmt _) eqn:E1, (has_skip_if _) eqn:E2; cbn [orb helper_binds forallb]; rewrite ?andb_true_iff, ?negb_true_iff;
        try (cbn [helper_types app forallb]; intuition congruence).
    - rewrite forallb_forall. split.
      + intros (H1 & H2 & H3). split; [exact H1|split; [exact H2|]]. intros t Ht. apply U. apply negb_true_iff. apply H3. now apply B.
      + intros (H1 & H2 & H3). split; [exact H1|split; [exact H2|]]. intros t Ht. apply negb_true_iff. apply U. apply H3. now apply B. }
  rewrite HO. split.
  - intros ((((H1 & H2) & H3) & (H4 & H5 & H6)) & (H8 & H7)).
    split; [|split; [exact H6|split; [exact H2|split; [exact H1|split]]]].
    + intros x [->|[[X Y]|[[-> Y]|[[-> (f & If & Hs)]|[[-> (f & If & Hs & Ho)]|[-> (f & p & If & Hs & Hp)]]]]]].
      * exact H3.
      * apply exists_or in Y. destruct (H4 Y). destruct X as [->| ->]; assumption.
      * now apply H5.
      * now apply (field_ok_spec sc sy f), H7.
      * apply (proj1 (field_ok_spec sc sy f) (H7 f If Hs)). exact Ho.
      * apply (proj1 (field_ok_spec sc sy f) (H7 f If Hs)). rewrite Hp. discriminate.
    + intros f p t If Hs. apply (proj1 (field_ok_spec sc sy f) (H7 f If Hs)).
    + intros m Im [(M1 & M2 & M3)|(M1 & M2 & M3)].
      * destruct M3 as [M3|(f & If & Hs & M3)].
        -- exact (proj1 (free_shared_spec sc _) (proj1 (protos_free_spec sc) H8 _ M3) m Im M1 M2 eq_refl).
        -- destruct (proj1 (field_ok_spec sc sy f) (H7 f If Hs)) as (_ & _ & _ & _ & K & _).
           exact (proj1 (free_shared_spec sc _) K m Im M1 M2 M3).
      * destruct M3 as [[M3 (f & p & If & Hs & Hp)]|[M3 (f & p & If & Hs & Hp)]];
          destruct (proj1 (field_ok_spec sc sy f) (H7 f If Hs)) as (_ & _ & _ & _ & _ & K & L).
        -- destruct K as [K1 K2]; [rewrite Hp; discriminate|].
           destruct M3 as [M3|M3]; [exact (proj1 (free_value_spec sc _) K1 m Im M1 M2 M3)|exact (proj1 (free_value_spec sc _) K2 m Im M1 M2 M3)].
        -- exact (proj1 (free_value_spec sc _) (L ltac:(rewrite Hp; discriminate)) m Im M1 M2 M3).
  - intros (H1 & H2 & H3 & H4 & H5 & H8).
    split; [split; [split; [split; [exact H4|exact H3]|]|]|split].
    + apply H1. now left.
    + split; [|split; [|exact H2]].
      * intros Y. apply exists_or in Y. split; apply H1; right; left; auto.
      * intros Y. apply H1. right; right; left. auto.
    + apply protos_free_spec. intros x Hx. apply free_shared_spec. intros m Im M1 M2 <-. apply (H8 m Im). left. split; [exact M1|split; [exact M2|left; exact Hx]].
    + intros f If Hs. apply field_ok_spec. repeat split.
      * apply H1. right; right; right; left. eauto.
      * intros Ho. apply H1. do 4 right. left. eauto 6.
      * intros Hp. destruct (attribute sy "fmt" f) as [p|] eqn:E; [|congruence]. apply H1. do 5 right. eauto 8.
      * now apply (H5 f p).
      * now apply (H5 f p).
      * apply free_shared_spec. intros m Im M1 M2 E. apply (H8 m Im). left. split; [exact M1|split; [exact M2|right]]. exists f. auto.
      * apply free_value_spec. intros m Im M1 M2 E. apply (H8 m Im). right. split; [exact M1|split; [exact M2|left]].
        destruct (attribute sy "fmt" f) as [p|] eqn:EA; [|congruence]. eauto 8.
      * apply free_value_spec. intros m Im M1 M2 E. apply (H8 m Im). right. split; [exact M1|split; [exact M2|left]].
        destruct (attribute sy "fmt" f) as [p|] eqn:EA; [|congruence]. eauto 8.
      * intros X. apply free_value_spec. intros m Im M1 M2 E. apply (H8 m Im). right. split; [exact M1|split; [exact M2|right]].
        destruct (attribute sy "skip_if" f) as [p|] eqn:EA; [|congruence]. eauto 8.
Qed.

(** The names of the generated code of an accepted struct refer to what they are meant to exactly if
    nothing is in the way; otherwise it does not compile or means something else. *)
Theorem C76_exact_partial : forall sy dbg found attrs fs krate body sc,
  expand sy dbg found (decl attrs fs) = Ok (Impl krate body) ->
  (expand_names sy dbg sc (decl attrs fs) = Ok (Some body) <-> undisturbed sc sy fs)
  /\ (expand_names sy dbg sc (decl attrs fs) = Ok None <-> ~ undisturbed sc sy fs).
Proof.
  intros sy dbg found attrs fs krate body sc HE. apply accepted_facts in HE as [_ [_ ->]].
  unfold expand_names, decl. cbn [di_data]. rewrite new_fields_fst. fold (sorted_fields sy fs).
  destruct (elab_impl_spec sc dbg (sorted_fields sy fs)) as [c [-> E]]. cbn [rbind]. rewrite E.
  rewrite <- all_ok_spec. destruct (all_ok sc (sorted_fields sy fs)); split; split; intros H; try reflexivity; try discriminate; try congruence.
Qed.
Print Assumptions C76_exact_partial.

(** Functions named in attributes may have any names: [r] gives each path another single name. *)
Definition renamed_functions (r : bytes -> option bytes) (sc : scope) : scope :=
  {| sc_value := sc_value sc; sc_type := sc_type sc; sc_struct := sc_struct sc; sc_params := sc_params sc;
     sc_mentions := sc_mentions sc;
     sc_path := fun p => {| pn_value := r p; pn_types := pn_types (sc_path sc p) |}; sc_methods := sc_methods sc |}.

Theorem C76_functions_partial : forall sy dbg found attrs fs krate body sc r,
  expand sy dbg found (decl attrs fs) = Ok (Impl krate body) ->
  expand_names sy dbg (renamed_functions r sc) (decl attrs fs) = expand_names sy dbg sc (decl attrs fs).
Proof.
  intros sy dbg found attrs fs krate body sc r HE. unfold expand_names, decl. cbn [di_data]. rewrite new_fields_fst. fold (sorted_fields sy fs).
  destruct (elab_impl_spec (renamed_functions r sc) dbg (sorted_fields sy fs)) as [c [E0 E1]].
  destruct (elab_impl_spec sc dbg (sorted_fields sy fs)) as [c' [E0' E2]]. rewrite E0 in E0'. injection E0' as <-.
  rewrite E0. cbn [rbind]. now rewrite E1, E2.
Qed.
Print Assumptions C76_functions_partial.

(** An ordinary program: no constants, types or generic parameters of interest; a path is a single name. *)
Definition plain_scope (value ty : bytes -> bool) (params : list bytes) : scope :=
  {| sc_value := value; sc_type := ty; sc_struct := lit "Foo"; sc_params := params; sc_mentions := [];
     sc_path := fun p => {| pn_value := Some p; pn_types := [] |}; sc_methods := [] |}.
Definition none (x : bytes) : bool := false.

Definition accepted (fs : list syn_field) : option (list stmt) :=
  match expand toy false (CrateName (lit "oauth1_request")) (decl [] fs) with Ok (Impl _ body) => Some body | _ => None end.

(** A constant called [tmp] next to the struct breaks the code of every struct that has a field that is
    not skipped; so does a type parameter [_S] that of every struct; and a type of the user called
    [Copy] that of every struct with a custom [fmt].  A trait in scope that gives every serializer a method
    [serialize_oauth_nonce] that takes [self] or [&self] has this method called by every struct's code. *)
Theorem C76_refuted : forall sy dbg found attrs fs krate body sc,
  expand sy dbg found (decl attrs fs) = Ok (Impl krate body) ->
  (sc_value sc (lit "tmp") = true -> (exists f, In f fs /\ skipped sy f = false) ->
   expand_names sy dbg sc (decl attrs fs) = Ok None)
  /\ (In (lit "_S") (sc_params sc) -> expand_names sy dbg sc (decl attrs fs) = Ok None)
  /\ (sc_type sc (lit "Copy") = true -> (exists f p, In f fs /\ attribute sy "fmt" f = Some p) ->
      expand_names sy dbg sc (decl attrs fs) = Ok None)
  /\ ((exists m, In m (sc_methods sc) /\ tm_name m = lit "serialize_oauth_nonce" /\ tm_self m <> ByMut /\ tm_serializers m = true) ->
      expand_names sy dbg sc (decl attrs fs) = Ok None).
Proof.
  intros sy dbg found attrs fs krate body sc HE. destruct (C76_exact_partial _ _ _ _ _ _ _ sc HE) as [_ H]. rewrite H. repeat split.
  - intros Hv Hf (H1 & _). rewrite (H1 (lit "tmp")) in Hv; [discriminate|]. do 3 right. left. auto.
  - intros Hp (_ & _ & H3 & _). auto.
  - intros Ht Hf (_ & H2 & _). destruct (H2 (lit "Copy")) as [X _]; [left; split; [now left|exact Hf]|]. congruence.
  - intros (m & Im & En & Ek & Es) (_ & _ & _ & _ & _ & H6). apply (H6 m Im). left. split; [exact Es|split; [exact Ek|]]. rewrite En. left. cbn. tauto.
Qed.
Print Assumptions C76_refuted.

Definition one_field : syn_field := field (lit "a") [eq_attr (lit "fmt") (lit "show")] TyOther.

(** The three cases exist, and without the name in the way the same struct is fine. *)
Example C76_refuted_example :
  match accepted [one_field],
        expand_names toy false (plain_scope none none []) (decl [] [one_field]),
        expand_names toy false (plain_scope (bseqb (lit "tmp")) none []) (decl [] [one_field]),
        expand_names toy false (plain_scope none none [lit "_S"]) (decl [] [one_field]),
        expand_names toy false (plain_scope none (bseqb (lit "Copy")) []) (decl [] [one_field]) with
  | Some _, Ok (Some _), Ok None, Ok None, Ok None => true
  | _, _, _, _, _ => false
  end = true.
Proof. vm_compute. reflexivity. Qed.

(** Traits in scope: [SerializerExt] of the crate itself, and traits with methods called like those of the generated code that
    are looked at later than these, do no harm; the others do. *)
Definition with_methods (l : list trait_method) : scope :=
  {| sc_value := none; sc_type := none; sc_struct := lit "Foo"; sc_params := []; sc_mentions := [];
     sc_path := fun p => {| pn_value := Some p; pn_types := [] |}; sc_methods := l |}.
Definition every (n : string) (k : self_kind) : trait_method := {| tm_name := lit n; tm_self := k; tm_serializers := true; tm_fresh := true |}.
Example C76_methods_example :
  let sees l := match expand_names toy false (with_methods l) (decl [] [one_field]) with Ok (Some _) => true | _ => false end in
  sees [every "serialize_oauth_parameters" ByMut; every "end" ByValue; every "fmt" ByRef; every "serialize_parameter" ByMut;
        every "skip_if_impls_fn" ByValue; every "serialize_parameter_encoded" ByRef] = true
  /\ map sees [[every "serialize_parameter" ByRef]; [every "fmt" ByValue]; [every "serialize_oauth_token" ByValue]] = [false; false; false].
Proof. vm_compute. split; reflexivity. Qed.

(** oauth1-request-derive/tests/pass.rs:269-292: functions called like the bindings of the generated
    code. *)
Definition hygiene_fields : list syn_field :=
  [field (lit "should_not_conflict_with_helper_binding") [eq_attr (lit "fmt") (lit "helper")] TyOther;
   field (lit "should_not_conflict_with_tmp_binding") [eq_attr (lit "fmt") (lit "tmp")] TyOther;
   field (lit "should_not_conflict_with_serializer_arg") [eq_attr (lit "fmt") (lit "serializer")] TyOther].

Example C76_hygiene : exists k body,
  expand toy false (CrateName (lit "oauth1_request")) (decl [] hygiene_fields) = Ok (Impl k body)
  /\ expand_names toy false (plain_scope none none [lit "S"]) (decl [] hygiene_fields) = Ok (Some body)
  /\ length (filter (fun st => match st with SBlock (SSerialize _ _ (Some _) _) => true | _ => false end) body) = 3.
Proof. eexists. eexists. split; [vm_compute; reflexivity|]. split; vm_compute; reflexivity. Qed.

(** [skip_if], options and [encoded], with functions called [value], [fmt], [f] and [_S]. *)
Definition busy_fields : list syn_field :=
  [field (lit "a") [eq_attr (lit "skip_if") (lit "value"); eq_attr (lit "fmt") (lit "fmt")] option_ty;
   field (lit "z") [eq_attr (lit "skip_if") (lit "f"); oauth1_attr [TTok (lit "encoded")]] TyOther;
   field (lit "b") [oauth1_attr [TTok (lit "skip")]; eq_attr (lit "fmt") (lit "_S")] TyOther;
   field (lit "c") [] option_ty].

Example C76_busy : exists k body,
  expand toy false (CrateName (lit "oauth1_request")) (decl [] busy_fields) = Ok (Impl k body)
  /\ expand_names toy false (plain_scope none none [lit "S"]) (decl [] busy_fields) = Ok (Some body)
  /\ undisturbed (plain_scope none none [lit "S"]) toy busy_fields.
Proof.
  eexists. eexists. split; [vm_compute; reflexivity|]. split; [vm_compute; reflexivity|]. apply all_ok_spec. vm_compute. reflexivity.
Qed.
