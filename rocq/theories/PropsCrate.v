(** C84: which crate derived code refers to. *)
From Coq Require Import String.
From Coq Require Import List.
From Verif Require Import Bytes MFmt MPercent MSerializer MRequest MDerive SpecFmt SpecCalls SpecDerive LDerive PropsDerive.

(** ** Specification *)

(** The crate reference of an expansion: with an implementation, or with error messages. *)
Definition refers_to (x : expansion) (k : crate_ref) : Prop :=
  (exists body, x = Impl k body) \/ exists es, x = Fallback es k.

Definition reports_error (x : expansion) (e : error) : Prop :=
  match x with OnlyErrors es | Fallback es _ => In e es | Impl _ _ => False end.

(** ** Auxiliary facts *)

Lemma faults_no_crate : forall sy table before attrs, ~ In CrateNotFound (faults table before (items sy attrs)).
Proof.
  intros sy table before attrs.
  assert (G : forall l before, (forall e, In (inr e) l -> e = SynError) -> ~ In CrateNotFound (faults table before l)).
  { induction l as [|[m|e] l IH]; intros b HI; [intros []| |].
    - assert (R : ~ In CrateNotFound (faults table (b ++ [m]) l)) by (apply IH; intros e He; apply HI; now right).
      cbn [faults]. destruct (fault table b m) as [e|] eqn:E; [|exact R]. intros [H|H]; [|contradiction]. subst e.
      unfold fault in E. destruct (find _ table) as [[nm s]|]; [|discriminate E]. unfold complaint in E.
      destruct s, (mt_kind m) as [| |[]]; try discriminate E;
        repeat match type of E with context [if ?c then _ else _] => destruct c end; discriminate E.
    - cbn [faults]. intros [H|H]; [rewrite (HI e (or_introl eq_refl)) in H; discriminate H|].
      revert H. apply IH. intros e' He. apply HI. now right. }
  apply G. intros e He. unfold items in He. apply in_flat_map in He as [a [_ Ha]]. destruct (for_oauth1 a); [|destruct Ha].
  destruct (parse_args sy a); [apply in_map_iff in Ha as [m [H _]]; discriminate H|]. destruct Ha as [H|[]]. now inversion H.
Qed.

Lemma own_errors : forall sy found attrs fs,
  In CrateNotFound (all_errors sy found attrs fs) <-> In CrateNotFound (snd (crate_choice sy found attrs)).
Proof.
  intros sy found attrs fs. unfold all_errors. rewrite !in_app_iff. split; [|tauto]. intros [H|[H|[H|H]]]; [exfalso|exfalso|exfalso|exact H].
  - apply in_flat_map in H as [f [_ H]]. revert H. apply faults_no_crate.
  - apply in_map_iff in H as [n [H _]]. discriminate H.
  - revert H. apply faults_no_crate.
Qed.

(** ** C84 *)

(** The path in [#[oauth1(crate = path)]] is used, whatever Cargo says. *)
Theorem C84_path : forall sy dbg lookup var attrs fs p, path_value (lit "crate") (metas sy attrs) = Some p ->
  exists x, expand sy dbg (find_crate lookup var) (decl attrs fs) = Ok x /\ refers_to x (UsePath p)
    /\ ~ reports_error x CrateNotFound
    /\ forall lookup' var', expand sy dbg (find_crate lookup' var') (decl attrs fs) = Ok x.
Proof.
  intros sy dbg lookup var attrs fs p HP.
  assert (HE : forall found, expand sy dbg found (decl attrs fs)
    = Ok match all_errors sy CrateError attrs fs with
         | [] => Impl (UsePath p) (merge_stmts all_protos (unskipped (sorted_fields sy fs)))
         | es => Fallback es (UsePath p)
         end).
  { intros found. unfold decl. rewrite expand_spec. unfold crate_panics, all_errors, crate_choice. now rewrite HP. }
  eexists. split; [apply HE|]. split; [|split; [|intros; apply HE]].
  - destruct (all_errors _ _ _ _) as [|e es]; [left|right]; eauto.
  - pose proof (own_errors sy CrateError attrs fs) as HN. unfold crate_choice in HN. rewrite HP in HN.
    destruct (all_errors _ _ _ _) as [|e es]; [exact (fun H => H)|exact (proj1 HN)].
Qed.
Print Assumptions C84_path.

(** Without such an attribute: the name that the manifest gives to the crate; the default name without Cargo. *)
Theorem C84_name : forall sy dbg lookup var attrs fs k, path_value (lit "crate") (metas sy attrs) = None ->
  lookup = FoundName k \/ lookup = FoundItself /\ var = Some k \/ lookup = ManifestDirNotSet /\ k = lit "oauth1_request" ->
  exists x, expand sy dbg (find_crate lookup var) (decl attrs fs) = Ok x /\ refers_to x (ExternCrate k)
    /\ ~ reports_error x CrateNotFound.
Proof.
  intros sy dbg lookup var attrs fs k HP HL.
  assert (HF : find_crate lookup var = CrateName k) by (destruct HL as [->|[[-> ->]|[-> ->]]]; reflexivity).
  rewrite HF. unfold decl. rewrite expand_spec. unfold crate_panics. rewrite HP. eexists. split; [reflexivity|].
  pose proof (own_errors sy (CrateName k) attrs fs) as HN. unfold crate_choice in *. rewrite HP in *. cbn [fst snd] in *.
  destruct (all_errors _ _ _ _) as [|e es]; (split; [|exact (proj1 HN)]) || (split; [|exact (fun H => H)]); [left|right]; eauto.
Qed.
Print Assumptions C84_name.

(** A crate that is not in the manifest is an error, and the only reason for this message. *)
Theorem C84_missing : forall sy dbg lookup var attrs fs x,
  expand sy dbg (find_crate lookup var) (decl attrs fs) = Ok x ->
  (reports_error x CrateNotFound <-> path_value (lit "crate") (metas sy attrs) = None /\ lookup = LookupError).
Proof.
  intros sy dbg lookup var attrs fs x HE. unfold decl in HE. rewrite expand_spec in HE.
  destruct (crate_panics sy (find_crate lookup var) attrs) eqn:HC; [discriminate HE|]. injection HE as <-.
  assert (HR : reports_error
    match all_errors sy (find_crate lookup var) attrs fs with
    | [] => Impl (fst (crate_choice sy (find_crate lookup var) attrs)) (merge_stmts all_protos (unskipped (sorted_fields sy fs)))
    | es => Fallback es (fst (crate_choice sy (find_crate lookup var) attrs))
    end CrateNotFound <-> In CrateNotFound (all_errors sy (find_crate lookup var) attrs fs)).
  { destruct (all_errors _ _ _ _); reflexivity. }
  rewrite HR, own_errors. unfold crate_choice, crate_panics in *.
  destruct (path_value _ _) as [p|]; [cbn; split; [intros []|intros [H _]; discriminate H]|].
  destruct lookup; cbn [find_crate] in *.
  - cbn. split; [intros []|intros [_ H]; discriminate H].
  - destruct var; [|discriminate HC]. cbn. split; [intros []|intros [_ H]; discriminate H].
  - cbn. split; [intros []|intros [_ H]; discriminate H].
  - cbn. split; [auto|]. intros _. now left.
Qed.
Print Assumptions C84_missing.

(** The macro panics only in the crate [oauth1-request] itself, built without the variable [CARGO_CRATE_NAME], for a
    struct without the attribute. *)
Theorem C84_panics : forall sy dbg lookup var input,
  (exists e, expand sy dbg (find_crate lookup var) input = Panic e)
  <-> (exists fs, di_data input = NamedFields fs) /\ path_value (lit "crate") (metas sy (di_attrs input)) = None
      /\ lookup = FoundItself /\ var = None.
Proof.
  intros sy dbg lookup var [attrs [fs|]].
  - rewrite expand_spec. unfold crate_panics. cbn [di_data di_attrs]. split.
    + intros [e H]. destruct (path_value _ _); [discriminate H|]. destruct lookup; try discriminate H. destruct var; [discriminate H|]. eauto.
    + intros [_ [-> [-> ->]]]. cbn [find_crate]. eauto.
  - cbn. split; [intros [e H]; discriminate H|]. intros [[fs H] _]. discriminate H.
Qed.
Print Assumptions C84_panics.

(** A renamed dependency, a path, no dependency, a literal where a path is needed. *)
Definition c84 (lookup : crate_lookup) (attrs : list attr) : option crate_ref :=
  match expand toy true (find_crate lookup None) (decl attrs example_fields) with
  | Ok (Impl k _) => Some k
  | _ => None
  end.
Example C84_example :
  c84 (FoundName (lit "oauth")) [] = Some (ExternCrate (lit "oauth"))
  /\ c84 (FoundName (lit "oauth")) [eq_attr (lit "crate") (lit "path")] = Some (UsePath (lit "path"))
  /\ c84 LookupError [eq_attr (lit "crate") (lit "path")] = Some (UsePath (lit "path"))
  /\ c84 FoundItself [eq_attr (lit "crate") (lit "path")] = Some (UsePath (lit "path"))
  /\ c84 ManifestDirNotSet [] = Some (ExternCrate (lit "oauth1_request"))
  /\ c84 LookupError [] = None
  /\ expand toy true (find_crate FoundItself None) (decl [] example_fields) = Panic PCrateName.
Proof. repeat apply conj; vm_compute; reflexivity. Qed.
