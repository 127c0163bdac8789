(** Property C86: what a derived struct is; more of C54. *)
From Coq Require Import String.
From Coq Require Import Lia Arith Sorted Permutation.
From Verif Require Import Bytes Crypto Spec MFmt MPercent MSerializer MSign MRequest MCredentials MAuth MBuilder MDerive ModelTests
  SpecFmt SpecCalls SpecCalls2 SpecAuth SpecBuild SpecForm SpecServer SpecParams SpecSign SpecPanic SpecDerive
  LBytes LFmt LTrace LAuth LSign LBuild LForm LBase LBase2 LReq LReq2 LPanic LTop LParams LServer LReveal LAny LBuf LSim LCheck LDerive
  PropsDerive PropsExact PropsParams PropsPanic PropsDerived PropsForm SpecServer2 PropsServer2.
From Verif Require SpecHttp MServer MClient SpecExample PropsExample.

(** ** C86 A derived struct is the parameter list of its fields *)

Lemma take_lt_le : forall k k' ps, bleb k k' = true ->
  take_lt k' ps = take_lt k ps ++ take_lt k' (drop_lt k ps) /\ drop_lt k' ps = drop_lt k' (drop_lt k ps).
Proof.
  intros k k' ps H. induction ps as [|p ps [IH1 IH2]]; [split; reflexivity|]. cbn [take_lt drop_lt].
  destruct (bltb (proto_key p) k) eqn:E; [|split; reflexivity].
  assert (E' : bltb (proto_key p) k' = true).
  { eapply bltb_bleb_trans; eauto. }
  rewrite E'. cbn [app]. split; [now rewrite IH1|exact IH2].
Qed.

Lemma merge_split : forall k ps l, Forall (fun p : kv => bleb k (fst p) = true) l ->
  merge_calls ps l = map CProto (take_lt k ps) ++ merge_calls (drop_lt k ps) l.
Proof.
  intros k ps [|[k' v] l] H; cbn [merge_calls].
  - now rewrite <- map_app, take_drop.
  - inversion H; subst. destruct (take_lt_le k k' ps) as [-> ->]; [assumption|]. now rewrite map_app, <- app_assoc.
Qed.

(** What the fields emit, as pairs. *)
Lemma merge_gen_calls : forall l ps, strictly_ascending (map fst l) ->
  Forall (fun kc => snd kc = [] \/ exists v, snd kc = [CParam (fst kc) v]) l ->
  merge_gen ps l = merge_calls ps (call_params (flat_map snd l))
  /\ Forall (fun p => In (fst p) (map fst l)) (call_params (flat_map snd l)).
Proof.
  induction l as [|[k cs] l IH]; intros ps HS HF; [split; [reflexivity|constructor]|].
  inversion HF as [|? ? H1 H2]; subst. cbn [map fst] in HS. inversion HS as [|? ? S1 S2]; subst.
  destruct (IH (drop_lt k ps) S1 H2) as [E HI]. cbn [merge_gen flat_map snd fst map]. rewrite E.
  assert (HI' : Forall (fun p => In (fst p) (k :: map fst l)) (call_params (flat_map snd l))).
  { eapply Forall_impl; [|exact HI]. intros p Hp. now right. }
  cbn [fst snd] in H1. destruct H1 as [->|[v ->]]; cbn [app].
  - split; [|exact HI']. symmetry. apply merge_split. rewrite Forall_forall in *. intros p Hp. apply bltb_bleb, S2. auto.
  - change (call_params (CParam k v :: flat_map snd l)) with ((k, v) :: call_params (flat_map snd l)). cbn [merge_calls].
    split; [reflexivity|]. constructor; [now left|exact HI'].
Qed.

Lemma keys_unique : forall l l' : list kv, Permutation l l' -> ascending (map fst l) -> ascending (map fst l') ->
  NoDup (map fst l) -> l = l'.
Proof.
  induction l as [|p l IH]; intros l' P A A' N.
  - now apply Permutation_nil in P.
  - destruct l' as [|q l']; [apply Permutation_sym, Permutation_nil in P; discriminate|].
    cbn [map] in A, A', N. inversion A as [|? ? A1 A2]; inversion A' as [|? ? B1 B2]; inversion N as [|? ? N1 N2]; subst.
    assert (E : p = q).
    { pose proof (Permutation_in _ P (or_introl eq_refl)) as [->|I1]; [reflexivity|].
      pose proof (Permutation_in _ (Permutation_sym P) (or_introl eq_refl)) as [->|I2]; [reflexivity|].
      rewrite Forall_forall in A2, B2. pose proof (B2 _ (in_map fst _ _ I1)) as L1. pose proof (A2 _ (in_map fst _ _ I2)) as L2.
      exfalso. apply N1. rewrite (bleb_antisym _ _ L2 L1). now apply in_map. }
    subst q. f_equal. apply IH; auto. now apply Permutation_cons_inv in P.
Qed.

Lemma emits_plain : forall {V} (pg : program V) self sy f cs, emits pg self sy f cs ->
  word (lit "encoded") (metas sy (sf_attrs f)) = false -> Forall (fun c => exists v, c = CParam (call_key c) v) cs.
Proof.
  intros V pg self sy f cs H HE. inversion H; subst; try constructor; [|constructor]. rewrite HE. cbn [call_key]. eauto.
Qed.

Lemma derived_pairs : forall {V} (pg : program V) self sy fs callss r, derived_request pg self sy fs callss r ->
  (forall f, In f fs -> word (lit "encoded") (metas sy (sf_attrs f)) = false) ->
  exists l, makes_calls r (calls_of l) /\ Permutation l (call_params (concat callss))
    /\ ascending (map fst l) /\ NoDup (map fst l).
Proof.
  intros V pg self sy fs callss r [dbg found attrs krate body HE HW HF HX] HP.
  assert (HK : no_reserved sy fs).
  { eapply C52_exact_partial; eauto. intros S s. rewrite HX. discriminate. }
  destruct (derived_merge _ _ _ _ _ _ _ _ _ _ HE HF HK) as [l [H1 [H2 [H3 [H4 [H5 [H6 H7]]]]]]].
  assert (HA : Forall (fun c => exists v, c = CParam (call_key c) v) (concat callss)).
  { clear - HF HP. induction HF as [|f cs fs callss Hf HF IH]; [constructor|]. cbn [concat]. apply Forall_app. split.
    - eapply emits_plain; [exact Hf|]. apply HP. now left.
    - apply IH. intros g Hg. apply HP. now right. }
  rewrite <- H2 in HA.
  assert (HO : Forall (fun kc => snd kc = [] \/ exists v, snd kc = [CParam (fst kc) v]) l).
  { clear - HA H6 H7. rewrite Forall_forall in *. intros kc Hkc. specialize (H6 kc Hkc). specialize (H7 kc Hkc).
    destruct kc as [k [|c [|c' cs]]]; cbn [fst snd length] in *; [now left| |lia]. right. inversion H6; subst.
    destruct (HA c) as [v E]; [|eauto].
    - apply in_flat_map. exists (call_key c, [c]). split; [exact Hkc|now left].
    - exists v. now rewrite <- E. }
  destruct (merge_gen_calls l all_protos H3 HO) as [EM _].
  exists (call_params (flat_map snd l)). split; [|split; [|split]].
  - intros S s. specialize (H1 S s). rewrite HX in H1. injection H1 as ->. now rewrite EM.
  - now apply flat_map_perm.
  - pose proof (strict_calls l H3 H6 H7) as HS.
    assert (EK : map fst (call_params (flat_map snd l)) = map call_key (flat_map snd l)).
    { clear - HA. induction HA as [|c cs [v E] HA IH]; [reflexivity|]. rewrite E. cbn [call_key]. cbn [map]. rewrite <- IH. reflexivity. }
    rewrite EK. now apply strictly_ascending_weak.
  - pose proof (strict_calls l H3 H6 H7) as HS.
    assert (EK : map fst (call_params (flat_map snd l)) = map call_key (flat_map snd l)).
    { clear - HA. induction HA as [|c cs [v E] HA IH]; [reflexivity|]. rewrite E. cbn [call_key]. cbn [map]. rewrite <- IH. reflexivity. }
    rewrite EK. now apply strictly_nodup.
Qed.

(** For every serializer; [p] is any list made of the same pairs, in any order and in any way. *)
Theorem C86_every_serializer : forall {V} (pg : program V) self sy fs callss r sort l p dbg,
  derived_request pg self sy fs callss r ->
  (forall f, In f fs -> word (lit "encoded") (metas sy (sf_attrs f)) = false) ->
  conforming sort -> history sort l p -> Permutation l (call_params (concat callss)) ->
  forall (S : Serializer) (s : S), r S s = Request_pl dbg p S s.
Proof.
  intros V pg self sy fs callss r sort l p dbg HR HE HC HH HP S s.
  destruct (derived_pairs _ _ _ _ _ _ HR HE) as [l' [M [P [A N]]]].
  destruct (history_sorted sort l p HC HH) as [HS P2].
  assert (E : l' = p).
  { apply keys_unique; auto; [|now apply sorted_map_fst]. rewrite P, <- HP. now apply Permutation_sym. }
  subst p. rewrite (M S s). symmetry. exact (AssertSorted_calls dbg l' S s).
Qed.
Print Assumptions C86_every_serializer.

Lemma request_ext : forall r r' : Request, (forall (S : Serializer) (s : S), r S s = r' S s) ->
  (forall c e b k method, run c e b k method r = run c e b k method r')
  /\ to_form r = to_form r' /\ (forall uri, to_query uri r = to_query uri r').
Proof.
  intros r r' H. split; [|split].
  - intros c e b k method. rewrite !run_go. destruct (kind_data k) as [d|]; [|reflexivity]. cbn [rbind]. unfold go.
    destruct (make_sign _ _ _ _ _ _); [|reflexivity]. cbn [rbind]. now rewrite H.
  - unfold to_form. now rewrite H.
  - intros uri. unfold to_query. now rewrite H.
Qed.

(** So all results are the same, panics included. *)
Theorem C86_results : forall {V} (pg : program V) self sy fs callss r sort l p dbg,
  derived_request pg self sy fs callss r ->
  (forall f, In f fs -> word (lit "encoded") (metas sy (sf_attrs f)) = false) ->
  conforming sort -> history sort l p -> Permutation l (call_params (concat callss)) ->
  (forall c e b k method, run c e b k method r = run c e b k method (Request_pl dbg p))
  /\ to_form r = to_form (Request_pl dbg p) /\ (forall uri, to_query uri r = to_query uri (Request_pl dbg p)).
Proof.
  intros V pg self sy fs callss r sort l p dbg HR HE HC HH HP. apply request_ext.
  exact (C86_every_serializer pg self sy fs callss r sort l p dbg HR HE HC HH HP).
Qed.
Print Assumptions C86_results.

(** With [encoded] fields: like the list of the values that they are the encoding of. *)
Lemma same_merge : forall l ps pairs, strictly_ascending (map fst l) ->
  Forall (fun kc => Forall (fun c => call_key c = fst kc) (snd kc)) l -> Forall (fun kc => length (snd kc) <= 1) l ->
  same_calls (flat_map snd l) (map (fun p => CParam (fst p) (snd p)) pairs) ->
  same_calls (merge_gen ps l) (merge_calls ps pairs) /\ Forall (fun p => In (fst p) (map fst l)) pairs.
Proof.
  assert (HP : forall ps, same_calls (map CProto ps) (map CProto ps)).
  { intros ps. unfold same_calls. induction ps; constructor; [constructor|assumption]. }
  induction l as [|[k cs] l IH]; intros ps pairs HS HK HL H.
  - cbn [flat_map] in H. destruct pairs; [|inversion H]. split; [apply HP|constructor].
  - inversion HS as [|? ? S1 S2]; inversion HK as [|? ? K1 K2]; inversion HL as [|? ? L1 L2]; subst.
    cbn [merge_gen map fst snd flat_map] in *. destruct cs as [|c [|c' cs]]; [| |cbn in L1; lia]; cbn [app] in *.
    + destruct (IH (drop_lt k ps) pairs S1 K2 L2 H) as [E HI]. split.
      * rewrite (merge_split k ps pairs).
        -- apply Forall2_app; [apply HP|exact E].
        -- rewrite Forall_forall in *. intros p Hp. apply bltb_bleb, S2. auto.
      * eapply Forall_impl; [|exact HI]. intros p Hp. now right.
    + destruct pairs as [|[k' v] pairs]; [inversion H|]. cbn [map fst snd] in H. inversion H as [|? ? ? ? A1 A2]; subst.
      destruct (IH (drop_lt k ps) pairs S1 K2 L2 A2) as [E HI].
      assert (EK : k' = k).
      { inversion K1; subst. destruct (same_call_fields _ _ A1) as [_ [_ [_ [X _]]]]. now rewrite X. }
      subst k'. cbn [merge_calls]. split.
      * apply Forall2_app; [apply HP|]. now constructor.
      * constructor; [now left|]. eapply Forall_impl; [|exact HI]. intros p Hp. now right.
Qed.

Lemma derived_same : forall {V} (pg : program V) self sy fs callss r sort l p dbg,
  derived_request pg self sy fs callss r -> conforming sort -> history sort l p ->
  same_calls (concat callss) (map (fun p => CParam (fst p) (snd p)) l) ->
  exists cs, makes_calls r cs /\ makes_calls (Request_pl dbg p) (calls_of p) /\ call_protos cs = all_protos
    /\ same_calls cs (calls_of p).
Proof.
  intros V pg self sy fs callss r sort l p dbg [dbg' found attrs krate body HE HW HF HX] HC HH HQ.
  assert (HK : no_reserved sy fs).
  { eapply C52_exact_partial; eauto. intros S s. rewrite HX. discriminate. }
  destruct (derived_merge _ _ _ _ _ _ _ _ _ _ HE HF HK) as [l0 [H1 [H2 [H3 [H4 [H5 [H6 H7]]]]]]].
  exists (merge_gen all_protos l0). split; [|split; [apply AssertSorted_calls|split; [now apply merge_gen_protos|]]].
  - intros S s. specialize (H1 S s). rewrite HX in H1. now injection H1.
  - destruct (Forall2_perm _ _ _ (Permutation_sym H2) _ HQ) as [m [P F]].
    apply Permutation_sym, Permutation_map_inv in P as [l1 [-> P]].
    destruct (same_merge l0 all_protos l1 H3 H6 H7 F) as [E _].
    destruct (history_sorted sort l p HC HH) as [HS P2].
    assert (EL : l1 = p); [|now subst].
    assert (EK : map fst l1 = map call_key (flat_map snd l0)).
    { clear - F. set (f := fun p : bytes * disp => CParam (fst p) (snd p)) in F. revert l1 F. induction (flat_map snd l0) as [|c cs IH]; intros [|q l1] F; inversion F; subst; [reflexivity|].
      cbn [map]. rewrite (IH _ H4). f_equal. destruct (same_call_fields _ _ H2) as [_ [_ [_ [X _]]]]. now rewrite X. }
    pose proof (strict_calls l0 H3 H6 H7) as HSC. apply keys_unique.
    + rewrite P2. now apply Permutation_sym.
    + rewrite EK. now apply strictly_ascending_weak.
    + now apply sorted_map_fst.
    + rewrite EK. now apply strictly_nodup.
Qed.

Theorem C86_encoded : forall {V} (pg : program V) self sy fs callss r sort l p dbg,
  derived_request pg self sy fs callss r -> conforming sort -> history sort l p ->
  same_calls (concat callss) (map (fun p => CParam (fst p) (snd p)) l) ->
  (forall out, to_form r = Ok out <-> to_form (Request_pl dbg p) = Ok out)
  /\ (forall uri out, to_query uri r = Ok out <-> to_query uri (Request_pl dbg p) = Ok out)
  /\ forall c e b name strict f method, builtin (bd_signature_method b) name strict f ->
     (forall uri out, Builder_authorize c e b method uri r = Ok out <-> Builder_authorize c e b method uri (Request_pl dbg p) = Ok out)
     /\ (forall uri out, Builder_to_form c e b method uri r = Ok out <-> Builder_to_form c e b method uri (Request_pl dbg p) = Ok out)
     /\ (forall (uri : bytes) out, Builder_to_query c e (w := StringW) dstr b method uri r = Ok out
         <-> Builder_to_query c e (w := StringW) dstr b method uri (Request_pl dbg p) = Ok out).
Proof.
  intros V pg self sy fs callss r sort l p dbg HR HC HH HQ.
  destruct (derived_same pg self sy fs callss r sort l p dbg HR HC HH HQ) as [cs [M [M' [P SC]]]].
  assert (P' : Permutation (call_protos cs) all_protos) by now rewrite P.
  split; [|split].
  - intros out. now apply (C47_form _ _ cs (calls_of p)).
  - intros uri out. now apply (C47_query _ _ cs (calls_of p)).
  - intros c e b name strict f method HB. split; [|split]; intros uri out.
    + now apply (C47_authorize c e b name strict f _ _ cs (calls_of p)).
    + now apply (C47_signed_form c e b name strict f _ _ cs (calls_of p)).
    + now apply (C47_signed_query c e b name strict f _ _ cs (calls_of p)).
Qed.
Print Assumptions C86_encoded.

(** The struct of PropsDerive, whose field [q] is [encoded] and renamed, and the same without that field. *)
Definition example_list : list kv :=
  [(lit "status", dstr (lit "hello world")); (lit "z", dstr (lit "a b")); (lit "n", dstr (lit "42!"))].
Definition plain_fields : list syn_field := filter (fun f => negb (word (lit "encoded") (metas toy (sf_attrs f)))) example_fields.
Definition plain_calls : list (list call) :=
  [[CParam (lit "status") (dstr (lit "hello world"))]; []; [CParam (lit "n") (dstr (lit "42!"))]; []].

Example C86_example :
  (exists r, derived_request example_program example_value toy example_fields example_calls r)
  /\ same_calls (concat example_calls) (map (fun p => CParam (fst p) (snd p)) example_list)
  /\ (exists r, derived_request example_program example_value toy plain_fields plain_calls r)
  /\ length plain_fields = 4
  /\ (forall f, In f plain_fields -> word (lit "encoded") (metas toy (sf_attrs f)) = false)
  /\ call_params (concat plain_calls) = [(lit "status", dstr (lit "hello world")); (lit "n", dstr (lit "42!"))]
  /\ to_form (Request_pl true (pl_new insertion_sort example_list)) = Ok (lit "n=42%21&status=hello%20world&z=a%20b").
Proof.
  assert (X : forall fs callss, (exists krate body, expand toy true CrateError (decl [eq_attr (lit "crate") (lit "path")] fs) = Ok (Impl krate body)) ->
    (forall f, In f fs -> In f example_fields) -> Forall2 (emits example_program example_value toy) fs callss ->
    exists r, derived_request example_program example_value toy fs callss r).
  { intros fs callss [krate [body HE]] HI HF.
    assert (HK : no_reserved toy fs).
    { intros f Hf. apply (proj1 (proj2 C54_example)). auto. }
    destruct (derived_calls _ _ _ _ _ _ _ _ _ _ HE HF HK) as [cs [H1 _]].
    exists (fun S s => s <- run_calls cs s ;; sr_end s). econstructor; [exact HE| |exact HF|exact H1].
    intros f Hf. pose proof C52_example as W. rewrite Forall_forall in W. auto. }
  split; [apply X; [apply C54_example|auto|apply C41_example]|].
  split; [repeat constructor|].
  split; [|repeat split; try (vm_compute; reflexivity)].
  - apply X; [do 2 eexists; vm_compute; reflexivity| |].
    + intros f Hf. unfold plain_fields in Hf. now apply filter_In in Hf.
    + pose proof C41_example as H. change plain_fields with
        [nth 0 example_fields (field [] [] TyOther); nth 1 example_fields (field [] [] TyOther);
         nth 3 example_fields (field [] [] TyOther); nth 4 example_fields (field [] [] TyOther)].
      unfold example_fields, example_calls, plain_calls in *. cbn [nth].
      repeat match goal with H : Forall2 _ (_ :: _) (_ :: _) |- _ => inversion H; clear H; subst end.
      repeat (constructor; [assumption|]). constructor.
  - intros f Hf. unfold plain_fields in Hf. apply filter_In in Hf as [_ Hf]. now apply negb_true_iff in Hf.
Qed.

(** ** More of C54 *)

Lemma derived_honest : forall {V} (pg : program V) self sy fs callss r l0,
  derived_request pg self sy fs callss r ->
  Forall displays_ok (concat callss) -> carries (concat callss) l0 -> safe_keys l0 -> no_oauth_keys l0 ->
  exists l, Permutation l l0 /\ honest r l /\ SpecExample.raw_honest r l.
Proof.
  intros V pg self sy fs callss r l0 [dbg found attrs krate body HE HW HF HX] HD HC HS HO.
  assert (HK : no_reserved sy fs).
  { eapply C52_exact_partial; eauto. intros S s. rewrite HX. discriminate. }
  destruct (derived_calls _ _ _ _ _ _ _ _ _ _ HE HF HK) as [cs [H1 [H2 [H3 [H4 H5]]]]].
  assert (PF : Permutation (form_fields (concat callss)) (form_fields cs)).
  { rewrite (form_fields_filter cs). unfold form_fields. apply flat_map_perm. now apply Permutation_sym. }
  unfold carries in HC. rewrite HC in PF. apply enc_perm in PF as [l [EL PL]].
  assert (M : makes_calls r cs) by (intros S s; specialize (H1 S s); rewrite HX in H1; now injection H1).
  assert (D : Forall displays_ok cs).
  { rewrite Forall_forall in *. intros c Hc. destruct (is_param c) eqn:EP; [|destruct c; try discriminate EP; exact I].
    apply HD. eapply Permutation_in; [exact H2|]. apply filter_In. auto. }
  assert (K : strictly_ascending (map fst l)).
  { rewrite <- (form_fields_keys cs), EL, map_map in H5. exact H5. }
  assert (S1 : safe_keys l) by apply (Permutation_Forall PL HS).
  assert (S2 : no_oauth_keys l) by apply (Permutation_Forall PL HO).
  exists l. split; [now apply Permutation_sym|]. split; exists cs.
  - repeat split; auto. now apply strict_rfc.
  - repeat split; auto. clear - K. unfold strictly_ascending in K. induction l as [|q l IH]; [constructor|].
    cbn [map] in K. inversion K as [|? ? A1 A2]; subst. constructor; [now apply IH|]. rewrite Forall_forall in *. intros x Hx.
    unfold pair_le, pair_leb. pose proof (A2 _ (in_map fst _ _ Hx)) as L. apply bltb_lt in L. now rewrite L.
Qed.

(** Any transport, and any signature method that the server can check (see C65_hmac and C66_rsa). *)
Theorem C54_transports : forall {V} (pg : program V) self sy fs callss r l0 c e b name f method uri d sig check,
  derived_request pg self sy fs callss r ->
  Forall displays_ok (concat callss) -> carries (concat callss) l0 -> safe_keys l0 -> no_oauth_keys l0 ->
  builtin (bd_signature_method b) name true f -> timestamp_available c (conf_of name e b) ->
  normal_method method -> normal_uri uri -> dtext d = uri -> dok d ->
  exists l, Permutation l l0 /\
  (agrees check name f b (base_string method uri (protocol_pairs (conf_of name e b) ++ l)) sig ->
   exists header form query body query_only,
    Builder_authorize c e b method d r = Ok header /\ Builder_to_form c e b method d r = Ok form
    /\ Builder_to_query c e (w := StringW) dstr b method uri r = Ok query
    /\ to_form r = Ok body /\ to_query uri r = Ok query_only
    /\ let accepted out := out = Some (shown (conf_of name e b) sig l) in
       accepted (server_check check method uri (Some header) body)
       /\ accepted (server_check check method query_only (Some header) [])
       /\ accepted (server_check check method uri None (form_join form body))
       /\ accepted (server_check check method query None body)
       /\ accepted (server_check check method (query_join query body) None [])).
Proof.
  intros V pg self sy fs callss r l0 c e b name f method uri d sig check HR HD HC HS HO HB HT HM HU ED OD.
  destruct (derived_honest _ _ _ _ _ _ _ HR HD HC HS HO) as [l [P [HH _]]]. exists l. split; [exact P|]. intros HA.
  destruct (C65_header c e b name f r l method uri d sig check HB HT HH HM HU ED OD HA) as [header [body [query [A1 [A2 [A3 [A4 A5]]]]]]].
  destruct (C65_form_query c e b name f r l method uri d sig check HB HT HH HM HU ED OD HA) as [form [query' [body' [B1 [B2 [B3 [B4 [B5 B6]]]]]]]].
  rewrite A2 in B3. injection B3 as <-. exists header, form, query', body, query. repeat (split; [assumption|]). assumption.
Qed.
Print Assumptions C54_transports.

(** The server of the repository. *)
Theorem C54_example_server : forall {V} (pg : program V) self sy fs callss r l0 c e b wd method path d,
  derived_request pg self sy fs callss r ->
  Forall displays_ok (concat callss) -> carries (concat callss) l0 -> safe_keys l0 -> no_oauth_keys l0 ->
  SpecExample.compatible c e b wd -> normal_method method -> Forall SpecHttp.utf8_pair l0 ->
  SpecExample.plain_path path -> dok d -> dtext d = SpecExample.origin ++ path ->
  exists l header body uri sig, Permutation l l0
    /\ Builder_authorize c e b method d r = Ok header /\ to_form r = Ok body /\ to_query (SpecExample.origin ++ path) r = Ok uri
    /\ forall handler,
       let called out := out = MServer.Done_ (handler (sort_pairs (SpecExample.sent_params (PropsServer.hmac_conf e b) sig ++ l))
                                  (SpecExample.understood (PropsServer.hmac_conf e b) sig)) in
       called (MServer.verify_and_then wd (SpecExample.form_request method path header body)
                 (bd_client b) (bd_token b) (op_verifier (bd_options b)) handler)
       /\ called (MServer.verify_and_then wd (SpecExample.query_request method path header (MClient.uri_query uri))
                 (bd_client b) (bd_token b) (op_verifier (bd_options b)) handler).
Proof.
  intros V pg self sy fs callss r l0 c e b wd method path d HR HD HC HS HO HX HM HV HP OD ED.
  destruct (derived_honest _ _ _ _ _ _ _ HR HD HC HS HO) as [l [P [_ HH]]].
  assert (HV' : Forall SpecHttp.utf8_pair l) by (now apply (Permutation_Forall (Permutation_sym P))).
  destruct (PropsExample.C55_form c e b wd r l method path d HX HH HM HV' HP OD ED) as [h [body [sig [A1 [A2 [A3 A4]]]]]].
  destruct (PropsExample.C55_query c e b wd r l method path d HX HH HM HV' HP OD ED) as [h' [uri [sig' [B1 [B2 [_ [B3 B4]]]]]]].
  rewrite A1 in B1. injection B1 as <-. subst sig sig'.
  do 5 eexists. split; [exact P|]. split; [exact A1|]. split; [exact A2|]. split; [exact B2|]. intros handler. split; [apply A4|apply B4].
Qed.
Print Assumptions C54_example_server.
