(** Requests as call sequences. *)
From Coq Require Import String.
From Coq Require Import Lia Arith Sorted.
From Verif Require Import Bytes Crypto Spec MFmt MSign MSerializer MRequest SpecCalls LBytes LFmt.

Lemma run_calls_app : forall {S : Serializer} cs1 cs2 (s : S),
  run_calls (cs1 ++ cs2) s = (s <- run_calls cs1 s ;; run_calls cs2 s).
Proof.
  induction cs1 as [|c cs1 IH]; intros cs2 s; simpl; auto.
  destruct (run_call c s); simpl; auto.
Qed.

Lemma run_scalls_app : forall {sg : Sign} cs1 cs2 (s : sg),
  run_scalls s (cs1 ++ cs2) = (s <- run_scalls s cs1 ;; run_scalls s cs2).
Proof.
  induction cs1 as [|c cs1 IH]; intros cs2 s; simpl; auto.
  destruct (run_scall s c); simpl; auto.
Qed.

(** ** The call sequence of a list of pairs *)

Fixpoint take_lt (k : bytes) (ps : list proto) : list proto :=
  match ps with
  | [] => []
  | p :: ps' => if bltb (proto_key p) k then p :: take_lt k ps' else []
  end.
Fixpoint drop_lt (k : bytes) (ps : list proto) : list proto :=
  match ps with
  | [] => []
  | p :: ps' => if bltb (proto_key p) k then drop_lt k ps' else ps
  end.

Fixpoint merge_calls (ps : list proto) (l : list kv) : list call :=
  match l with
  | [] => map CProto ps
  | (k, v) :: l' => map CProto (take_lt k ps) ++ CParam k v :: merge_calls (drop_lt k ps) l'
  end.

Definition calls_of (l : list kv) : list call := merge_calls all_protos l.

Lemma take_drop : forall k ps, take_lt k ps ++ drop_lt k ps = ps.
Proof. induction ps; simpl; auto. destruct (bltb _ k); simpl; congruence. Qed.

(** Suffixes of the protocol parameters correspond to the iteration variable of the code. *)
Definition op_of (ps : list proto) : OAuthParameter :=
  match ps with
  | [] => None_
  | PCallback :: _ => Callback
  | PConsumerKey :: _ => ConsumerKey
  | PNonce :: _ => Nonce
  | PSignatureMethod :: _ => SignatureMethod_
  | PTimestamp :: _ => Timestamp
  | PToken :: _ => Token_
  | PVerifier :: _ => Verifier
  | PVersion :: _ => Version
  end.

Definition suffix (ps : list proto) : Prop := exists pre, all_protos = pre ++ ps.

Lemma suffix_cases : forall ps, suffix ps -> exists n, n <= 8 /\ ps = skipn n all_protos.
Proof.
  intros ps [pre H]. exists (length pre). split.
  - change 8 with (length all_protos). rewrite H, app_length. lia.
  - rewrite H, skipn_app, skipn_all, Nat.sub_diag. reflexivity.
Qed.

Lemma suffix_tail : forall p ps, suffix (p :: ps) -> suffix ps.
Proof. intros p ps [pre H]. exists (pre ++ [p]). now rewrite <- app_assoc. Qed.

Lemma suffix_length : forall ps, suffix ps -> length ps <= 8.
Proof. intros ps [pre H]. change 8 with (length all_protos). rewrite H, app_length. lia. Qed.

Lemma suffix_drop : forall k ps, suffix ps -> suffix (drop_lt k ps).
Proof.
  induction ps; simpl; auto. intros H. destruct (bltb _ k); auto. eapply IHps, suffix_tail; eauto.
Qed.

Lemma op_of_cons : forall dbg p ps, suffix (p :: ps) ->
  next dbg (op_of (p :: ps)) = Ok (op_of ps)
  /\ as_str (op_of (p :: ps)) = Some (proto_key p)
  /\ is_none_ (op_of (p :: ps)) = false
  /\ forall (S : Serializer) (s : S), op_serialize (op_of (p :: ps)) s = run_call (CProto p) s.
Proof.
  intros dbg p ps H. apply suffix_cases in H as [n [Hn H]].
  do 9 (destruct n as [|n]; [simpl in H; inversion H; subst; repeat split|]); try lia.
Qed.

Lemma op_lt_cons : forall k p ps, suffix (p :: ps) ->
  op_lt (op_of (p :: ps)) k = bltb (proto_key p) k.
Proof.
  intros k p ps H. destruct (op_of_cons false p ps H) as [_ [H1 _]].
  unfold op_lt, op_partial_cmp. rewrite H1. reflexivity.
Qed.

Lemma oauth_before_spec : forall dbg (S : Serializer) k ps fuel (s : S),
  suffix ps -> length ps <= fuel ->
  oauth_before dbg fuel k (op_of ps) s
  = (s <- run_calls (map CProto (take_lt k ps)) s ;; Ok (op_of (drop_lt k ps), s)).
Proof.
  intros dbg S k. induction ps as [|p ps IH]; intros fuel s HS HF.
  - simpl. destruct fuel; reflexivity.
  - destruct fuel as [|fuel]; [simpl in HF; lia|].
    cbn [oauth_before take_lt drop_lt]. rewrite op_lt_cons by auto.
    destruct (bltb (proto_key p) k) eqn:E; [|reflexivity].
    destruct (op_of_cons dbg p ps HS) as [H1 [_ [_ H2]]].
    rewrite H2, H1. cbn [map run_calls rbind].
    destruct (run_call (CProto p) s) as [s1|]; [cbn [rbind]|reflexivity].
    apply IH; [eapply suffix_tail; eauto|simpl in HF; lia].
Qed.

Lemma oauth_rest_spec : forall dbg (S : Serializer) ps fuel (s : S),
  suffix ps -> length ps <= fuel ->
  oauth_rest dbg fuel (op_of ps) s = run_calls (map CProto ps) s.
Proof.
  intros dbg S. induction ps as [|p ps IH]; intros fuel s HS HF.
  - destruct fuel; reflexivity.
  - destruct fuel as [|fuel]; [simpl in HF; lia|].
    destruct (op_of_cons dbg p ps HS) as [H1 [_ [H3 H2]]].
    cbn [oauth_rest]. rewrite H3, H2, H1. cbn [map run_calls rbind].
    destruct (run_call (CProto p) s) as [s1|]; [cbn [rbind]|reflexivity].
    apply IH; [eapply suffix_tail; eauto|simpl in HF; lia].
Qed.

Lemma as_loop_spec : forall dbg (S : Serializer) l ps (s : S),
  suffix ps ->
  ('(p, s) <- as_loop dbg l (op_of ps) s ;; oauth_rest dbg 9 p s)
  = run_calls (merge_calls ps l) s.
Proof.
  intros dbg S. induction l as [|[k v] l IH]; intros ps s HS.
  - cbn [as_loop rbind merge_calls]. apply oauth_rest_spec; auto.
    apply suffix_length in HS. lia.
  - cbn [as_loop merge_calls]. rewrite run_calls_app.
    rewrite oauth_before_spec by (auto; apply suffix_length in HS; lia).
    destruct (run_calls (map CProto (take_lt k ps)) s) as [s1|]; cbn [rbind]; [|reflexivity].
    cbn [run_calls run_call]. destruct (sr_parameter s1 k v) as [s2|]; cbn [rbind]; [|reflexivity].
    apply IH. now apply suffix_drop.
Qed.

Lemma AssertSorted_calls : forall dbg l, makes_calls (AssertSorted dbg l) (calls_of l).
Proof.
  intros dbg l S s. unfold AssertSorted, calls_of.
  assert (HS : suffix all_protos) by (exists []; reflexivity).
  rewrite <- (as_loop_spec dbg S l all_protos s HS).
  change (op_of all_protos) with OAuthParameter_default.
  destruct (as_loop dbg l OAuthParameter_default s) as [[p s1]|]; reflexivity.
Qed.

Lemma unit_calls : makes_calls Request_unit (map CProto all_protos).
Proof.
  intros S s. unfold Request_unit, serialize_oauth_parameters. cbn [map all_protos run_calls run_call].
  rewrite !rbind_assoc. apply rbind_ext. intros s1 _.
  do 6 (rewrite !rbind_assoc; apply rbind_ext; intros ? _).
  rewrite rbind_assoc. reflexivity.
Qed.

(** ** What the call sequence contains *)

Lemma call_protos_app : forall a b, call_protos (a ++ b) = call_protos a ++ call_protos b.
Proof. intros. apply flat_map_app. Qed.
Lemma call_params_app : forall a b, call_params (a ++ b) = call_params a ++ call_params b.
Proof. intros. apply flat_map_app. Qed.
Lemma call_params_enc_app : forall a b, call_params_enc (a ++ b) = call_params_enc a ++ call_params_enc b.
Proof. intros. apply flat_map_app. Qed.

Lemma call_protos_map : forall ps, call_protos (map CProto ps) = ps.
Proof. induction ps; simpl; congruence. Qed.
Lemma call_params_map : forall ps, call_params (map CProto ps) = [].
Proof. induction ps; simpl; auto. Qed.
Lemma call_params_enc_map : forall ps, call_params_enc (map CProto ps) = [].
Proof. induction ps; simpl; auto. Qed.

Lemma merge_protos : forall l ps, call_protos (merge_calls ps l) = ps.
Proof.
  induction l as [|[k v] l IH]; intros ps; simpl; [apply call_protos_map|].
  rewrite call_protos_app, call_protos_map. simpl. rewrite IH. apply take_drop.
Qed.

Lemma merge_params : forall l ps, call_params (merge_calls ps l) = l.
Proof.
  induction l as [|[k v] l IH]; intros ps; simpl; [apply call_params_map|].
  rewrite call_params_app, call_params_map. simpl. now rewrite IH.
Qed.

Lemma merge_params_enc : forall l ps, call_params_enc (merge_calls ps l) = [].
Proof.
  induction l as [|[k v] l IH]; intros ps; simpl; [apply call_params_enc_map|].
  rewrite call_params_enc_app, call_params_enc_map. simpl. now rewrite IH.
Qed.

(** ** Order *)

Lemma ascending_app : forall a b,
  ascending (a ++ b) <->
  ascending a /\ ascending b /\ forall x y, In x a -> In y b -> bleb x y = true.
Proof.
  unfold ascending. induction a as [|x a IH]; intros b; simpl.
  - split; [intros H; repeat split; auto; try constructor; intros ? ? []|tauto].
  - split.
    + intros H. inversion H; subst. apply IH in H2 as [H4 [H5 H6]].
      rewrite Forall_app in H3. destruct H3 as [H7 H8]. rewrite Forall_forall in H8.
      repeat split; auto. constructor; auto. intros x' y [<-|Hx] Hy; auto.
    + intros [H1 [H2 H3]]. inversion H1; subst. constructor.
      * apply IH. repeat split; auto.
      * rewrite Forall_app. split; auto. rewrite Forall_forall. auto.
Qed.

Lemma ascending_protos : ascending (map proto_key all_protos).
Proof. unfold ascending. repeat constructor. Qed.

Lemma suffix_ascending : forall ps, suffix ps -> ascending (map proto_key ps).
Proof.
  intros ps [pre H]. pose proof ascending_protos as HA. rewrite H, map_app in HA.
  now apply ascending_app in HA.
Qed.

Lemma in_take_lt : forall k ps p, In p (take_lt k ps) -> bltb (proto_key p) k = true.
Proof.
  induction ps as [|q ps IH]; simpl; intros p; [tauto|].
  destruct (bltb (proto_key q) k) eqn:E; simpl; [|tauto]. intros [<-|H]; auto.
Qed.

Lemma in_drop_lt : forall k ps p, suffix ps -> In p (drop_lt k ps) -> bleb k (proto_key p) = true.
Proof.
  induction ps as [|q ps IH]; simpl; intros p HS; [tauto|].
  destruct (bltb (proto_key q) k) eqn:E.
  - apply IH. eapply suffix_tail; eauto.
  - rewrite bltb_negb_bleb in E. apply negb_false_iff in E. intros [<-|H]; auto.
    apply suffix_ascending in HS. inversion HS; subst. rewrite Forall_forall in H3.
    eapply bleb_trans; eauto. apply H3. now apply in_map.
Qed.

Lemma merge_keys_in : forall l ps x, In x (map call_key (merge_calls ps l)) ->
  In x (map fst l) \/ In x (map proto_key ps).
Proof.
  induction l as [|[k v] l IH]; intros ps x; simpl.
  - rewrite map_map. simpl. auto.
  - rewrite map_app, in_app_iff. simpl. rewrite map_map. simpl. intros [H|[H|H]]; auto.
    + right. rewrite <- (take_drop k ps), map_app, in_app_iff. auto.
    + apply IH in H as [H|H]; auto. right. rewrite <- (take_drop k ps), map_app, in_app_iff. auto.
Qed.

Lemma merge_ascending : forall l ps, suffix ps -> ascending (map fst l) ->
  ascending (map call_key (merge_calls ps l)).
Proof.
  induction l as [|[k v] l IH]; intros ps HS HL.
  - simpl. rewrite map_map. simpl. now apply suffix_ascending.
  - cbn [merge_calls]. rewrite map_app, map_map. cbn [map call_key].
    simpl in HL. inversion HL; subst. rewrite Forall_forall in H2.
    assert (HD : forall y, In y (map call_key (merge_calls (drop_lt k ps) l)) -> bleb k y = true).
    { intros y Hy. apply merge_keys_in in Hy as [Hy|Hy]; auto.
      apply in_map_iff in Hy as [p [<- Hp]]. eapply in_drop_lt; eauto. }
    apply ascending_app. split; [|split].
    + apply suffix_ascending in HS. rewrite <- (take_drop k ps), map_app in HS.
      now apply ascending_app in HS.
    + constructor; [apply IH; auto using suffix_drop|]. now apply Forall_forall.
    + intros x y Hx Hy. apply in_map_iff in Hx as [p [<- Hp]]. apply in_take_lt in Hp.
      apply bltb_bleb in Hp. destruct Hy as [<-|Hy]; auto. eapply bleb_trans; eauto.
Qed.

Lemma calls_of_ascending : forall l, ascending (map fst l) -> ascending (map call_key (calls_of l)).
Proof. intros. apply merge_ascending; auto. exists []. reflexivity. Qed.

Lemma merge_ascending_inv : forall l ps, ascending (map call_key (merge_calls ps l)) ->
  ascending (map fst l).
Proof.
  induction l as [|[k v] l IH]; intros ps H; [constructor|].
  cbn [merge_calls] in H. rewrite map_app in H. apply ascending_app in H as [_ [H _]].
  cbn [map call_key] in H. inversion H; subst. simpl. constructor; [eapply IH; eauto|].
  rewrite Forall_forall in *. intros x Hx. apply H3.
  clear -Hx. revert Hx. generalize (drop_lt k ps). induction l as [|[k' v'] l IH]; intros ps' Hx; [destruct Hx|].
  cbn [merge_calls]. rewrite map_app, in_app_iff. right. destruct Hx as [<-|Hx]; [now left|right; auto].
Qed.
