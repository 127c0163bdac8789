(** The form encoder, and parsing what it writes. *)
From Coq Require Import String.
From Coq Require Import Lia Arith Sorted.
From Verif Require Import Bytes Crypto Spec MFmt MPercent MSign MSerializer MRequest MCredentials MAuth
  MBuilder SpecCalls SpecAuth SpecBuild SpecForm LBytes LFmt LPercent LCrypto LTrace LAuth LSign LBuild.

(** ** Exact output for [String] *)

Lemma ue_enc_string : forall (u : Urlencoder StringW) k v,
  ue_parameter_encoded u k v =
  match dfinal v with
  | Ok true => Ok (Build_Urlencoder (w := StringW)
                     (ue_data u ++ ue_added (ue_next_append u) [(k, dtext v)]) AAmpersand)
  | Ok false => Panic PFmt
  | Panic p => Panic p
  end.
Proof.
  intros [d ap] k v. unfold ue_parameter_encoded, ue_append_delim. cbn [ue_next_append ue_data].
  assert (HF : forall x : StringW, write_unwrap (dseq (dstr k) (dseq (dstr (lit "=")) v)) x
    = match dfinal v with
      | Ok true => Ok (x ++ k ++ lit "=" ++ dtext v : StringW)
      | Ok false => Panic PFmt
      | Panic p => Panic p
      end).
  { intros x. unfold write_unwrap. rewrite run_disp_string.
    rewrite !dfinal_dseq, !dtext_dseq, !dtext_dstr by apply dok_dstr.
    destruct (dfinal v) as [[|]|]; reflexivity. }
  destruct ap; rewrite ?(write_unwrap_string (dstr _)) by apply dok_dstr; cbn [rbind ue_data ue_next_append];
    rewrite HF; destruct (dfinal v) as [[|]|]; cbn [rbind]; auto; rewrite ?dtext_dstr; unfold ue_added, form_text;
    cbn [map join]; unfold form_pair; cbn [fst snd]; rewrite <- ?app_assoc; reflexivity.
Qed.

Lemma ue_par_enc : forall w (u : Urlencoder w) k v,
  ue_parameter u k v = ue_parameter_encoded u k (PercentEncode v).
Proof. reflexivity. Qed.

Lemma ue_run_string : forall cs (u u' : Urlencoder StringW),
  run_calls (S := UrlencoderS StringW) cs u = Ok u' <->
  Forall displays_ok cs /\
  u' = Build_Urlencoder (w := StringW) (ue_data u ++ ue_added (ue_next_append u) (form_fields cs))
         (ue_after (ue_next_append u) (form_fields cs)).
Proof.
  induction cs as [|x cs IH]; intros u u'.
  - cbn. rewrite app_nil_r. destruct u. split; [intros H; inversion H; auto|]. intros [_ ->]. reflexivity.
  - assert (HE : forall k v, run_calls (S := UrlencoderS StringW) cs
         (Build_Urlencoder (w := StringW) (ue_data u ++ ue_added (ue_next_append u) [(k, v)]) AAmpersand) = Ok u'
       <-> Forall displays_ok cs /\ u' = Build_Urlencoder (w := StringW)
             (ue_data u ++ ue_added (ue_next_append u) ((k, v) :: form_fields cs)) AAmpersand).
    { intros k v. rewrite IH. cbn [ue_data ue_next_append].
      rewrite <- app_assoc.
      replace (ue_after AAmpersand (form_fields cs)) with AAmpersand
        by (destruct (form_fields cs); reflexivity).
      change ((k, v) :: form_fields cs) with ([(k, v)] ++ form_fields cs).
      rewrite (ue_added_app _ [(k, v)]). reflexivity. }
    cbn [run_calls]. rewrite Forall_cons_iff. destruct x as [k v|k v|p].
    + cbn [run_call sr_parameter UrlencoderS displays_ok]. rewrite ue_par_enc, ue_enc_string, dfinal_PercentEncode.
      unfold dok. destruct (dfinal v) as [[|]|]; cbn [rbind].
      * rewrite HE, dtext_PercentEncode. cbn. tauto.
      * split; [discriminate|]. intros [[H _] _]. discriminate.
      * split; [discriminate|]. intros [[H _] _]. discriminate.
    + cbn [run_call sr_parameter_encoded UrlencoderS displays_ok]. rewrite ue_enc_string.
      unfold dok. destruct (dfinal v) as [[|]|]; cbn [rbind].
      * rewrite HE. cbn. tauto.
      * split; [discriminate|]. intros [[H _] _]. discriminate.
      * split; [discriminate|]. intros [[H _] _]. discriminate.
    + assert (HP : run_call (S := UrlencoderS StringW) (CProto p) u = Ok u) by (destruct p; reflexivity).
      rewrite HP. cbn [rbind displays_ok]. rewrite IH. cbn. tauto.
Qed.

Lemma to_form_exact : forall r cs out, makes_calls r cs ->
  (to_form r = Ok out <-> Forall displays_ok cs /\ out = form_text (form_fields cs)).
Proof.
  intros r cs out HM. unfold to_form. rewrite (HM (UrlencoderS StringW)). split.
  - intros H. apply rbind_ok in H as [u [H1 H2]]. apply ue_run_string in H1 as [V ->].
    split; auto. cbn in H2. inversion H2. unfold ue_added. destruct (form_fields cs); reflexivity.
  - intros [V ->]. rewrite (proj2 (ue_run_string cs ue_form _) (conj V eq_refl)). cbn. unfold ue_added. destruct (form_fields cs); reflexivity.
Qed.

Lemma to_query_exact : forall r cs uri out, makes_calls r cs ->
  (to_query uri r = Ok out <-> Forall displays_ok cs /\ out = query_text uri (form_fields cs)).
Proof.
  intros r cs uri out HM. unfold to_query. rewrite (HM (UrlencoderS StringW)). split.
  - intros H. apply rbind_ok in H as [u [H1 H2]]. apply ue_run_string in H1 as [V ->].
    split; auto. cbn in H2. inversion H2. unfold ue_added, query_text.
    destruct (form_fields cs); [apply app_nil_r|reflexivity].
  - intros [V ->]. rewrite (proj2 (ue_run_string cs (ue_query (w := StringW) uri) _) (conj V eq_refl)). cbn. unfold ue_added, query_text.
    destruct (form_fields cs); [now rewrite app_nil_r|reflexivity].
Qed.

(** ** Any writer *)

Definition values_propagate (x : call) : Prop :=
  match x with CParam _ v | CParamEnc _ v => propagates v | CProto _ => True end.

Lemma ue_enc_any : forall (w : Writer) (u u' : Urlencoder w) k v,
  propagates v -> ue_parameter_encoded u k v = Ok u' ->
  dok v /\ ue_next_append u' = AAmpersand /\
  exists ch, writes_ok (ue_data u) ch (ue_data u') /\ concat ch = ue_added (ue_next_append u) [(k, dtext v)].
Proof.
  intros w u u' k v HP H.
  assert (D : dok v).
  { pose proof H as H'. unfold ue_parameter_encoded in H'.
    apply rbind_ok in H' as [u1 [H1 H']]. apply rbind_ok in H' as [d [H2 _]].
    apply write_unwrap_propagates in H2 as [D _]; [|auto using propagates_dseq, propagates_dstr].
    apply dok_dseq_inv in D as [_ D]. now apply dok_dseq_inv in D as [_ D]. }
  split; auto. pose proof (ue_parameter_encoded_rel u u' k v D HP H) as [x [ch [E [W1 C1]]]].
  inversion E; subst. split; [reflexivity|]. exists ch. auto.
Qed.

Lemma ue_run_any : forall (w : Writer) cs (u u' : Urlencoder w),
  Forall values_propagate cs ->
  run_calls (S := UrlencoderS w) cs u = Ok u' ->
  Forall displays_ok cs /\ ue_next_append u' = ue_after (ue_next_append u) (form_fields cs) /\
  exists ch, writes_ok (ue_data u) ch (ue_data u')
             /\ concat ch = ue_added (ue_next_append u) (form_fields cs).
Proof.
  intros w. induction cs as [|x cs IH]; intros u u' HP H.
  - inversion H; subst. split; [constructor|]. split; auto. exists []. split; constructor.
  - inversion HP as [|x' cs' HP1 HP2]; subst x' cs'. cbn [run_calls] in H. apply rbind_ok in H as [u1 [H1 H2]].
    destruct (IH _ _ HP2 H2) as [V [A [ch [W1 C1]]]].
    assert (HK : forall k v, dok v -> ue_next_append u1 = AAmpersand ->
       (exists ch0, writes_ok (ue_data u) ch0 (ue_data u1) /\ concat ch0 = ue_added (ue_next_append u) [(k, dtext v)]) ->
       ue_next_append u' = ue_after (ue_next_append u) ((k, dtext v) :: form_fields cs) /\
       exists ch, writes_ok (ue_data u) ch (ue_data u')
             /\ concat ch = ue_added (ue_next_append u) ((k, dtext v) :: form_fields cs)).
    { intros k v D HA [ch0 [W0 C0]]. rewrite HA in A, C1. split.
      { rewrite A. destruct (form_fields cs); reflexivity. }
      exists (ch0 ++ ch). split; [eapply writes_ok_app; eauto|].
      change ((k, dtext v) :: form_fields cs) with ([(k, dtext v)] ++ form_fields cs).
      rewrite ue_added_app, concat_app, C0, C1. reflexivity. }
    destruct x as [k v|k v|p]; cbn [run_call sr_parameter sr_parameter_encoded UrlencoderS] in H1.
    + rewrite ue_par_enc in H1.
      apply ue_enc_any in H1 as [D [E HC]].
      2:{ now apply propagates_PercentEncode. }
      assert (D' : dok v) by (unfold dok in *; now rewrite dfinal_PercentEncode in D).
      split; [constructor; auto|].
      destruct (HK k (PercentEncode v)) as [K1 K2]; auto.
      rewrite dtext_PercentEncode in K1, K2. split; auto.
    + apply ue_enc_any in H1 as [D [E HC]]; auto.
      split; [constructor; auto|].
      destruct (HK k v) as [K1 K2]; auto.
    + assert (HE : u1 = u) by (destruct p; inversion H1; auto). subst u1.
      split; [constructor; cbn; auto|]. split; auto. exists ch. auto.
Qed.

(** ** Splitting *)

Lemma split_at_app : forall sep a b, ~ In sep a -> split_at sep (a ++ sep :: b) = (a, Some b).
Proof.
  induction a as [|x a IH]; intros b H; cbn.
  - now rewrite beqb_refl.
  - assert (beqb x sep = false) as -> by (apply beqb_neq; intros ->; apply H; now left).
    rewrite IH; auto. intros HX. apply H. now right.
Qed.

Lemma split_at_none : forall sep a, ~ In sep a -> split_at sep a = (a, None).
Proof.
  induction a as [|x a IH]; intros H; cbn; auto.
  assert (beqb x sep = false) as -> by (apply beqb_neq; intros ->; apply H; now left).
  rewrite IH; auto. intros HX. apply H. now right.
Qed.

Lemma split_all_none : forall sep a, ~ In sep a -> split_all sep a = [a].
Proof.
  induction a as [|x a IH]; intros H; cbn; auto.
  assert (beqb x sep = false) as -> by (apply beqb_neq; intros ->; apply H; now left).
  rewrite IH; auto. intros HX. apply H. now right.
Qed.

Lemma split_all_app : forall sep a b, ~ In sep a -> split_all sep (a ++ sep :: b) = a :: split_all sep b.
Proof.
  induction a as [|x a IH]; intros b H; cbn.
  - now rewrite beqb_refl.
  - assert (beqb x sep = false) as -> by (apply beqb_neq; intros ->; apply H; now left).
    rewrite IH; auto. intros HX. apply H. now right.
Qed.

Lemma split_all_join : forall sep l, l <> [] -> Forall (fun x => ~ In sep x) l ->
  split_all sep (join [sep] l) = l.
Proof.
  intros sep. induction l as [|x l IH]; intros HN H; [congruence|]. inversion H; subst.
  destruct l as [|y l]; [now apply split_all_none|].
  change (join [sep] (x :: y :: l)) with (x ++ sep :: join [sep] (y :: l)).
  rewrite split_all_app by auto. rewrite IH; auto. discriminate.
Qed.

(** ** Alphabets *)

Lemma safe_no : forall c s, unreserved c = false -> uri_safe s -> ~ In c s.
Proof. intros c s H HS HI. apply HS in HI. congruence. Qed.

Lemma enc_no : forall c s, unreserved c = false -> c <> "%"%byte -> ~ In c (pct_encode s).
Proof. intros c s H HN HI. apply pct_encode_chars in HI as [HI|HI]; congruence. Qed.

Lemma plus_none : forall s, ~ In "+"%byte s -> plus_to_space s = s.
Proof.
  induction s as [|x s IH]; intros H; auto. cbn.
  assert (beqb x "+" = false) as -> by (apply beqb_neq; intros ->; apply H; now left).
  f_equal. apply IH. intros HX. apply H. now right.
Qed.

Lemma pct_decode_safe : forall s, uri_safe s -> pct_decode s = Some s.
Proof. intros s H. rewrite <- (pct_encode_safe s H) at 1. apply pct_decode_encode. Qed.

Lemma form_field_pair : forall k v, uri_safe k ->
  form_field (form_pair (k, pct_encode v)) = Some (k, v).
Proof.
  intros k v HK. unfold form_field, form_pair. cbn [fst snd].
  change (lit "=" ++ pct_encode v) with ("="%byte :: pct_encode v).
  rewrite split_at_app by (apply safe_no; auto).
  rewrite !plus_none by (first [apply safe_no; auto; fail | apply enc_no; [reflexivity|discriminate]]).
  now rewrite pct_decode_safe, pct_decode_encode.
Qed.

Lemma all_some_map : forall {A B} (f : A -> option B) (g : A -> B) l,
  (forall x, In x l -> f x = Some (g x)) -> all_some (map f l) = Some (map g l).
Proof.
  intros A B f g. induction l as [|x l IH]; intros H; auto. cbn.
  rewrite (H x) by now left. rewrite IH; auto. intros y Hy. apply H. now right.
Qed.

Lemma form_pair_no_amp : forall k v, uri_safe k -> ~ In "&"%byte (form_pair (k, pct_encode v)).
Proof.
  intros k v HK HI. unfold form_pair in HI. cbn [fst snd] in HI.
  rewrite !in_app_iff in HI. destruct HI as [HI|[[HI|[]]|HI]].
  - revert HI. now apply safe_no.
  - discriminate.
  - revert HI. apply enc_no; [reflexivity|discriminate].
Qed.

Lemma form_text_nonempty : forall p l, form_text (p :: l) <> [].
Proof.
  intros p l H. unfold form_text in H. cbn [map] in H. destruct (map form_pair l) as [|y t];
    [|rewrite join_cons in H by discriminate];
    unfold form_pair in H; rewrite <- ?app_assoc in H; apply app_eq_nil in H as [_ H]; discriminate.
Qed.

Lemma parse_form_text : forall l, safe_keys l ->
  parse_form (form_text (map enc_value l)) = Some l.
Proof.
  intros l HS. destruct l as [|p l]; [reflexivity|].
  unfold parse_form. cbn [map].
  destruct (form_text (enc_value p :: map enc_value l)) as [|b t] eqn:E.
  { now apply form_text_nonempty in E. }
  rewrite <- E. clear b t E. change (enc_value p :: map enc_value l) with (map enc_value (p :: l)).
  unfold form_text. rewrite map_map. change (lit "&") with ["&"%byte].
  rewrite split_all_join.
  - rewrite map_map. rewrite (all_some_map _ (fun x => x)); [now rewrite map_id|].
    intros [k v] HI. unfold safe_keys in HS. rewrite Forall_forall in HS. apply (form_field_pair k v).
    apply (HS (k, v) HI).
  - discriminate.
  - apply Forall_forall. intros x HI. apply in_map_iff in HI as [[k v] [<- HI]].
    unfold safe_keys in HS. rewrite Forall_forall in HS. apply (form_pair_no_amp k v). apply (HS (k, v) HI).
Qed.

Lemma parse_query_text : forall u l, safe_keys l -> ~ In "?"%byte u ->
  parse_uri (query_text u (map enc_value l)) = Some (u, l).
Proof.
  intros u l HS HU. unfold parse_uri, query_text. destruct l as [|p l].
  - cbn [map]. now rewrite split_at_none.
  - cbn [map]. change (lit "?" ++ form_text (enc_value p :: map enc_value l))
      with ("?"%byte :: form_text (map enc_value (p :: l))).
    rewrite split_at_app by auto. now rewrite parse_form_text.
Qed.

(** ** The Authorization header *)

Lemma strip_prefix_app : forall p s, strip_prefix p (p ++ s) = Some s.
Proof. induction p as [|a p IH]; intros s; cbn; auto. now rewrite beqb_refl. Qed.

Lemma auth_param_field : forall k v v' rest, uri_safe k -> ~ In """"%byte v -> pct_decode v = Some v' ->
  auth_param (k ++ lit "=""" ++ v ++ lit """" ++ rest) = Some ((k, v'), rest).
Proof.
  intros k v v' rest HK HV HD. unfold auth_param.
  change (lit "=""" ++ v ++ lit """" ++ rest) with ("="%byte :: """"%byte :: v ++ """"%byte :: rest).
  rewrite split_at_app by (now apply safe_no). rewrite beqb_refl.
  rewrite split_at_app by auto. now rewrite pct_decode_safe, HD.
Qed.

Lemma skip_spaces_safe : forall s, match s with b :: _ => b <> " "%byte | [] => True end -> skip_spaces s = s.
Proof. intros [|b s] H; auto. cbn. apply beqb_neq in H. now rewrite H. Qed.

Lemma key_no_space : forall k s, uri_safe k ->
  match k ++ lit "=""" ++ s with b :: _ => b <> " "%byte | [] => True end.
Proof.
  intros [|b k] s H; cbn; [discriminate|]. intros ->. specialize (H " "%byte (or_introl eq_refl)). discriminate.
Qed.

(** A header field as written and as read. *)
Definition reads_as (f g : pair) : Prop :=
  fst g = fst f /\ uri_safe (fst f) /\ ~ In """"%byte (snd f) /\ pct_decode (snd f) = Some (snd g).

Lemma auth_params_text : forall fs gs sig sig' fuel,
  Forall2 reads_as fs gs -> ~ In """"%byte sig -> pct_decode sig = Some sig' ->
  length fs < fuel ->
  auth_params fuel (concat (map header_field fs) ++ lit "oauth_signature=""" ++ sig ++ lit """")
  = Some (gs ++ [(lit "oauth_signature", sig')]).
Proof.
  intros fs gs sig sig' fuel HF. revert fuel. induction HF as [|[k v] [k' v'] fs gs HR HF IH]; intros fuel HQ HD HL.
  - destruct fuel as [|fuel]; [lia|]. cbn [map concat app auth_params].
    pose proof (auth_param_field (lit "oauth_signature") sig sig' [] (safe_name (lit "oauth_signature") eq_refl) HQ HD) as HP.
    rewrite app_nil_r in HP.
    change (lit "oauth_signature=""" ++ sig ++ lit """")
      with (lit "oauth_signature" ++ lit "=""" ++ sig ++ lit """").
    rewrite HP. reflexivity.
  - destruct fuel as [|fuel]; [lia|]. destruct HR as [E [HK [HV HV']]]. cbn [fst snd] in *. subst k'.
    cbn [map concat auth_params]. unfold header_field at 1. cbn [fst snd].
    pose proof (auth_param_field k v v'
      (lit "," ++ concat (map header_field fs) ++ lit "oauth_signature=""" ++ sig ++ lit """") HK HV HV') as HP.
    assert (HE : ((k ++ lit "=""" ++ v ++ lit """,") ++ concat (map header_field fs)) ++
        lit "oauth_signature=""" ++ sig ++ lit """"
      = k ++ lit "=""" ++ v ++ lit """" ++ lit "," ++ concat (map header_field fs) ++ lit "oauth_signature=""" ++ sig ++ lit """").
    { rewrite <- !app_assoc. reflexivity. }
    rewrite HE, HP. clear HE HP.
    remember (concat (map header_field fs) ++ lit "oauth_signature=""" ++ sig ++ lit """") as rest eqn:ER.
    change (skip_spaces (lit "," ++ rest)) with (","%byte :: rest). cbv beta iota.
    change (beqb "," ",") with true. cbv iota. subst rest.
    rewrite skip_spaces_safe.
    + rewrite IH by (auto; cbn in HL; lia). reflexivity.
    + destruct fs as [|[k2 v2] fs]; [discriminate|]. cbn [map concat]. unfold header_field. cbn [fst snd].
      inversion HF as [|? ? ? ? [_ [HK2 _]]]; subst. cbn [fst] in HK2.
      rewrite <- !app_assoc. now apply key_no_space.
Qed.

Lemma concat_header_length : forall fs, length fs <= length (concat (map header_field fs)).
Proof.
  induction fs as [|[k v] fs IH]; [auto|]. cbn [map concat length]. rewrite app_length.
  unfold header_field at 1. cbn [fst snd]. rewrite !app_length. change (length (lit "=""")) with 2. lia.
Qed.

Lemma parse_header_text : forall fs gs sig sig',
  Forall2 reads_as fs gs -> ~ In """"%byte sig -> pct_decode sig = Some sig' ->
  parse_header (header_text fs sig) = Some (gs ++ [(lit "oauth_signature", sig')]).
Proof.
  intros fs gs sig sig' HF HQ HD. unfold parse_header, header_text. rewrite strip_prefix_app.
  rewrite skip_spaces_safe.
  - apply auth_params_text; auto. pose proof (concat_header_length fs). rewrite !app_length. cbn [length lit list_byte_of_string]. 
    change (length (lit "oauth_signature=""")) with 17. lia.
  - destruct fs as [|[k2 v2] fs]; [discriminate|]. cbn [map concat]. unfold header_field. cbn [fst snd].
    inversion HF as [|? ? ? ? [_ [HK2 _]]]; subst. cbn [fst] in HK2.
    rewrite <- !app_assoc. now apply key_no_space.
Qed.
