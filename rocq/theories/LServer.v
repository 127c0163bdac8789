(** The client's output seen by the server of [Spec.v]. *)
From Coq Require Import String.
From Coq Require Import Lia Arith Sorted Permutation.
From Verif Require Import Bytes Crypto Spec MFmt MPercent MSerializer MSign MRequest MCredentials MAuth MBuilder
  SpecFmt SpecCalls SpecCalls2 SpecAuth SpecBuild SpecForm SpecServer SpecParams
  LBytes LFmt LPercent LTrace LAuth LSign LBuild LForm LBase LReq LReq2 LPanic LTop LParams.

Lemma pct_decode_enc_quote : forall v, ~ In """"%byte (pct_encode v).
Proof. intros v. apply enc_no; [reflexivity|discriminate]. Qed.

(** The protocol parameters of a call order, raw. *)
Definition raw_fields (cf : conf) (ps : list proto) : list pair :=
  flat_map (fun p => match sent cf 0 0 p with Some v => [(proto_key p, v)] | None => [] end) ps.

Lemma wire_reads : forall cf ps, uri_safe (cn_name cf) ->
  Forall2 reads_as (wire_fields cf ps) (raw_fields cf ps).
Proof.
  intros cf ps HN. induction ps as [|p ps IH]; [constructor|].
  unfold wire_fields, raw_fields in *. cbn [flat_map]. apply Forall2_app; auto.
  destruct (sent cf 0 0 p) as [v|] eqn:E; [|constructor]. constructor; [|constructor].
  split; [reflexivity|]. split; [apply proto_key_safe|]. cbn [snd].
  destruct p; cbn [on_wire]; try (split; [apply pct_decode_enc_quote|apply pct_decode_encode]).
  cbn [sent] in E. inversion E; subst v. split; [now apply safe_no|now apply pct_decode_safe].
Qed.

Lemma raw_all : forall cf, raw_fields cf all_protos = protocol_pairs cf.
Proof. reflexivity. Qed.

Lemma raw_in : forall cf ps f, In f (raw_fields cf ps) -> exists p, In p ps /\ fst f = proto_key p /\ sent cf 0 0 p = Some (snd f).
Proof.
  intros cf ps f H. apply in_flat_map in H as [p [Hp H]]. exists p.
  destruct (sent cf 0 0 p) as [v|]; [|destruct H]. destruct H as [<-|[]]. auto.
Qed.

Lemma lookup_app : forall k l l', lookup k (l ++ l') = lookup k l ++ lookup k l'.
Proof. intros. unfold lookup. now rewrite filter_app, map_app. Qed.

Lemma lookup_none : forall k l, (forall f, In f l -> fst f <> k) -> lookup k l = [].
Proof.
  intros k l H. unfold lookup. induction l as [|f l IH]; [reflexivity|]. cbn [filter].
  destruct (bseqb (fst f) k) eqn:E; [|apply IH; intros; apply H; now right].
  apply bseqb_eq in E. exfalso. apply (H f); [now left|auto].
Qed.

Lemma lookup_raw : forall cf ps p, NoDup ps -> In p ps ->
  lookup (proto_key p) (raw_fields cf ps) = match sent cf 0 0 p with Some v => [v] | None => [] end.
Proof.
  intros cf ps p. induction ps as [|q ps IH]; intros HN HI; [destruct HI|].
  inversion HN as [|? ? HN1 HN2]; subst. unfold raw_fields. cbn [flat_map]. fold (raw_fields cf ps).
  rewrite lookup_app. destruct HI as [->|HI].
  - rewrite (lookup_none _ (raw_fields cf ps)).
    + rewrite app_nil_r. destruct (sent cf 0 0 p); [|reflexivity]. unfold lookup. cbn [filter fst].
      now rewrite bseqb_refl.
    + intros f Hf E. apply raw_in in Hf as [q [Hq [E' _]]]. rewrite E' in E. apply proto_key_inj in E. now subst.
  - rewrite IH by auto. rewrite lookup_none; [reflexivity|]. intros f Hf E.
    assert (fst f = proto_key q) as E' by (destruct (sent cf 0 0 q); [destruct Hf as [<-|[]]; reflexivity|destruct Hf]).
    rewrite E' in E. apply proto_key_inj in E. now subst.
Qed.

Lemma sig_not_proto : forall p, lit "oauth_signature" <> proto_key p.
Proof. intros p H. destruct p; vm_compute in H; discriminate. Qed.
Lemma realm_not_proto : forall p, lit "realm" <> proto_key p.
Proof. intros p H. destruct p; vm_compute in H; discriminate. Qed.

Lemma filter_all : forall {A} (g : A -> bool) l, (forall x, In x l -> g x = true) -> filter g l = l.
Proof.
  intros A g. induction l as [|a l IH]; intros H; [reflexivity|]. cbn. rewrite H by now left.
  f_equal. apply IH. intros; apply H; now right.
Qed.

Lemma no_oauth_sig : forall l, no_oauth_keys l -> filter (fun p => negb (has_key (lit "oauth_signature") p)) l = l.
Proof.
  intros l H. apply filter_all. intros f Hf. unfold no_oauth_keys in H. rewrite Forall_forall in H.
  specialize (H f Hf). unfold has_key. destruct (bseqb (fst f) (lit "oauth_signature")) eqn:E; auto.
  apply bseqb_eq in E. exfalso. apply H. rewrite E. now left.
Qed.

Lemma header_signed : forall cf sig,
  filter (fun p => negb (has_key (lit "oauth_signature") p))
    (filter (fun p => negb (has_key (lit "realm") p)) (protocol_pairs cf ++ [(lit "oauth_signature", sig)]))
  = protocol_pairs cf.
Proof.
  intros cf sig. rewrite !filter_app.
  assert (H : forall k, (forall p, k <> proto_key p) -> filter (fun p => negb (has_key k p)) (protocol_pairs cf) = protocol_pairs cf).
  { intros k Hk. apply filter_all. intros f Hf. rewrite <- raw_all in Hf. apply raw_in in Hf as [p [_ [E _]]].
    unfold has_key. destruct (bseqb (fst f) k) eqn:EB; auto. apply bseqb_eq in EB. exfalso. apply (Hk p). congruence. }
  rewrite (H _ realm_not_proto), (H _ sig_not_proto).
  change (filter (fun p => negb (has_key (lit "realm") p)) [(lit "oauth_signature", sig)])
    with [(lit "oauth_signature", sig)].
  change (filter (fun p => negb (has_key (lit "oauth_signature") p)) [(lit "oauth_signature", sig)])
    with (@nil pair). apply app_nil_r.
Qed.

Lemma server_accepts : forall cf cs ts method uri base header h_sig q b l,
  cn_name cf = lit "HMAC-SHA1" ->
  parse_header header = Some (protocol_pairs cf ++ [(lit "oauth_signature", h_sig)]) ->
  parse_uri uri = Some (base, q) ->
  forall body, parse_form body = Some b -> q ++ b = l -> no_oauth_keys l ->
  h_sig = hmac_signature cs ts (base_string method (base_uri base) (protocol_pairs cf ++ l)) ->
  server_verify cs ts method uri header body
  = Some (protocol_pairs cf ++ [(lit "oauth_signature", h_sig)], l).
Proof.
  intros cf cs ts method uri base header h_sig q b l HN HH HU body HB HL HO HS.
  unfold server_verify. rewrite HH, HU, HB. rewrite !lookup_app.
  rewrite (lookup_none (lit "oauth_signature") (protocol_pairs cf)).
  2:{ intros f Hf E. rewrite <- raw_all in Hf. apply raw_in in Hf as [p [_ [E' _]]]. apply (sig_not_proto p). congruence. }
  change (lit "oauth_signature_method") with (proto_key PSignatureMethod).
  rewrite <- raw_all, (lookup_raw cf all_protos PSignatureMethod all_protos_nodup) by (cbn; tauto).
  cbn [sent app]. unfold lookup. cbn [filter fst map snd].
  change (bseqb (lit "oauth_signature") (lit "oauth_signature")) with true.
  change (bseqb (lit "oauth_signature") (proto_key PSignatureMethod)) with false. cbn [map snd app]. rewrite HN, bseqb_refl.
  cbn [andb]. rewrite raw_all.
  assert (E : base_string method (base_uri base) (signed_params (protocol_pairs cf ++ [(lit "oauth_signature", h_sig)]) b q)
    = base_string method (base_uri base) (protocol_pairs cf ++ l)).
  { apply base_string_perm. unfold signed_params.
    set (h := filter (fun p => negb (has_key (lit "realm") p)) _). rewrite !filter_app. unfold h. rewrite header_signed.
    assert (O : filter (fun p => negb (has_key (lit "oauth_signature") p)) q = q
                /\ filter (fun p => negb (has_key (lit "oauth_signature") p)) b = b).
    { rewrite <- HL in HO. unfold no_oauth_keys in HO. apply Forall_app in HO as [O1 O2].
      split; now apply no_oauth_sig. }
    destruct O as [-> ->]. rewrite <- HL, !app_assoc. apply Permutation_app_tail, Permutation_app_comm. }
  rewrite E, <- HS, bseqb_refl, HL. reflexivity.
Qed.

Section Honest.
  Variables (c : cfg) (e : env) (b : Builder).
  Hypothesis HSM : bd_signature_method b = HMAC_SHA1.
  Let cf := conf_of (lit "HMAC-SHA1") e b.
  Hypothesis HT : timestamp_available c cf.
  Variables (r : Request) (l : list pair) (method uri : bytes).
  Hypothesis HR : honest r l.
  Hypothesis HM : normal_method method.
  Hypothesis HU : normal_uri uri.

  Definition the_sig : bytes :=
    hmac_signature (client_secret b) (token_secret b) (base_string method uri (protocol_pairs cf ++ l)).
  Definition the_params : list pair := protocol_pairs cf ++ [(lit "oauth_signature", the_sig)].

  Lemma honest_valid : forall cs, makes_calls r cs -> ascending (map call_key cs) -> Forall displays_ok cs ->
    forall d, dtext d = uri -> dok d -> valid_for true c cf d cs.
  Proof.
    intros cs _ HA HD d E D. constructor; auto.
    - intros _. rewrite E. apply HU.
    - intros _ _. now apply signed_keys_ascending.
  Qed.

  Lemma honest_header : forall d, dtext d = uri -> dok d ->
    exists header, Builder_authorize c e b method d r = Ok header /\ parse_header header = Some the_params
      /\ header = header_text (wire_fields cf all_protos) (pct_encode the_sig).
  Proof.
    intros d ED DD. destruct HR as [cs [M [P [A [D [C [S [O R]]]]]]]].
    assert (HB : builtin (bd_signature_method b) (lit "HMAC-SHA1") true
                  (fun cs ts text => Some (pct_encode (hmac_signature cs ts text)))) by (rewrite HSM; constructor).
    assert (HPm : Permutation (call_protos cs) all_protos) by now rewrite P.
    exists (header_text (wire_fields cf all_protos) (pct_encode the_sig)). split; [|split]; auto.
    - apply (authorize_exact c e b _ _ _ HB r cs M HPm). split; [exact HT|]. split; [now apply honest_valid|].
      exists (pct_encode the_sig). split; [|now rewrite P].
      unfold sig_of. fold cf. rewrite ED. rewrite (hashed_is_base cf cs l method uri HM HPm A C S O R). reflexivity.
    - unfold the_params. rewrite <- raw_all. apply parse_header_text.
      + apply wire_reads. apply safe_name. reflexivity.
      + apply pct_decode_enc_quote.
      + apply pct_decode_encode.
  Qed.

  Lemma honest_form : exists body, to_form r = Ok body /\ parse_form body = Some l.
  Proof.
    destruct HR as [cs [M [P [A [D [C [S [O R]]]]]]]].
    exists (form_text (form_fields cs)). split; [now apply (to_form_exact r cs _ M)|].
    rewrite C. now apply parse_form_text.
  Qed.

  Lemma honest_query : exists uri', to_query uri r = Ok uri' /\ parse_uri uri' = Some (uri, l).
  Proof.
    destruct HR as [cs [M [P [A [D [C [S [O R]]]]]]]].
    exists (query_text uri (form_fields cs)). split; [now apply (to_query_exact r cs uri _ M)|].
    rewrite C. apply parse_query_text; auto. apply HU.
  Qed.

  Lemma honest_no_oauth : no_oauth_keys l.
  Proof. destruct HR as [cs [M [P [A [D [C [S [O R]]]]]]]]. exact O. Qed.

  Lemma honest_accepted_form : forall d, dtext d = uri -> dok d -> exists header body,
    Builder_authorize c e b method d r = Ok header /\ to_form r = Ok body
    /\ server_verify (client_secret b) (token_secret b) method uri header body = Some (the_params, l).
  Proof.
    intros d ED DD. destruct (honest_header d ED DD) as [header [H1 [H2 _]]]. destruct honest_form as [body [B1 B2]].
    exists header, body. split; auto. split; auto.
    apply (server_accepts cf _ _ method uri uri header the_sig [] l l); auto.
    - unfold parse_uri. rewrite split_at_none; [reflexivity|apply HU].
    - apply honest_no_oauth.
    - destruct HU as [-> _]. reflexivity.
  Qed.

  Lemma honest_accepted_query : forall d, dtext d = uri -> dok d -> exists header uri',
    Builder_authorize c e b method d r = Ok header /\ to_query uri r = Ok uri'
    /\ server_verify (client_secret b) (token_secret b) method uri' header [] = Some (the_params, l).
  Proof.
    intros d ED DD. destruct (honest_header d ED DD) as [header [H1 [H2 _]]]. destruct honest_query as [uri' [B1 B2]].
    exists header, uri'. split; auto. split; auto.
    apply (server_accepts cf _ _ method uri' uri header the_sig l [] l); auto.
    - apply app_nil_r.
    - apply honest_no_oauth.
    - destruct HU as [-> _]. reflexivity.
  Qed.
End Honest.

(** ** Requests that are honest *)

Lemma crate_honest : forall r l, crate_request r l -> ascending (map fst l) ->
  Forall (fun p => dok (snd p)) l -> safe_keys (texts l) -> no_oauth_keys (texts l) -> rfc_sorted (texts l) ->
  honest r (texts l).
Proof.
  intros r l H HA HD HS HO HR. exists (calls_of l).
  split; [now apply crate_request_calls|]. split; [apply call_protos_calls_of|].
  split; [now apply calls_of_ascending|]. split; [now apply displays_calls_of|].
  split; [|auto]. unfold carries. rewrite form_fields_calls_of. unfold texts. now rewrite map_map.
Qed.

Lemma rfc_sorted_keys : forall l : list kv, rfc_sorted (texts l) -> ascending (map fst l).
Proof.
  intros l H. unfold rfc_sorted, texts in H. rewrite map_map in H.
  induction l as [|p l IH]; [constructor|]. cbn [map] in *. inversion H as [|? ? H1 H2]; subst.
  constructor; [exact (IH H1)|]. rewrite Forall_map in *. eapply Forall_impl; [|exact H2]. intros q HQ.
  apply pair_le_spec in HQ as [HQ|[HQ _]]; cbn [fst enc_value] in HQ; [now apply bltb_bleb|].
  rewrite HQ. apply bleb_refl.
Qed.

Lemma wire_enc : forall cf ps, uri_safe (cn_name cf) -> wire_fields cf ps = map enc_value (raw_fields cf ps).
Proof.
  intros cf ps HN. induction ps as [|p ps IH]; [reflexivity|]. unfold wire_fields, raw_fields in *. cbn [flat_map].
  rewrite map_app, IH. f_equal. destruct (sent cf 0 0 p) as [v|] eqn:E; [|reflexivity]. cbn [map enc_value fst snd].
  destruct p; cbn [on_wire]; try reflexivity. cbn [sent] in E. inversion E; subst v. unfold enc_value. cbn [fst snd]. now rewrite pct_encode_safe.
Qed.

Lemma raw_safe : forall cf ps, safe_keys (raw_fields cf ps).
Proof.
  intros cf ps. apply Forall_forall. intros g Hg. apply raw_in in Hg as [p [_ [-> _]]]. apply proto_key_safe.
Qed.

Lemma protos_perm : forall cs, call_protos cs = all_protos -> Permutation (call_protos cs) all_protos.
Proof. intros cs ->. reflexivity. Qed.

(** ** Forms with a stray "&" *)

Lemma split_all_nonempty : forall sep s, split_all sep s <> [].
Proof.
  intros sep s. destruct s as [|b s]; cbn; [discriminate|]. destruct (beqb b sep); [discriminate|].
  destruct (split_all sep s); discriminate.
Qed.

Lemma split_all_app_gen : forall sep a b, split_all sep (a ++ sep :: b) = split_all sep a ++ split_all sep b.
Proof.
  intros sep. induction a as [|x a IH]; intros b; cbn [app split_all].
  - now rewrite beqb_refl.
  - rewrite IH. destruct (beqb x sep); [reflexivity|].
    pose proof (split_all_nonempty sep a) as HN. destruct (split_all sep a) as [|y l]; [congruence|reflexivity].
Qed.

Lemma all_some_app : forall {A} (l1 l2 : list (option A)),
  all_some (l1 ++ l2) = match all_some l1, all_some l2 with Some a, Some b => Some (a ++ b) | _, _ => None end.
Proof.
  intros A. induction l1 as [|[x|] l1 IH]; intros l2; cbn [app all_some].
  - destruct (all_some l2); reflexivity.
  - rewrite IH. destruct (all_some l1), (all_some l2); reflexivity.
  - reflexivity.
Qed.

Lemma parse_form_stray : forall l t, l <> [] -> safe_keys l ->
  parse_form (form_text (map enc_value l) ++ "&"%byte :: pct_encode t) = Some (l ++ [(t, [])]).
Proof.
  intros l t HN HS. pose proof (parse_form_text l HS) as HP.
  assert (HE : form_text (map enc_value l) <> []).
  { destruct l as [|p l]; [congruence|]. apply form_text_nonempty. }
  unfold parse_form in *. destruct (form_text (map enc_value l)) as [|b s] eqn:E; [congruence|].
  cbn [app]. rewrite <- E in *.
  change (b :: s ++ "&"%byte :: pct_encode t) with ((b :: s) ++ "&"%byte :: pct_encode t). rewrite <- E.
  rewrite split_all_app_gen, map_app, all_some_app, HP.
  rewrite (split_all_none _ (pct_encode t)) by (apply enc_no; [reflexivity|discriminate]).
  cbn [map]. unfold form_field. rewrite split_at_none by (apply enc_no; [reflexivity|discriminate]).
  rewrite plus_none by (apply enc_no; [reflexivity|discriminate]). rewrite pct_decode_encode. reflexivity.
Qed.

Lemma pct_byte_length : forall b, length (pct_byte b) = if unreserved b then 1 else 3.
Proof. intros b. unfold pct_byte. destruct (unreserved b); reflexivity. Qed.

Lemma pct_encode_longer : forall s, length s <= length (pct_encode s)
  /\ (length (pct_encode s) = length s -> uri_safe s).
Proof.
  induction s as [|b s [IH1 IH2]]; [split; [cbn; lia|intros _ x []]|].
  change (pct_encode (b :: s)) with (pct_byte b ++ pct_encode s). rewrite app_length, pct_byte_length. cbn [length].
  destruct (unreserved b) eqn:E.
  - split; [lia|]. intros H x [<-|Hx]; auto. apply IH2; auto; lia.
  - split; [lia|]. intros H. lia.
Qed.
