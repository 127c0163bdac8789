(** C65, C66: every way to transport the protocol parameters, with every signature method that signs. *)
From Coq Require Import String.
From Coq Require Import Lia Arith Sorted Permutation.
From Verif Require Import Bytes Crypto Spec MFmt MPercent MSerializer MSign MRequest MCredentials MAuth MBuilder ModelTests
  SpecFmt SpecCalls SpecCalls2 SpecAuth SpecBuild SpecForm SpecServer SpecServer2 SpecParams SpecSign
  LBytes LFmt LPercent LTrace LAuth LSign LBuild LForm LBase LReq LReq2 LPanic LTop LParams LServer
  PropsServer PropsHeader PropsSign.
From Verif Require PropsExample.

(** The parameters that the server has to see. *)
Definition shown (cf : conf) (sig : bytes) (l : list pair) : list pair :=
  protocol_pairs cf ++ (lit "oauth_signature", sig) :: l.

Lemma lookup_perm_single : forall k v l l', Permutation l l' -> lookup k l = [v] -> lookup k l' = [v].
Proof.
  intros k v l l' P H. assert (Q : Permutation (lookup k l) (lookup k l')).
  { unfold lookup. apply Permutation_map. clear H.
    induction P as [|x l l' P IH|x y l|l1 l2 l3 P1 IH1 P2 IH2]; cbn [filter]; auto.
    - destruct (bseqb (fst x) k); auto.
    - destruct (bseqb (fst x) k), (bseqb (fst y) k); auto using perm_swap.
    - eapply perm_trans; eauto. }
  rewrite H in Q. now apply Permutation_length_1_inv in Q.
Qed.

Lemma shown_lookups : forall cf sig l, no_oauth_keys l ->
  lookup (lit "oauth_signature") (shown cf sig l) = [sig]
  /\ lookup (lit "oauth_signature_method") (shown cf sig l) = [cn_name cf].
Proof.
  intros cf sig l HO. unfold shown. split; rewrite lookup_app.
  - rewrite (lookup_none (lit "oauth_signature") (protocol_pairs cf)).
    2:{ intros f Hf E. rewrite <- raw_all in Hf. apply raw_in in Hf as [p [_ [E' _]]]. apply (sig_not_proto p). congruence. }
    change ((lit "oauth_signature", sig) :: l) with ([(lit "oauth_signature", sig)] ++ l). rewrite lookup_app.
    rewrite (lookup_none _ l); [reflexivity|]. intros f Hf E. unfold no_oauth_keys in HO. rewrite Forall_forall in HO.
    apply (HO f Hf). rewrite E. now left.
  - change (lit "oauth_signature_method") with (proto_key PSignatureMethod).
    rewrite <- raw_all, (lookup_raw cf all_protos PSignatureMethod all_protos_nodup) by (cbn; tauto). cbn [sent app].
    change ((lit "oauth_signature", sig) :: l) with ([(lit "oauth_signature", sig)] ++ l). rewrite lookup_app.
    rewrite (lookup_none _ l); [reflexivity|]. intros f Hf E. unfold no_oauth_keys in HO. rewrite Forall_forall in HO.
    apply (HO f Hf). rewrite E. right. apply in_map. cbn. tauto.
Qed.

Lemma shown_signed : forall cf sig l, no_oauth_keys l ->
  filter (fun p => negb (has_key (lit "oauth_signature") p)) (shown cf sig l) = protocol_pairs cf ++ l.
Proof.
  intros cf sig l HO. unfold shown. rewrite filter_app. f_equal.
  - apply filter_all. intros f Hf. rewrite <- raw_all in Hf. apply raw_in in Hf as [p [_ [E _]]].
    unfold has_key. destruct (bseqb (fst f) (lit "oauth_signature")) eqn:EB; auto. apply bseqb_eq in EB. exfalso.
    apply (sig_not_proto p). congruence.
  - cbn [filter]. unfold has_key at 1. cbn [fst]. rewrite bseqb_refl. cbn [negb]. now apply no_oauth_sig.
Qed.

Lemma no_realm : forall cf sig, filter (fun p => negb (has_key (lit "realm") p))
  (protocol_pairs cf ++ [(lit "oauth_signature", sig)]) = protocol_pairs cf ++ [(lit "oauth_signature", sig)].
Proof.
  intros cf sig. apply filter_all. intros f Hf. apply in_app_iff in Hf as [Hf|[<-|[]]]; [|reflexivity].
  rewrite <- raw_all in Hf. apply raw_in in Hf as [p [_ [E _]]].
  unfold has_key. destruct (bseqb (fst f) (lit "realm")) eqn:EB; auto. apply bseqb_eq in EB. exfalso.
  apply (realm_not_proto p). congruence.
Qed.

Lemma filter_perm : forall {A} (g : A -> bool) l l', Permutation l l' -> Permutation (filter g l) (filter g l').
Proof.
  intros A g l l' P. induction P as [|x l l' P IH|x y l|l1 l2 l3 P1 IH1 P2 IH2]; cbn [filter]; auto.
  - destruct (g x); auto.
  - destruct (g x), (g y); auto using perm_swap.
  - eapply perm_trans; eauto.
Qed.

(** Whatever the distribution over header, query and body, the server accepts. *)
Lemma check_accepts : forall check cf sig l method uri base header body h q b,
  no_oauth_keys l -> (forall text, text = base_string method (base_uri base) (protocol_pairs cf ++ l) ->
    check (cn_name cf) sig text = true) ->
  (match header with Some h => parse_header h | None => Some [] end) = Some h ->
  parse_uri uri = Some (base, q) -> parse_form body = Some b ->
  Permutation (all_params h q b) (shown cf sig l) ->
  server_check check method uri header body = Some (all_params h q b).
Proof.
  intros check cf sig l method uri base header body h q b HO HC HH HU HB HP.
  unfold server_check. rewrite HH, HU, HB. destruct (shown_lookups cf sig l HO) as [L1 L2].
  apply Permutation_sym in HP.
  rewrite (lookup_perm_single _ _ _ _ HP L1), (lookup_perm_single _ _ _ _ HP L2). rewrite HC; [reflexivity|].
  apply base_string_perm. rewrite <- (shown_signed cf sig l HO). apply filter_perm. now apply Permutation_sym.
Qed.

Section Transport.
  Variables (c : cfg) (e : env) (b : Builder) (name : bytes) (f : bytes -> option bytes -> bytes -> option bytes).
  Hypothesis HB : builtin (bd_signature_method b) name true f.
  Let cf := conf_of name e b.
  Hypothesis HT : timestamp_available c cf.
  Variables (r : Request) (l : list pair) (method uri : bytes).
  Hypothesis HR : honest r l.
  Hypothesis HM : normal_method method.
  Hypothesis HU : normal_uri uri.
  Variable sig : bytes.
  Hypothesis HS : f (client_secret b) (token_secret b) (base_string method uri (protocol_pairs cf ++ l)) = Some (pct_encode sig).
  Variable check : bytes -> bytes -> bytes -> bool.
  Hypothesis HC : check name sig (base_string method uri (protocol_pairs cf ++ l)) = true.

  Lemma name_safe : uri_safe name.
  Proof. exact (sa_safe _ _ _ _ (builtin_signs_as _ _ _ _ HB)). Qed.

  Lemma fields_enc : wire_fields cf all_protos ++ [(lit "oauth_signature", pct_encode sig)]
    = map enc_value (protocol_pairs cf ++ [(lit "oauth_signature", sig)]).
  Proof. rewrite map_app. f_equal. rewrite (wire_enc cf); [reflexivity|exact name_safe]. Qed.

  Lemma fields_safe : safe_keys (protocol_pairs cf ++ [(lit "oauth_signature", sig)]).
  Proof. apply Forall_app. split; [rewrite <- raw_all; apply raw_safe|]. constructor; [now apply safe_name|constructor]. Qed.

  Lemma tr_check : forall text, text = base_string method (base_uri uri) (protocol_pairs cf ++ l) -> check (cn_name cf) sig text = true.
  Proof. intros text ->. destruct HU as [-> _]. exact HC. Qed.

  Lemma tr_valid : forall cs, ascending (map call_key cs) -> Forall displays_ok cs ->
    forall d, dtext d = uri -> dok d -> valid_for true c cf d cs.
  Proof.
    intros cs HA HD d E D. constructor; auto.
    - intros _. rewrite E. apply HU.
    - intros _ _. now apply signed_keys_ascending.
  Qed.

  Lemma tr_header : forall d, dtext d = uri -> dok d -> exists header, Builder_authorize c e b method d r = Ok header
    /\ parse_header header = Some (protocol_pairs cf ++ [(lit "oauth_signature", sig)]).
  Proof.
    intros d ED DD. destruct HR as [cs [M [P [A [D [C [S [O R]]]]]]]].
    assert (HPm : Permutation (call_protos cs) all_protos) by now rewrite P.
    exists (header_text (wire_fields cf all_protos) (pct_encode sig)). split.
    - apply (authorize_exact c e b _ _ _ HB r cs M HPm). split; [exact HT|]. split; [now apply tr_valid|].
      exists (pct_encode sig). split; [|now rewrite P].
      unfold sig_of. rewrite ED. rewrite (hashed_is_base _ cs l method uri HM HPm A C S O R). exact HS.
    - rewrite <- raw_all. apply parse_header_text.
      + apply wire_reads. exact name_safe.
      + apply pct_decode_enc_quote.
      + apply pct_decode_encode.
  Qed.

  Lemma tr_form : forall d, dtext d = uri -> dok d -> exists body, Builder_to_form c e b method d r = Ok body
    /\ body = form_text (map enc_value (protocol_pairs cf ++ [(lit "oauth_signature", sig)])).
  Proof.
    intros d ED DD. destruct HR as [cs [M [P [A [D [C [S [O R]]]]]]]].
    assert (HPm : Permutation (call_protos cs) all_protos) by now rewrite P.
    eexists. split; [|reflexivity]. apply (to_form_with_buf_exact c e b _ _ _ HB r cs M HPm []).
    split; [exact HT|]. split; [now apply tr_valid|]. exists (pct_encode sig). split.
    - unfold sig_of. rewrite ED. rewrite (hashed_is_base _ cs l method uri HM HPm A C S O R). exact HS.
    - rewrite P. cbn [app]. now rewrite <- fields_enc.
  Qed.

  Lemma tr_query : exists u, Builder_to_query c e (w := StringW) dstr b method uri r = Ok u
    /\ u = query_text uri (map enc_value (protocol_pairs cf ++ [(lit "oauth_signature", sig)])).
  Proof.
    destruct HR as [cs [M [P [A [D [C [S [O R]]]]]]]].
    assert (HPm : Permutation (call_protos cs) all_protos) by now rewrite P.
    eexists. split; [|reflexivity]. apply (to_query_exact' c e b _ _ _ HB r cs M HPm uri).
    split; [exact HT|]. split; [apply tr_valid; auto using dok_dstr, dtext_dstr|]. exists (pct_encode sig). split.
    - unfold sig_of. rewrite (hashed_is_base _ cs l method uri HM HPm A C S O R). exact HS.
    - rewrite P. now rewrite <- fields_enc.
  Qed.

  Lemma tr_plain : exists body, to_form r = Ok body /\ body = form_text (map enc_value l).
  Proof.
    destruct HR as [cs [M [P [A [D [C [S [O R]]]]]]]].
    exists (form_text (form_fields cs)). split; [now apply (to_form_exact r cs _ M)|]. now rewrite C.
  Qed.

  Lemma tr_safe : safe_keys l.
  Proof. destruct HR as [cs [M [P [A [D [C [S [O R]]]]]]]]. exact S. Qed.
  Lemma tr_oauth : no_oauth_keys l.
  Proof. destruct HR as [cs [M [P [A [D [C [S [O R]]]]]]]]. exact O. Qed.
End Transport.

Lemma form_join_text : forall a b, a <> [] -> form_join (form_text a) (form_text b) = form_text (a ++ b).
Proof.
  intros a b Ha. destruct b as [|q b].
  - rewrite app_nil_r. cbn [form_text map join]. unfold form_join.
    destruct (form_text a); reflexivity.
  - rewrite LAuth.form_text_app by (auto; discriminate). unfold form_join.
    destruct a as [|p a]; [congruence|]. pose proof (form_text_nonempty p a) as N1. pose proof (form_text_nonempty q b) as N2.
    destruct (form_text (p :: a)); [congruence|]. destruct (form_text (q :: b)); [congruence|]. reflexivity.
Qed.

(** ** C65 Every transport is accepted *)

(** [check] accepts the signature that the method makes. *)
Definition agrees (check : bytes -> bytes -> bytes -> bool) (name : bytes) (f : bytes -> option bytes -> bytes -> option bytes)
    (b : Builder) (text sig : bytes) : Prop :=
  f (client_secret b) (token_secret b) text = Some (pct_encode sig) /\ check name sig text = true.

(** The header, and the parameters in the body or in the query. *)
Theorem C65_header : forall c e b name f r l method uri d sig check,
  builtin (bd_signature_method b) name true f -> timestamp_available c (conf_of name e b) ->
  honest r l -> normal_method method -> normal_uri uri -> dtext d = uri -> dok d ->
  agrees check name f b (base_string method uri (protocol_pairs (conf_of name e b) ++ l)) sig ->
  exists header body query,
    Builder_authorize c e b method d r = Ok header /\ to_form r = Ok body /\ to_query uri r = Ok query
    /\ server_check check method uri (Some header) body = Some (shown (conf_of name e b) sig l)
    /\ server_check check method query (Some header) [] = Some (shown (conf_of name e b) sig l).
Proof.
  intros c e b name f r l method uri d sig check HB HT HR HM HU ED DD [HS HC].
  destruct (tr_header c e b name f HB HT r l method uri HR HM HU sig HS d ED DD) as [header [H1 H2]].
  destruct (tr_plain r l HR) as [body [B1 B2]].
  destruct (honest_query r l uri HR HU) as [query [Q1 Q2]].
  assert (PF : parse_form body = Some l) by (subst body; apply parse_form_text, (tr_safe r l HR)).
  assert (EA : all_params (protocol_pairs (conf_of name e b) ++ [(lit "oauth_signature", sig)]) [] l = shown (conf_of name e b) sig l).
  { unfold all_params, shown. rewrite no_realm, <- app_assoc. reflexivity. }
  assert (EB : all_params (protocol_pairs (conf_of name e b) ++ [(lit "oauth_signature", sig)]) l [] = shown (conf_of name e b) sig l).
  { unfold all_params, shown. rewrite no_realm, <- app_assoc, app_nil_r. reflexivity. }
  exists header, body, query. do 3 (split; auto). split.
  - rewrite <- EA. eapply (check_accepts check (conf_of name e b) sig l method uri uri); eauto.
    + apply (tr_oauth r l HR).
    + apply (tr_check e b name l method uri HU sig check HC).
    + unfold parse_uri. rewrite split_at_none; [reflexivity|apply HU].
    + now rewrite EA.
  - rewrite <- EB. eapply (check_accepts check (conf_of name e b) sig l method query uri); eauto.
    + apply (tr_oauth r l HR).
    + apply (tr_check e b name l method uri HU sig check HC).
    + now rewrite EB.
Qed.
Print Assumptions C65_header.

(** The protocol parameters in the body, with the request parameters added by the caller (the crate
    does not, see C25), or in the query with the request parameters in the body. *)
Theorem C65_form_query : forall c e b name f r l method uri d sig check,
  builtin (bd_signature_method b) name true f -> timestamp_available c (conf_of name e b) ->
  honest r l -> normal_method method -> normal_uri uri -> dtext d = uri -> dok d ->
  agrees check name f b (base_string method uri (protocol_pairs (conf_of name e b) ++ l)) sig ->
  exists form query body,
    Builder_to_form c e b method d r = Ok form /\ Builder_to_query c e (w := StringW) dstr b method uri r = Ok query
    /\ to_form r = Ok body
    /\ server_check check method uri None (form_join form body) = Some (shown (conf_of name e b) sig l)
    /\ server_check check method query None body = Some (shown (conf_of name e b) sig l)
    /\ server_check check method (query_join query body) None [] = Some (shown (conf_of name e b) sig l).
Proof.
  intros c e b name f r l method uri d sig check HB HT HR HM HU ED DD [HS HC].
  destruct (tr_form c e b name f HB HT r l method uri HR HM HU sig HS d ED DD) as [form [F1 F2]].
  destruct (tr_query c e b name f HB HT r l method uri HR HM HU sig HS) as [query [Q1 Q2]].
  destruct (tr_plain r l HR) as [body [B1 B2]].
  assert (HN : protocol_pairs (conf_of name e b) ++ [(lit "oauth_signature", sig)] <> []) by (destruct (protocol_pairs _); discriminate).
  assert (HNE : map enc_value (protocol_pairs (conf_of name e b) ++ [(lit "oauth_signature", sig)]) <> []).
  { intros E. apply map_eq_nil in E. contradiction. }
  pose proof (fields_safe e b name sig) as HSF. pose proof (tr_safe r l HR) as HSL. pose proof (tr_oauth r l HR) as HO.
  assert (HSA : safe_keys ((protocol_pairs (conf_of name e b) ++ [(lit "oauth_signature", sig)]) ++ l)) by (apply Forall_app; auto).
  assert (ES : shown (conf_of name e b) sig l = (protocol_pairs (conf_of name e b) ++ [(lit "oauth_signature", sig)]) ++ l).
  { unfold shown. now rewrite <- app_assoc. }
  exists form, query, body. do 3 (split; auto). split; [|split].
  - change (Some (shown ?a ?b ?d)) with (Some (all_params [] [] (shown a b d))).
    eapply (check_accepts check (conf_of name e b) sig l method uri uri); eauto.
    + apply (tr_check e b name l method uri HU sig check HC).
    + unfold parse_uri. rewrite split_at_none; [reflexivity|apply HU].
    + subst form body. rewrite form_join_text by exact HNE. rewrite <- map_app, parse_form_text by exact HSA. now rewrite ES.
  - rewrite ES. change (Some (?x ++ l)) with (Some (all_params [] x l)).
    eapply (check_accepts check (conf_of name e b) sig l method query uri); eauto.
    + apply (tr_check e b name l method uri HU sig check HC).
    + subst query. apply parse_query_text; auto. apply HU.
    + subst body. now apply parse_form_text.
    + rewrite ES. reflexivity.
  - rewrite ES. rewrite <- (app_nil_r (_ ++ l)). change (Some ((?x ++ l) ++ [])) with (Some (all_params [] (x ++ l) [])).
    eapply (check_accepts check (conf_of name e b) sig l method (query_join query body) uri); eauto.
    + apply (tr_check e b name l method uri HU sig check HC).
    + assert (EQ : query_join query body = query_text uri (map enc_value ((protocol_pairs (conf_of name e b) ++ [(lit "oauth_signature", sig)]) ++ l))).
      { subst query body. rewrite (map_app enc_value _ l). set (x := map enc_value (protocol_pairs _ ++ _)) in *.
        destruct l as [|p l']; [cbn [map]; rewrite app_nil_r; reflexivity|]. set (y := map enc_value (p :: l')).
        assert (HY : y <> []) by discriminate. unfold query_join.
        destruct (form_text y) as [|z t] eqn:EY; [exfalso; revert EY; apply form_text_nonempty|]. rewrite <- EY.
        unfold query_text. destruct x as [|x0 x]; [contradiction|]. cbn [app]. change (x0 :: x ++ y) with ((x0 :: x) ++ y).
        rewrite LAuth.form_text_app by (auto; discriminate). now rewrite !app_assoc. }
      rewrite EQ. apply parse_query_text; auto. apply HU.
    + unfold all_params. cbn [filter app]. rewrite app_nil_r, ES. reflexivity.
Qed.
Print Assumptions C65_form_query.

(** HMAC-SHA1 always agrees, ... *)
Theorem C65_hmac : forall b text, bd_signature_method b = HMAC_SHA1 ->
  exists f, builtin (bd_signature_method b) (lit "HMAC-SHA1") true f
    /\ agrees (hmac_check (client_secret b) (token_secret b)) (lit "HMAC-SHA1") f b text
         (hmac_signature (client_secret b) (token_secret b) text).
Proof.
  intros b text HB. eexists. rewrite HB. split; [apply bi_hmac|]. split; [reflexivity|].
  unfold hmac_check. now rewrite !bseqb_refl.
Qed.
Print Assumptions C65_hmac.

(** ** C66 RSA-SHA1 *)

(** ... and RSA-SHA1 does, for a key pair (the public key accepts what the private key signs), if
    the private key can sign. *)
Theorem C66_rsa : forall b key decode verify text s,
  bd_signature_method b = RsaSha1 key \/ bd_signature_method b = RsaSha1_ref key ->
  (forall x, decode (base64 b64_std true x) = Some x) ->
  (forall h x, key h = Some x -> verify h x = true) ->
  key (sha1 text) = Some s ->
  exists f, builtin (bd_signature_method b) (lit "RSA-SHA1") true f
    /\ agrees (rsa_check decode verify) (lit "RSA-SHA1") f b text (base64 b64_std true s).
Proof.
  intros b key decode verify text s HB HD HV HK. destruct HB as [->| ->]; (eexists; split; [constructor|]; split;
    [now rewrite HK|unfold rsa_check; rewrite bseqb_refl, HD; cbn [andb]; now apply HV]).
Qed.
Print Assumptions C66_rsa.

(** So a server with the public key accepts every honest request that the private key can sign. *)
Theorem C66_accepted : forall c e b key decode verify r l method uri d s,
  bd_signature_method b = RsaSha1 key \/ bd_signature_method b = RsaSha1_ref key ->
  (forall x, decode (base64 b64_std true x) = Some x) ->
  (forall h x, key h = Some x -> verify h x = true) ->
  timestamp_available c (conf_of (lit "RSA-SHA1") e b) ->
  honest r l -> normal_method method -> normal_uri uri -> dtext d = uri -> dok d ->
  key (sha1 (base_string method uri (protocol_pairs (conf_of (lit "RSA-SHA1") e b) ++ l))) = Some s ->
  exists header body, Builder_authorize c e b method d r = Ok header /\ to_form r = Ok body
    /\ server_check (rsa_check decode verify) method uri (Some header) body
       = Some (shown (conf_of (lit "RSA-SHA1") e b) (base64 b64_std true s) l).
Proof.
  intros c e b key decode verify r l method uri d s HB HD HV HT HR HM HU ED DD HK.
  destruct (C66_rsa b key decode verify _ s HB HD HV HK) as [f [HF HG]].
  destruct (C65_header c e b _ f r l method uri d _ _ HF HT HR HM HU ED DD HG) as [header [body [_ [H1 [H2 [_ [H3 _]]]]]]].
  eauto.
Qed.
Print Assumptions C66_accepted.

(** ** Examples *)

Definition ex_request : Request := AssertSorted true [kvs "a" "1 2"; kvs "c" "&="; kvs "c" "z"; kvs "p" "q"].
Definition ex_check : bytes -> bytes -> bytes -> bool := hmac_check (lit "consumer_secret") (Some (lit "token_secret")).
Definition ex_wrong : bytes -> bytes -> bytes -> bool := hmac_check (lit "consumer_secret") (Some (lit "other")).

(** The hypotheses hold of C18's example ([C18_example_honest], [C18_example_normal]); here are the
    results, and a server with another secret rejects them. *)
Example C65_example :
  match Builder_to_form dbg_std env0 doc_builder (lit "POST") (s2d "http://example.com/x") ex_request,
        Builder_to_query dbg_std env0 (w := StringW) dstr doc_builder (lit "POST") (lit "http://example.com/x") ex_request,
        to_form ex_request with
  | Ok form, Ok query, Ok body =>
      let ok check uri b := match server_check check (lit "POST") uri None b with Some _ => true | None => false end in
      ok ex_check (lit "http://example.com/x") (form_join form body)
      && ok ex_check query body && ok ex_check (query_join query body) []
      && negb (ok ex_wrong (lit "http://example.com/x") (form_join form body))
      && negb (ok ex_check (lit "http://example.com/x") form)
  | _, _, _ => false
  end = true.
Proof. vm_compute. reflexivity. Qed.

(** A (toy) key pair: signing reverses the digest.  With it and [base64_decode] the hypotheses hold. *)
Definition toy_key (h : bytes) : option bytes := Some (rev h).
Definition toy_verify (h s : bytes) : bool := bseqb s (rev h).
Definition toy_builder : Builder :=
  Builder_timestamp (Some 1%N) (Builder_new (Cred (lit "id") (lit "secret")) (RsaSha1 toy_key)).

Example C66_example : exists header body out,
  Builder_authorize dbg_std env0 toy_builder (lit "POST") (s2d "http://example.com/x") ex_request = Ok header
  /\ to_form ex_request = Ok body
  /\ server_check (rsa_check PropsExample.base64_decode toy_verify) (lit "POST") (lit "http://example.com/x") (Some header) body
     = Some out.
Proof.
  destruct (C66_accepted dbg_std env0 toy_builder toy_key PropsExample.base64_decode toy_verify ex_request
    [(lit "a", lit "1 2"); (lit "c", lit "&="); (lit "c", lit "z"); (lit "p", lit "q")]
    (lit "POST") (lit "http://example.com/x") (s2d "http://example.com/x")
    (rev (sha1 (base_string (lit "POST") (lit "http://example.com/x")
       (protocol_pairs (conf_of (lit "RSA-SHA1") env0 toy_builder)
        ++ [(lit "a", lit "1 2"); (lit "c", lit "&="); (lit "c", lit "z"); (lit "p", lit "q")])))))
    as [header [body [H1 [H2 H3]]]]; [..|eexists _, _, _; eauto].
  - now left.
  - intros x. unfold PropsExample.base64_decode. cbv zeta. now rewrite PropsExample.unbase64_base64, bseqb_refl.
  - intros h x E. injection E as <-. apply bseqb_refl.
  - left. reflexivity.
  - exact C18_example_honest.
  - apply C18_example_normal.
  - apply C18_example_normal.
  - reflexivity.
  - apply dok_dstr.
  - reflexivity.
Qed.
