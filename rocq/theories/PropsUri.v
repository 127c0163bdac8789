(** C99: URIs with parameters, as RFC 3986 reads them. *)
From Coq Require Import String.
From Coq Require Import Lia Arith Sorted Permutation.
From Verif Require Import Bytes Crypto Spec MFmt MPercent MSerializer MSign MRequest MCredentials MAuth MBuilder ModelTests
  SpecFmt SpecCalls SpecCalls2 SpecAuth SpecBuild SpecForm SpecServer SpecServer2 SpecParams SpecSign SpecUri
  LBytes LFmt LPercent LTrace LAuth LSign LBuild LForm LBase LReq LReq2 LPanic LTop LParams LServer LCrypto
  Rsa LRsa PropsServer PropsHeader PropsSign PropsServer2 PropsRsa PropsForge PropsResign.
Local Open Scope nat_scope.

(** ** Lemmas *)

Lemma first_mark : forall (m : byte) a b x y, ~ In m a -> ~ In m b -> a ++ component m x = b ++ component m y -> a = b /\ x = y.
Proof.
  intros m. induction a as [|c a IH]; intros [|d b] x y HA HB E.
  - destruct x, y; cbn in E; try discriminate E; [injection E as ->|]; auto.
  - destruct x; cbn in E; [|discriminate E]. injection E as -> _. exfalso. apply HB. now left.
  - destruct y; cbn in E; [|discriminate E]. injection E as -> _. exfalso. apply HA. now left.
  - cbn in E. injection E as -> E. destruct (IH b x y) as [-> ->]; auto; intros I; [apply HA|apply HB]; now right.
Qed.

Lemma component_no : forall m n x, n <> m -> (forall s, x = Some s -> ~ In n s) -> ~ In n (component m x).
Proof. intros m n [s|] N H; cbn; [|tauto]. intros [K|K]; [congruence|now apply (H s)]. Qed.

Lemma find_mark : forall (m : byte) s, exists a x, ~ In m a /\ s = a ++ component m x.
Proof.
  intros m. induction s as [|b s [a [x [H ->]]]]; [exists [], None; split; [intros []|reflexivity]|].
  destruct (Byte.byte_eq_dec b m) as [->|N].
  - exists [], (Some (a ++ component m x)). split; [intros []|reflexivity].
  - exists (b :: a), x. split; [|reflexivity]. intros [K|K]; auto.
Qed.

Lemma query_app : forall a b, query_syntax a -> query_syntax b -> query_syntax (a ++ b).
Proof. intros a b H HB. induction H; cbn [app]; [exact HB|now constructor|now constructor]. Qed.

Lemma query_safe : forall s, uri_safe s -> query_syntax s.
Proof.
  induction s as [|b s IH]; intros H; constructor; [left; apply H; now left|]. apply IH. intros c I. apply H. now right.
Qed.

Lemma query_encoded : forall s, query_syntax (pct_encode s).
Proof.
  induction s as [|b s IH]; [constructor|]. cbn [pct_encode flat_map]. apply query_app; [|exact IH]. unfold pct_byte.
  destruct (unreserved b) eqn:E.
  - constructor; [now left|constructor].
  - constructor; [| |constructor]; clear; destruct b; vm_compute; discriminate.
Qed.

Lemma query_mark : forall b, In b (lit "&=") -> query_syntax [b].
Proof. intros b H. constructor; [|constructor]. right. left. vm_compute in H |- *. intuition. Qed.

Lemma query_form : forall l, Forall (fun p => query_syntax (fst p) /\ query_syntax (snd p)) l -> query_syntax (form_text l).
Proof.
  intros l H. unfold form_text. induction H as [|[k v] l [H1 H2] HL IH]; [constructor|]. cbn [map join]. cbn [fst snd] in H1, H2.
  assert (P : query_syntax (form_pair (k, v))).
  { unfold form_pair. cbn [fst snd]. repeat apply query_app; auto. apply query_mark. right. now left. }
  destruct (map form_pair l) as [|x xs]; [exact P|]. apply query_app; [exact P|]. apply query_app; [apply query_mark; now left|exact IH].
Qed.

Lemma query_no_hash : forall q, query_syntax q -> ~ In "#"%byte q.
Proof.
  intros q H. induction H as [|b q HB H IH|x y q HX HY H IH]; [intros []| |].
  - intros [->|I]; [|auto]. destruct HB as [K|[K|K]]; vm_compute in K; intuition discriminate.
  - intros [K|[->|[->|I]]]; [discriminate| | |auto]; [now apply HX|now apply HY].
Qed.

(** What [to_query] and [Builder::to_query] do to a URI without a query. *)
Lemma append_reads : forall uri hier fragment form, uri_reads uri hier None fragment -> query_syntax form ->
  (uri_reads (uri ++ lit "?" ++ form) hier (Some form) fragment <-> fragment = None)
  /\ (forall f, fragment = Some f -> uri_reads (uri ++ lit "?" ++ form) hier None (Some (f ++ lit "?" ++ form))).
Proof.
  intros uri hier fragment form [-> [H1 H2] H3] HF. split; [split|].
  - intros [E _ _]. destruct fragment as [f|]; [|reflexivity]. exfalso. cbn [component app] in E. change (lit "?") with ["?"%byte] in E.
    rewrite <- app_assoc in E. cbn [app] in E. apply app_inv_head in E. discriminate E.
  - intros ->. cbn [component app]. rewrite app_nil_r. constructor; auto.
    + cbn [component]. now rewrite app_nil_r.
    + intros q E. injection E as <-. now apply query_no_hash.
  - intros f ->. constructor; auto. cbn [component app]. now rewrite <- app_assoc.
Qed.

(** ** C99 *)

(** Every text has exactly one reading. *)
Theorem C99_reading : forall u, exists hier query fragment, uri_reads u hier query fragment
  /\ forall hier' query' fragment', uri_reads u hier' query' fragment' -> hier' = hier /\ query' = query /\ fragment' = fragment.
Proof.
  assert (J : forall u h q f, uri_reads u h q f -> u = (h ++ component "?" q) ++ component "#" f /\ ~ In "#"%byte (h ++ component "?" q)).
  { intros u h q f [E [H1 H2] H3]. split; [now rewrite <- app_assoc|]. rewrite in_app_iff. intros [K|K]; [auto|].
    revert K. apply component_no; [discriminate|exact H3]. }
  intros u. destruct (find_mark "#" u) as [v [f [HV EV]]]. destruct (find_mark "?" v) as [h [q [HH EH]]]. exists h, q, f. split.
  - constructor.
    + rewrite EV, EH, <- app_assoc. reflexivity.
    + split; [exact HH|]. intros I. apply HV. rewrite EH. apply in_app_iff. now left.
    + intros q' -> I. apply HV. rewrite EH. apply in_app_iff. right. now right.
  - intros h' q' f' H. destruct (J u h' q' f' H) as [E N]. rewrite E in EV. apply first_mark in EV as [EV EF]; auto.
    rewrite EH in EV. apply first_mark in EV as [-> ->]; auto. apply (ur_hier _ _ _ _ H).
Qed.
Print Assumptions C99_reading.

(** [to_query] with parameters and a URI without query.  Without a fragment, the URI that comes out is the one that went in
    with a query that carries the parameters.  With a fragment the URI has no query still; the parameters are in the
    fragment, which is never sent. *)
Theorem C99_query_partial : forall r l uri hier fragment out, honest r l -> l <> [] -> uri_reads uri hier None fragment ->
  to_query uri r = Ok out ->
  exists form, to_form r = Ok form /\ parse_form form = Some l /\ query_syntax form
    /\ (uri_reads out hier (Some form) fragment <-> fragment = None)
    /\ (forall f, fragment = Some f -> uri_reads out hier None (Some (f ++ lit "?" ++ form))).
Proof.
  intros r l uri hier fragment out HR HN HU H. destruct (honest_form r l HR) as [form [F1 F2]]. exists form. split; [exact F1|]. split; [exact F2|].
  destruct HR as [cs [M [P [A [D [C [S [O R]]]]]]]]. apply (to_form_exact r cs _ M) in F1 as [_ ->].
  apply (to_query_exact r cs uri _ M) in H as [_ ->]. unfold carries in C. rewrite C in *.
  assert (Q : query_syntax (form_text (map enc_value l))).
  { apply query_form, Forall_map. eapply Forall_impl; [|exact S]. intros [k v] K. cbn [enc_value fst snd] in *.
    split; [now apply query_safe|apply query_encoded]. }
  split; [exact Q|]. unfold query_text. destruct l as [|p l]; [congruence|]. cbn [map] in Q |- *.
  exact (append_reads uri hier fragment _ HU Q).
Qed.
Print Assumptions C99_query_partial.

(** The same for the protocol parameters and the signature, which [Builder::to_query] adds. *)
Theorem C99_signed_partial : forall c e b name strict f r l method uri hier fragment out,
  builtin (bd_signature_method b) name strict f -> honest r l -> uri_reads uri hier None fragment ->
  Builder_to_query c e (w := StringW) dstr b method uri r = Ok out ->
  exists form, Builder_to_form c e b method (dstr uri) r = Ok form /\ query_syntax form
    /\ (uri_reads out hier (Some form) fragment <-> fragment = None)
    /\ (forall x, fragment = Some x -> uri_reads out hier None (Some (x ++ lit "?" ++ form))).
Proof.
  intros c e b name strict f r l method uri hier fragment out HB HR HU H.
  destruct HR as [cs [M [P [A [D [C [S [O R]]]]]]]]. pose proof (protos_perm cs P) as PP.
  apply (to_query_exact' c e b _ _ _ HB r cs M PP uri) in H as [T [V [sig [ES ->]]]].
  set (fields := wire_fields (conf_of name e b) (call_protos cs) ++ [(lit "oauth_signature", sig)]).
  assert (Q : query_syntax (form_text fields)).
  { apply query_form. unfold fields. apply Forall_app. split.
    - apply Forall_forall. intros [k v] I. unfold wire_fields in I. apply in_flat_map in I as [p [_ I]].
      destruct (sent (conf_of name e b) 0 0 p) as [v0|] eqn:E; [|destruct I]. destruct I as [I|[]]. injection I as <- <-. cbn [fst snd].
      split; [apply query_safe, proto_key_safe|]. destruct p; cbn [on_wire]; try apply query_encoded.
      cbn [sent] in E. injection E as <-. apply query_safe. exact (sa_safe _ _ _ _ (builtin_signs_as _ _ _ _ HB)).
    - constructor; [|constructor]. cbn [fst snd]. split; [apply query_safe; now apply safe_name|].
      revert ES. destruct HB; intros ES.
      + injection ES as <-. apply query_encoded.
      + injection ES as <-. unfold signing_key. repeat apply query_app; try apply query_encoded. apply query_mark. now left.
      + unfold sig_of in ES. destruct (key _); [injection ES as <-; apply query_encoded|discriminate].
      + unfold sig_of in ES. destruct (key _); [injection ES as <-; apply query_encoded|discriminate]. }
  exists (form_text fields). split; [|split; [exact Q|]].
  - apply (to_form_with_buf_exact c e b _ _ _ HB r cs M PP []). rewrite dtext_dstr. split; [exact T|]. split; [exact V|]. exists sig. split; [exact ES|reflexivity].
  - unfold query_text. assert (N : fields <> []) by (unfold fields; now destruct (wire_fields _ _)). clearbody fields. destruct fields as [|p fields]; [congruence|].
    exact (append_reads uri hier fragment _ HU Q).
Qed.
Print Assumptions C99_signed_partial.

(** So it is not true that the parameters are added to the query of every URI that has none. *)
Theorem C99_refuted : ~ (forall r l uri hier fragment out, honest r l -> l <> [] -> uri_reads uri hier None fragment ->
  to_query uri r = Ok out -> exists query, uri_reads out hier (Some query) fragment /\ parse_form query = Some l).
Proof.
  intros H. pose (uri := lit "http://example.com/x#y").
  assert (HU : uri_reads uri (lit "http://example.com/x") None (Some (lit "y"))).
  { constructor; [reflexivity| |discriminate]. split; intros I; vm_compute in I; intuition discriminate. }
  destruct (to_query uri ex_request) as [out|] eqn:E; [|vm_compute in E; discriminate].
  destruct (H ex_request _ uri (lit "http://example.com/x") (Some (lit "y")) out C18_example_honest) as [query [H1 _]]; [discriminate|exact HU|exact E|].
  destruct (C99_query_partial ex_request _ uri (lit "http://example.com/x") (Some (lit "y")) out C18_example_honest) as [form [_ [_ [_ [_ F]]]]]; [discriminate|exact HU|exact E|].
  specialize (F _ eq_refl). destruct (C99_reading out) as [h [q [f [_ U]]]].
  destruct (U _ _ _ H1) as [_ [Q1 _]]. destruct (U _ _ _ F) as [_ [Q2 _]]. congruence.
Qed.
Print Assumptions C99_refuted.

(** ** What is signed *)

Lemma lower_mark : forall c s, In c (lit "?#") -> In c (map to_lower s) -> In c s.
Proof.
  intros c s HC H. apply in_map_iff in H as [b [E H]]. destruct HC as [<-|[<-|[]]]; destruct b; vm_compute in E; try discriminate E; exact H.
Qed.

Lemma span_until_none : forall stop s a r c, span_until stop s = (a, r) -> In c stop -> ~ In c a.
Proof.
  intros stop. induction s as [|b s IH]; intros a r c H I; cbn [span_until] in H; [injection H as <- <-; intros []|].
  destruct (existsb (beqb b) stop) eqn:E; [injection H as <- <-; intros []|].
  destruct (span_until stop s) as [a' r'] eqn:ES. injection H as <- <-. intros [->|K]; [|exact (IH _ _ _ eq_refl I K)].
  assert (X : existsb (beqb c) stop = true) by (apply existsb_exists; exists c; split; [exact I|now apply beqb_eq]). congruence.
Qed.

Lemma split_sub_first : forall pat s a r x y, pat <> [] -> split_sub pat s = Some (a, r) -> a <> x ++ pat ++ y.
Proof.
  intros pat. induction s as [|b s IH]; intros a r x y HP H; cbn [split_sub] in H.
  - destruct (strip_prefix pat []) as [z|] eqn:E; [|discriminate]. apply strip_prefix_app in E. destruct pat; [congruence|discriminate].
  - destruct (strip_prefix pat (b :: s)) as [z|] eqn:E.
    + injection H as <- <-. destruct x, pat; try discriminate. congruence.
    + destruct (split_sub pat s) as [[a' r']|] eqn:ES; [|discriminate]. injection H as <- <-. intros K. destruct x as [|d x].
      * cbn [app] in K. apply split_sub_app in ES. assert (Z : exists z, b :: s = pat ++ z).
        { exists (y ++ pat ++ r'). rewrite app_assoc, <- K. cbn [app]. now rewrite <- ES. }
        destruct Z as [z Z]. rewrite Z in E. clear - E. induction pat as [|c pat IH]; cbn in E; [discriminate|].
        rewrite (proj2 (beqb_eq c c) eq_refl) in E. auto.
      * cbn [app] in K. injection K as -> K. exact (IH a' r' x y HP eq_refl K).
Qed.

(** Behind its scheme, a base string URI has neither query nor fragment. *)
Lemma base_uri_marks : forall base rest c, after_scheme (base_uri base) rest -> In c (lit "?#") -> ~ In c rest.
Proof.
  intros base rest c [s [HS E]] HC I. unfold base_uri in E. destruct (split_sub (lit "://") base) as [[scheme tail]|] eqn:E1.
  2:{ subst base. clear - E1. induction s as [|b s IH]; [cbn in E1; discriminate|]. cbn [app split_sub] in E1.
      destruct (strip_prefix _ _); [discriminate|]. apply IH. now destruct (split_sub _ _) as [[]|]. }
  destruct (span_until (lit "/?#") tail) as [authority tail'] eqn:E2. destruct (span_until (lit "?#") tail') as [path x] eqn:E3. cbv zeta in E.
  set (host := match strip_suffix _ (map to_lower authority) with Some h => h | None => map to_lower authority end) in E.
  match type of E with context [host ++ ?x] => set (p := x) in E end.
  assert (N : ~ In c (host ++ p)).
  { rewrite in_app_iff. intros [K|K].
    - assert (J : In c (map to_lower authority)).
      { unfold host in K. destruct (strip_suffix _ (map to_lower authority)) as [y|] eqn:ES; [|exact K]. unfold strip_suffix in ES.
        destruct (strip_prefix (rev _) (rev (map to_lower authority))) as [z|] eqn:EP; [|discriminate].
        apply strip_prefix_app in EP. cbn [option_map] in ES. injection ES as <-. apply in_rev in K. apply in_rev.
        rewrite EP. apply in_app_iff. now right. }
      apply (lower_mark c _ HC) in J. revert J. apply (span_until_none _ _ _ _ c E2). now right.
    - unfold p in K. destruct path as [|y path]; [destruct K as [<-|[]]; vm_compute in HC; intuition discriminate|].
      revert K. exact (span_until_none _ _ _ _ c E3 HC). }
  apply N. clear N. clearbody host p. change (lit "://") with [":"; "/"; "/"]%byte in E. cbn [app] in E.
  assert (F : forall x y, scheme <> x ++ lit "://" ++ y) by (intros; now apply (split_sub_first _ base _ tail)).
  assert (G : forall x y, map to_lower scheme <> x ++ [":"; "/"; "/"]%byte ++ y).
  { intros u v K. apply map_eq_app in K as [l1 [l2 [K1 [K2 K3]]]]. apply map_eq_app in K3 as [l3 [l4 [K4 [K5 K6]]]].
    apply (F l1 l4). rewrite K1, K4. do 2 f_equal. destruct l3 as [|a [|b [|d [|? ?]]]]; try discriminate K5. cbn [map] in K5. injection K5 as A B D.
    assert (a = ":"%byte) as -> by (destruct a; vm_compute in A; congruence).
    assert (b = "/"%byte) as -> by (destruct b; vm_compute in B; congruence).
    assert (d = "/"%byte) as -> by (destruct d; vm_compute in D; congruence). reflexivity. }
  clear F E1 E2 E3. revert s HS E G. generalize (map to_lower scheme). generalize (host ++ p). intros hp.
  intros b. induction b as [|a b IH]; intros s HS E G.
  - destruct s as [|d s]; cbn [app] in E; [injection E as E; rewrite E; exact I|]. injection E as E _. exfalso. apply HS. now left.
  - destruct s as [|d s]; cbn [app] in E.
    + injection E as -> E. destruct b as [|a1 [|a2 b]]; cbn [app] in E; try discriminate E. injection E as -> -> E. exfalso. now apply (G [] b).
    + injection E as -> E. apply (IH s); [intros K; apply HS; now right|exact E|]. intros u v K. apply (G (d :: u) v). cbn [app]. now rewrite K.
Qed.

(** The documentation says that a query in the URI gives a wrong signature; so does a fragment.  Whatever the client sends with
    such a signature, and to whomever, is not accepted, or there is a collision.  (In debug builds a query panics, C33.) *)
Theorem C99_wrong_hmac : forall c e b method uri rest mark r l s client token method' uri' header' body' out,
  bd_signature_method b = HMAC_SHA1 -> honest r l -> normal_method method ->
  after_scheme uri rest -> In mark (lit "?#") -> In mark rest -> client_signature c e b method uri r s ->
  server_check (hmac_check client token) method' uri' header' body' = Some out -> lookup (lit "oauth_signature") out = [s] ->
  exists key text key' text', key = signing_key (client_secret b) (token_secret b) /\ key' = signing_key client token
    /\ (key, text) <> (key', text') /\ hmac_sha1 key text = hmac_sha1 key' text'.
Proof.
  intros c e b method uri rest mark r l s client token method' uri' header' body' out HB HR HM HA HC HI HS H HL.
  destruct (C73_hmac c e b method uri r l s client token method' uri' header' body' out HB HR HM HS H HL) as [base [q [_ [[_ [K _]]|K]]]].
  - exfalso. subst uri. exact (base_uri_marks base rest mark HA HC HI).
  - cbv zeta in K. destruct K. do 4 eexists. do 2 (split; [reflexivity|]). split; eassumption.
Qed.
Print Assumptions C99_wrong_hmac.

Theorem C99_wrong_rsa : forall c e b public private decode method uri rest mark r l s method' uri' header' body' out,
  key_pair public private -> signs_with b private -> (forall x, decode (base64 b64_std true x) = Some x) ->
  honest r l -> normal_method method ->
  after_scheme uri rest -> In mark (lit "?#") -> In mark rest -> client_signature c e b method uri r s ->
  server_check (rsa_check decode (pkcs1_verify public)) method' uri' header' body' = Some out ->
  lookup (lit "oauth_signature") out = [s] ->
  exists text text', text <> text' /\ sha1 text = sha1 text'.
Proof.
  intros c e b public private decode method uri rest mark r l s method' uri' header' body' out HK HB HD HR HM HA HC HI HS H HL.
  destruct (C73_rsa c e b public private decode method uri r l s method' uri' header' body' out HK HB HD HR HM HS H HL) as [base [q [_ [[_ [K _]]|K]]]].
  - exfalso. subst uri. exact (base_uri_marks base rest mark HA HC HI).
  - cbv zeta in K. destruct K. do 2 eexists. split; eassumption.
Qed.
Print Assumptions C99_wrong_rsa.

(** ** Examples *)

Example C99_example :
  to_query (lit "http://example.com/x") ex_request = Ok (lit "http://example.com/x?a=1%202&c=%26%3D&c=z&p=q")
  /\ to_query (lit "http://example.com/x#y") ex_request = Ok (lit "http://example.com/x#y?a=1%202&c=%26%3D&c=z&p=q")
  /\ uri_reads (lit "http://example.com/x#y") (lit "http://example.com/x") None (Some (lit "y"))
  /\ after_scheme (lit "http://example.com/x#y") (lit "example.com/x#y").
Proof.
  split; [vm_compute; reflexivity|]. split; [vm_compute; reflexivity|]. split.
  - constructor; [reflexivity| |discriminate]. split; intros I; vm_compute in I; intuition discriminate.
  - exists (lit "http"). split; [|reflexivity]. intros I. vm_compute in I. intuition discriminate.
Qed.

(** A header signed for a URI with a fragment is rejected, whether the server sees the fragment or not. *)
Example C99_example_rejected :
  match Builder_authorize dbg_std env0 doc_builder (lit "POST") (s2d "http://example.com/x#y") ex_request, to_form ex_request with
  | Ok header, Ok body =>
      match server_check (hmac_check (lit "consumer_secret") (Some (lit "token_secret"))) (lit "POST") (lit "http://example.com/x") (Some header) body,
            server_check (hmac_check (lit "consumer_secret") (Some (lit "token_secret"))) (lit "POST") (lit "http://example.com/x#y") (Some header) body with
      | None, None => true
      | _, _ => false
      end
  | _, _ => false
  end = true.
Proof. vm_compute. reflexivity. Qed.
