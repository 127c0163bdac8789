(** C77: the PLAINTEXT requests of the builder at a server that follows RFC 5849 section 3.4.4. *)
From Coq Require Import String.
From Coq Require Import Lia Arith Sorted Permutation.
From Verif Require Import Bytes Crypto Spec MFmt MPercent MSerializer MSign MRequest MCredentials MAuth MBuilder ModelTests
  SpecFmt SpecCalls SpecCalls2 SpecAuth SpecBuild SpecForm SpecServer SpecServer2 SpecParams SpecSign
  LBytes LFmt LPercent LTrace LAuth LSign LBuild LForm LBase LReq LReq2 LPanic LTop LParams LServer
  PropsServer PropsHeader PropsSign PropsServer2.
Local Open Scope nat_scope.

(** Section 3.4.4: the signature is the two encoded secrets with "&" between them, whatever the request. *)
Definition plaintext_check (client_secret : bytes) (token_secret : option bytes) : bytes -> bytes -> bytes -> bool :=
  fun name signature text =>
    bseqb name (lit "PLAINTEXT") && bseqb signature (signing_key client_secret token_secret).

Definition plain_conf (e : env) (b : Builder) : conf := conf_of (lit "PLAINTEXT") e b.

(** The secret that goes with the token, empty without one. *)
Definition token_text (token : option bytes) : bytes := match token with Some t => t | None => [] end.

(** ** Reading what the builder wrote *)

Lemma parse_form_join : forall a b l l', a <> [] -> parse_form a = Some l -> parse_form b = Some l' ->
  parse_form (form_join a b) = Some (l ++ l').
Proof.
  intros a b l l' HA H1 H2. destruct a as [|x a]; [congruence|]. destruct b as [|y b].
  - cbn in H2. injection H2 as <-. now rewrite app_nil_r.
  - cbn [form_join]. unfold parse_form in *. cbn [app]. change (x :: a ++ lit "&" ++ y :: b) with ((x :: a) ++ "&"%byte :: y :: b).
    rewrite split_all_app_gen, map_app, all_some_app, H1, H2. reflexivity.
Qed.

Lemma plain_builtin : forall b, bd_signature_method b = PLAINTEXT ->
  builtin (bd_signature_method b) (lit "PLAINTEXT") false (fun cs ts _ => Some (signing_key cs ts)).
Proof. intros b ->. constructor. Qed.

Lemma plain_valid : forall c cf d cs, ascending (map call_key cs) -> Permutation (call_protos cs) all_protos ->
  dok d -> ~ has_question (dtext d) -> valid_for false c cf d cs.
Proof.
  intros c cf d cs HA HP HD HQ. constructor; auto.
  - discriminate.
  - intros _ _. now apply signed_keys_ascending.
Qed.

(** The fields of a form and what they are read as. *)
Definition plain_form (e : env) (b : Builder) : bytes :=
  form_text (wire_fields (plain_conf e b) all_protos ++ [(lit "oauth_signature", signing_key (client_secret b) (token_secret b))]).
Definition plain_pairs (e : env) (b : Builder) : list pair :=
  protocol_pairs (plain_conf e b) ++ [(lit "oauth_signature", client_secret b); (token_text (token_secret b), [])].

Lemma plain_form_reads : forall e b, parse_form (plain_form e b) = Some (plain_pairs e b) /\ plain_form e b <> [].
Proof.
  intros e b. unfold plain_form, plain_pairs. set (t := token_text (token_secret b)).
  assert (HN : uri_safe (cn_name (plain_conf e b))) by (apply safe_name; reflexivity).
  set (l := raw_fields (plain_conf e b) all_protos ++ [(lit "oauth_signature", client_secret b)]).
  assert (HE : form_text (wire_fields (plain_conf e b) all_protos
                 ++ [(lit "oauth_signature", signing_key (client_secret b) (token_secret b))])
               = form_text (map enc_value l) ++ "&"%byte :: pct_encode t).
  { unfold l. rewrite map_app, <- wire_enc by auto. unfold form_text. rewrite !map_app. cbn [map enc_value fst snd].
    assert (HJ : forall p x y, join (lit "&") (p ++ [x ++ y]) = join (lit "&") (p ++ [x]) ++ y).
    { induction p as [|a p IH]; intros x y; [reflexivity|].
      assert (G : forall z, join (lit "&") ((a :: p) ++ [z]) = a ++ lit "&" ++ join (lit "&") (p ++ [z]))
        by (intros z; destruct p; reflexivity).
      rewrite !G, IH, <- !app_assoc. reflexivity. }
    rewrite <- HJ. do 3 f_equal. }
  rewrite HE. split.
  - rewrite parse_form_stray.
    + unfold l. rewrite raw_all, <- app_assoc. reflexivity.
    + unfold l. destruct (raw_fields _ _); discriminate.
    + unfold l. apply Forall_app. split; [apply raw_safe|]. repeat constructor. now apply safe_name.
  - intros K. apply app_eq_nil in K as [_ K]. discriminate.
Qed.

Lemma raw_key_decodes : forall b,
  pct_decode (signing_key (client_secret b) (token_secret b)) = Some (client_secret b ++ lit "&" ++ token_text (token_secret b)).
Proof.
  intros b. unfold signing_key. rewrite pct_decode_encode_app. change (lit "&" ++ ?x) with ("&"%byte :: x). cbn [pct_decode].
  change (beqb "&" "%") with false. cbv iota. unfold token_text. rewrite pct_decode_encode. reflexivity.
Qed.

Lemma plain_header_reads : forall e b,
  parse_header (header_text (wire_fields (plain_conf e b) all_protos) (signing_key (client_secret b) (token_secret b)))
  = Some (protocol_pairs (plain_conf e b) ++ [(lit "oauth_signature", client_secret b ++ lit "&" ++ token_text (token_secret b))]).
Proof.
  intros e b. rewrite <- raw_all. apply parse_header_text.
  - apply wire_reads. now apply safe_name.
  - unfold signing_key. rewrite !in_app_iff. intros [K|[K|K]]; [now apply pct_decode_enc_quote in K| |now apply pct_decode_enc_quote in K].
    vm_compute in K. intuition discriminate.
  - apply raw_key_decodes.
Qed.

(** What the server decides when it sees exactly one signature and exactly one method. *)
Lemma server_decides : forall check method uri header body base h q b s m,
  (match header with Some h => parse_header h | None => Some [] end) = Some h ->
  parse_uri uri = Some (base, q) -> parse_form body = Some b ->
  lookup (lit "oauth_signature") (all_params h q b) = [s] ->
  lookup (lit "oauth_signature_method") (all_params h q b) = [m] ->
  server_check check method uri header body
  = if check m s (base_string method (base_uri base) (filter (fun p => negb (has_key (lit "oauth_signature") p)) (all_params h q b)))
    then Some (all_params h q b) else None.
Proof. intros check method uri header body base h q b s m HH HU HB H1 H2. unfold server_check. now rewrite HH, HU, HB, H1, H2. Qed.

Lemma server_twice : forall check method uri header body base h q b,
  (match header with Some h => parse_header h | None => Some [] end) = Some h ->
  parse_uri uri = Some (base, q) -> parse_form body = Some b ->
  (forall s, lookup (lit "oauth_signature") (all_params h q b) <> [s]) \/
  (forall m, lookup (lit "oauth_signature_method") (all_params h q b) <> [m]) ->
  server_check check method uri header body = None.
Proof.
  intros check method uri header body base h q b HH HU HB H. unfold server_check. rewrite HH, HU, HB. cbv zeta.
  destruct (lookup (lit "oauth_signature") (all_params h q b)) as [|s [|]]; auto.
  destruct (lookup (lit "oauth_signature_method") (all_params h q b)) as [|m [|]]; auto.
  destruct H as [H|H]; exfalso; eapply H; reflexivity.
Qed.

Lemma no_question_parse : forall uri, ~ has_question uri -> parse_uri uri = Some (uri, []).
Proof. intros uri H. unfold parse_uri. rewrite split_at_none; [reflexivity|exact H]. Qed.

(** ** C77 Whose PLAINTEXT requests a server accepts *)

(** In the header, with the parameters in the body or in the query: the server accepts if, and only if, its own two
    encoded secrets make up the client's two secrets without any encoding. *)
Theorem C77_header_partial : forall c e b r l method uri d client token,
  bd_signature_method b = PLAINTEXT -> timestamp_available c (plain_conf e b) ->
  honest r l -> ~ has_question uri -> dtext d = uri -> dok d ->
  exists header body query,
    Builder_authorize c e b method d r = Ok header /\ to_form r = Ok body /\ to_query uri r = Ok query
    /\ let ok out := out = Some (shown (plain_conf e b) (client_secret b ++ lit "&" ++ token_text (token_secret b)) l) in
       let right := signing_key client token = client_secret b ++ lit "&" ++ token_text (token_secret b) in
       (right -> ok (server_check (plaintext_check client token) method uri (Some header) body)
                 /\ ok (server_check (plaintext_check client token) method query (Some header) []))
       /\ (~ right -> server_check (plaintext_check client token) method uri (Some header) body = None
                      /\ server_check (plaintext_check client token) method query (Some header) [] = None).
Proof.
  intros c e b r l method uri d client token HB HT HR HQ ED DD.
  assert (HR' := HR). destruct HR' as [cs [M [P [A [D [C [S [O R]]]]]]]].
  assert (HPm : Permutation (call_protos cs) all_protos) by now rewrite P.
  set (sig := client_secret b ++ lit "&" ++ token_text (token_secret b)).
  exists (header_text (wire_fields (plain_conf e b) all_protos) (signing_key (client_secret b) (token_secret b))),
    (form_text (form_fields cs)), (query_text uri (form_fields cs)).
  split; [|split; [|split]].
  - apply (authorize_exact c e b _ _ _ (plain_builtin b HB) r cs M HPm). split; [exact HT|]. split.
    + apply plain_valid; auto. now rewrite ED.
    + eexists. split; [reflexivity|]. now rewrite P.
  - now apply (to_form_exact r cs _ M).
  - now apply (to_query_exact r cs uri _ M).
  - rewrite C. cbv zeta.
    pose proof (plain_header_reads e b) as HH. fold sig in HH.
    set (header := header_text _ _) in *.
    assert (EA : all_params (protocol_pairs (plain_conf e b) ++ [(lit "oauth_signature", sig)]) [] l = shown (plain_conf e b) sig l).
    { unfold all_params, shown. rewrite no_realm, <- app_assoc. reflexivity. }
    assert (EB : all_params (protocol_pairs (plain_conf e b) ++ [(lit "oauth_signature", sig)]) l [] = shown (plain_conf e b) sig l).
    { unfold all_params, shown. rewrite no_realm, <- app_assoc, app_nil_r. reflexivity. }
    destruct (shown_lookups (plain_conf e b) sig l O) as [L1 L2].
    assert (E1 := server_decides (plaintext_check client token) method uri (Some header) (form_text (map enc_value l)) uri _ [] l sig
      (lit "PLAINTEXT") HH (no_question_parse uri HQ) (parse_form_text l S)). rewrite EA in E1. specialize (E1 L1 L2).
    assert (E2 := server_decides (plaintext_check client token) method (query_text uri (map enc_value l)) (Some header) [] uri _ l [] sig
      (lit "PLAINTEXT") HH (parse_query_text uri l S HQ) eq_refl). rewrite EB in E2. specialize (E2 L1 L2).
    rewrite E1, E2. unfold plaintext_check. rewrite bseqb_refl. cbn [andb].
    destruct (bseqb sig (signing_key client token)) eqn:EQ.
    + apply bseqb_eq in EQ. split; [auto|]. intros N. exfalso. apply N. congruence.
    + split; [|auto]. intros N. exfalso. rewrite N, bseqb_refl in EQ. discriminate.
Qed.
Print Assumptions C77_header_partial.

(** So the server that knows the client's secrets accepts if and only if neither of them needs encoding. *)
Theorem C77_own_partial : forall b,
  signing_key (client_secret b) (token_secret b) = client_secret b ++ lit "&" ++ token_text (token_secret b) <->
  uri_safe (client_secret b) /\ uri_safe (token_text (token_secret b)).
Proof.
  intros b. unfold signing_key. fold (token_text (token_secret b)). set (t := token_text (token_secret b)). split.
  - intros K. destruct (pct_encode_longer (client_secret b)) as [L1 L2]. destruct (pct_encode_longer t) as [L3 L4].
    apply (f_equal (@length _)) in K. rewrite !app_length in K. change (length (lit "&")) with 1 in K. split; [apply L2|apply L4]; lia.
  - intros [K1 K2]. now rewrite !pct_encode_safe.
Qed.
Print Assumptions C77_own_partial.

(** In a form or in a query the server never accepts with the client's secrets, whatever they are; it accepts only
    with secrets that encode to the client's client secret. *)
Theorem C77_form_query_refuted : forall c e b r l method uri d client token,
  bd_signature_method b = PLAINTEXT -> timestamp_available c (plain_conf e b) ->
  honest r l -> ~ has_question uri -> dtext d = uri -> dok d ->
  exists form query body,
    Builder_to_form c e b method d r = Ok form /\ Builder_to_query c e (w := StringW) dstr b method uri r = Ok query
    /\ to_form r = Ok body
    /\ (signing_key client token <> client_secret b ->
        server_check (plaintext_check client token) method uri None (form_join form body) = None
        /\ server_check (plaintext_check client token) method query None body = None)
    /\ signing_key (client_secret b) (token_secret b) <> client_secret b.
Proof.
  intros c e b r l method uri d client token HB HT HR HQ ED DD.
  assert (HR' := HR). destruct HR' as [cs [M [P [A [D [C [S [O R]]]]]]]].
  assert (HPm : Permutation (call_protos cs) all_protos) by now rewrite P.
  destruct (plain_form_reads e b) as [PR PN].
  exists (plain_form e b), (uri ++ lit "?" ++ plain_form e b), (form_text (form_fields cs)). split; [|split; [|split; [|split]]].
  - apply (to_form_with_buf_exact c e b _ _ _ (plain_builtin b HB) r cs M HPm []). split; [exact HT|]. split.
    + apply plain_valid; auto. now rewrite ED.
    + eexists. split; [reflexivity|]. now rewrite P.
  - apply (to_query_exact' c e b _ _ _ (plain_builtin b HB) r cs M HPm uri). split; [exact HT|]. split.
    + apply plain_valid; auto using dok_dstr. now rewrite dtext_dstr.
    + eexists. split; [reflexivity|]. rewrite P. unfold query_text, plain_form, plain_conf.
      destruct (wire_fields _ _ ++ _) eqn:E; [|reflexivity]. apply app_eq_nil in E as [_ E]. discriminate.
  - now apply (to_form_exact r cs _ M).
  - intros HN. rewrite C.
    assert (PU : parse_uri (uri ++ lit "?" ++ plain_form e b) = Some (uri, plain_pairs e b)).
    { unfold parse_uri. change (lit "?" ++ plain_form e b) with ("?"%byte :: plain_form e b). rewrite split_at_app by exact HQ. now rewrite PR. }
    pose proof (parse_form_text l S) as PB. pose proof (parse_form_join _ _ _ _ PN PR PB) as PJ.
    assert (LS : forall x, lookup (lit "oauth_signature") (plain_pairs e b ++ l) = [x] -> x = client_secret b).
    { intros x. unfold plain_pairs. rewrite !lookup_app, (lookup_none (lit "oauth_signature") (protocol_pairs _)), (lookup_none _ l).
      - rewrite app_nil_r. unfold lookup. cbn [app filter fst]. rewrite bseqb_refl. cbn [map snd]. intros K. now injection K as K _.
      - intros f Hf E. unfold no_oauth_keys in O. rewrite Forall_forall in O. apply (O f Hf). rewrite E. now left.
      - intros f Hf E. rewrite <- raw_all in Hf. apply raw_in in Hf as [p [_ [E' _]]]. apply (sig_not_proto p). congruence. }
    assert (G : forall u body base q bd, parse_uri u = Some (base, q) -> parse_form body = Some bd -> q ++ bd = plain_pairs e b ++ l ->
      server_check (plaintext_check client token) method u None body = None).
    { intros u body base q bd H1 H2 H3. unfold server_check. rewrite H1, H2. cbv zeta. unfold all_params. cbn [filter app]. rewrite H3.
      destruct (lookup (lit "oauth_signature") (plain_pairs e b ++ l)) as [|s [|]] eqn:E1; auto.
      rewrite (LS s eq_refl) in *. destruct (lookup (lit "oauth_signature_method") (plain_pairs e b ++ l)) as [|m [|]]; auto.
      unfold plaintext_check. destruct (bseqb (client_secret b) (signing_key client token)) eqn:E2.
      - apply bseqb_eq in E2. congruence.
      - now rewrite Bool.andb_false_r. }
    split.
    + apply (G _ _ uri [] (plain_pairs e b ++ l)); auto using no_question_parse.
    + apply (G _ _ uri (plain_pairs e b) l); auto.
  - intros K. pose proof (proj1 (pct_encode_longer (client_secret b))) as L1.
    apply (f_equal (@length _)) in K. unfold signing_key in K. rewrite !app_length in K. change (length (lit "&")) with 1 in K. lia.
Qed.
Print Assumptions C77_form_query_refuted.

(** A server does accept requests made with secrets that are not its own: those it has encoded. *)
Theorem C77_other_refuted : exists b client token,
  bd_signature_method b = PLAINTEXT /\ ~ (client_secret b = client /\ token_text (token_secret b) = token_text token)
  /\ exists header, Builder_authorize dbg_std env0 b (lit "GET") (s2d "http://h/") Request_unit = Ok header
     /\ server_check (plaintext_check client token) (lit "GET") (lit "http://h/") (Some header) [] <> None
     /\ server_check (plaintext_check (client_secret b) (token_secret b)) (lit "GET") (lit "http://h/") (Some header) [] = None.
Proof.
  exists (Builder_new (Cred (lit "id") (lit "a%20b")) PLAINTEXT), (lit "a b"), None. split; [reflexivity|]. split.
  - intros [H _]. vm_compute in H. discriminate H.
  - destruct (Builder_authorize dbg_std env0 (Builder_new (Cred (lit "id") (lit "a%20b")) PLAINTEXT) (lit "GET") (s2d "http://h/") Request_unit)
      as [header|] eqn:E; [|vm_compute in E; discriminate E].
    exists header. split; [reflexivity|]. vm_compute in E. injection E as <-. split; [|vm_compute; reflexivity].
    vm_compute. discriminate.
Qed.
Print Assumptions C77_other_refuted.

(** Safe secrets are accepted in the header, unsafe ones are not. *)
Example C77_example :
  let go secret :=
    match Builder_authorize dbg_std env0 (full PLAINTEXT (lit secret) (lit "t")) (lit "POST") (s2d "http://example.com/x") PropsServer2.ex_request,
          to_form PropsServer2.ex_request with
    | Ok header, Ok body =>
        match server_check (plaintext_check (lit secret) (Some (lit "t"))) (lit "POST") (lit "http://example.com/x") (Some header) body with
        | Some out => Nat.eqb (length (lookup (lit "c") out)) 2
        | None => false
        end
    | _, _ => false
    end in
  go "s3cret"%string && negb (go "s3&cret"%string) && negb (go "s3 cret"%string) = true.
Proof. vm_compute. reflexivity. Qed.
