(** Properties C25, C29-C31 and C50: builders. *)
From Coq Require Import String.
From Coq Require Import Lia Arith Sorted Permutation.
From Verif Require Import Bytes Crypto Spec MFmt MPercent MSerializer MSign MRequest MCredentials MAuth MBuilder ModelTests
  SpecFmt SpecCalls SpecCalls2 SpecAuth SpecBuild SpecForm SpecServer SpecParams SpecSign SpecPanic SpecBuilder
  LBytes LFmt LPercent LCrypto LTrace LAuth LSign LBuild LForm LBase LBase2 LReq LReq2 LPanic LTop LParams LServer
  LReveal LAny LBuf LSim PropsHeader PropsServer.

(** ** C25 *)

(** Forms and queries made by a builder never carry a parameter of the request: for every request,
    the parameters read from them are the protocol parameters and the signature. *)
Theorem C25_refuted : forall c e b name f r cs method uri body uri',
  builtin (bd_signature_method b) name true f ->
  makes_calls r cs -> call_protos cs = all_protos -> ~ In "?"%byte uri ->
  Builder_to_form c e b method (dstr uri) r = Ok body ->
  Builder_to_query c e (w := StringW) dstr b method uri r = Ok uri' ->
  exists params, parse_form body = Some params /\ parse_uri uri' = Some (uri, params)
    /\ forall k, k <> lit "oauth_signature" -> (forall p, k <> proto_key p) -> lookup k params = [].
Proof.
  intros c e b name f r cs method uri body uri' HB HM HP HQ H2 H3.
  assert (H1 : exists header, Builder_authorize c e b method (dstr uri) r = Ok header).
  { apply (to_form_with_buf_exact c e b _ _ _ HB r cs HM (protos_perm cs HP) []) in H2 as [T [V [sig [ES _]]]].
    eexists. apply (authorize_exact c e b _ _ _ HB r cs HM (protos_perm cs HP)). eauto. }
  destruct H1 as [header H1].
  destruct (C26_parse c e b name f r cs method uri header body uri' HB HM HP HQ H1 H2 H3) as [sig [_ [P1 P2]]].
  eexists. split; [exact P1|]. split; [exact P2|]. intros k K1 K2. rewrite lookup_app, <- raw_all, lookup_none.
  - unfold lookup. cbn [filter fst]. destruct (bseqb (lit "oauth_signature") k) eqn:E; [|reflexivity].
    apply bseqb_eq in E. congruence.
  - intros g Hg E. apply raw_in in Hg as [p [_ [E2 _]]]. apply (K2 p). congruence.
Qed.
Print Assumptions C25_refuted.

(** A request with a parameter, which the documentation promises in the output. *)
Example C25_witness :
  match Builder_to_form dbg_std env0 doc_builder (lit "POST") (s2d "http://h/") (AssertSorted true [kvs "status" "hi"]) with
  | Ok body => match parse_form body with Some l => Nat.eqb (length (lookup (lit "status") l)) 0 | None => false end
  | Panic _ => false
  end = true.
Proof. vm_compute. reflexivity. Qed.

(** What does hold: the parameter is signed, so it must reach the server by other means.  Appending
    [to_form] of the request to the form gives what was promised. *)
Theorem C25_appended_partial : forall c e b name f r cs l method uri body rest,
  builtin (bd_signature_method b) name true f ->
  makes_calls r cs -> call_protos cs = all_protos -> carries cs l -> safe_keys l -> l <> [] ->
  Builder_to_form c e b method uri r = Ok body -> to_form r = Ok rest ->
  exists sig, parse_form (body ++ lit "&" ++ rest)
    = Some (protocol_pairs (conf_of name e b) ++ [(lit "oauth_signature", sig)] ++ l).
Proof.
  intros c e b name f r cs l method uri body rest HB HM HP HC HS HL H1 H2.
  apply (to_form_with_buf_exact c e b _ _ _ HB r cs HM (protos_perm cs HP) []) in H1 as [_ [_ [sig [ES E1]]]].
  unfold sig_of in ES. apply (builtin_encoded _ _ _ HB) in ES as [raw ->]. exists raw.
  apply (to_form_exact r cs _ HM) in H2 as [_ E2]. subst body rest. rewrite HP. cbn [app].
  rewrite HC. assert (HN : uri_safe (cn_name (conf_of name e b))) by exact (sa_safe _ _ _ _ (builtin_signs_as _ _ _ _ HB)).
  assert (HE : wire_fields (conf_of name e b) all_protos ++ [(lit "oauth_signature", pct_encode raw)]
    = map enc_value (raw_fields (conf_of name e b) all_protos ++ [(lit "oauth_signature", raw)])).
  { rewrite map_app. f_equal. now apply wire_enc. }
  change (lit "&" ++ ?x) with (lit "&" ++ x).
  rewrite HE, <- form_text_app.
  - rewrite <- map_app, parse_form_text.
    + rewrite <- app_assoc, raw_all. reflexivity.
    + apply Forall_app. split; [|exact HS]. apply Forall_app. split; [apply raw_safe|]. repeat constructor. now apply safe_name.
  - destruct (raw_fields _ _); discriminate.
  - destruct l; [congruence|discriminate].
Qed.
Print Assumptions C25_appended_partial.

(** ** C29 *)

Theorem C29_header_shorthands : forall c e b uri r,
  Forall (fun p => fst p = Builder_authorize c e b (snd p) uri r)
    [(Builder_get c e b uri r, lit "GET"); (Builder_put c e b uri r, lit "PUT"); (Builder_post c e b uri r, lit "POST");
     (Builder_delete c e b uri r, lit "DELETE"); (Builder_options c e b uri r, lit "OPTIONS");
     (Builder_head c e b uri r, lit "HEAD"); (Builder_connect c e b uri r, lit "CONNECT");
     (Builder_patch c e b uri r, lit "PATCH"); (Builder_trace c e b uri r, lit "TRACE")].
Proof. intros. repeat constructor. Qed.
Print Assumptions C29_header_shorthands.

Theorem C29_form_shorthands : forall c e b uri r,
  Forall (fun p => fst p = Builder_to_form c e b (snd p) uri r)
    [(Builder_put_form c e b uri r, lit "PUT"); (Builder_post_form c e b uri r, lit "POST");
     (Builder_options_form c e b uri r, lit "OPTIONS"); (Builder_patch_form c e b uri r, lit "PATCH")].
Proof. intros. repeat constructor. Qed.
Print Assumptions C29_form_shorthands.

Theorem C29_query_shorthands : forall c e b (w : Writer) show (uri : w) r,
  Forall (fun p => fst p = Builder_to_query c e show b (snd p) uri r)
    [(Builder_get_query c e show b uri r, lit "GET"); (Builder_put_query c e show b uri r, lit "PUT");
     (Builder_post_query c e show b uri r, lit "POST"); (Builder_delete_query c e show b uri r, lit "DELETE");
     (Builder_options_query c e show b uri r, lit "OPTIONS"); (Builder_head_query c e show b uri r, lit "HEAD");
     (Builder_connect_query c e show b uri r, lit "CONNECT"); (Builder_patch_query c e show b uri r, lit "PATCH");
     (Builder_trace_query c e show b uri r, lit "TRACE")].
Proof. intros. repeat constructor. Qed.
Print Assumptions C29_query_shorthands.

Theorem C29_consuming : forall c e b method r,
  (forall uri, Builder_into_authorization c e b method uri r = Builder_authorize c e b method uri r)
  /\ (forall uri, Builder_into_form c e b method uri r = Builder_to_form c e b method uri r)
  /\ (forall (w : Writer) show (uri : w), Builder_into_query c e show b method uri r = Builder_to_query c e show b method uri r)
  /\ (forall (w : Writer) (buf : w) uri,
        Builder_into_authorization_with_buf c e b buf method uri r = Builder_authorize_with_buf c e b buf method uri r)
  /\ (forall (w : Writer) (buf : w) uri,
        Builder_into_form_with_buf c e b buf method uri r = Builder_to_form_with_buf c e b buf method uri r).
Proof. intros. repeat split. Qed.
Print Assumptions C29_consuming.

(** The free functions: a builder with both credentials, as text, and no options. *)
Theorem C29_free : forall {C T} c e (ac : C -> bytes) (at_ : T -> bytes) uri r ci cs ti ts sm,
  let b := {| bd_signature_method := sm; bd_client := Cred (ac ci) (ac cs);
              bd_token := Some (Cred (at_ ti) (at_ ts));
              bd_options := {| op_callback := None; op_verifier := None; op_nonce := None; op_timestamp := None;
                               op_version := false |} |} in
  let t := Tok (Cred ci cs) (Cred ti ts) in
  (forall method, authorize c e ac at_ method uri r t sm = Builder_authorize c e b method uri r)
  /\ Forall (fun p => fst p = Builder_authorize c e b (snd p) uri r)
       [(get c e ac at_ uri r t sm, lit "GET"); (put c e ac at_ uri r t sm, lit "PUT"); (post c e ac at_ uri r t sm, lit "POST");
        (delete c e ac at_ uri r t sm, lit "DELETE"); (options c e ac at_ uri r t sm, lit "OPTIONS");
        (head c e ac at_ uri r t sm, lit "HEAD"); (connect c e ac at_ uri r t sm, lit "CONNECT");
        (patch c e ac at_ uri r t sm, lit "PATCH"); (MBuilder.trace c e ac at_ uri r t sm, lit "TRACE")].
Proof. intros. split; [reflexivity|]. repeat constructor. Qed.
Print Assumptions C29_free.

Example C29_example :
  match get dbg_std env0 (fun s : bytes => s) (fun s : bytes => s) (s2d "http://h/") (AssertSorted true [kvs "a" "1"])
          (Tok (Cred (lit "ci") (lit "cs")) (Cred (lit "ti") (lit "ts"))) PLAINTEXT with
  | Ok out => match parse_header out with
              | Some l => bseqb (concat (lookup (lit "oauth_consumer_key") l ++ lookup (lit "oauth_token") l ++ lookup (lit "oauth_signature") l))
                            (lit "citics&ts")
              | None => false
              end
  | Panic _ => false
  end = true.
Proof. vm_compute. reflexivity. Qed.

(** ** C30 *)

(** After any settings, each option has the last value set; nothing else changes. *)
Theorem C30_last_write_wins : forall h b,
  configure h b =
  {| bd_signature_method := bd_signature_method b; bd_client := bd_client b;
     bd_token := last_set sel_token (bd_token b) h;
     bd_options :=
       {| op_callback := last_set sel_callback (op_callback (bd_options b)) h;
          op_verifier := last_set sel_verifier (op_verifier (bd_options b)) h;
          op_nonce := last_set sel_nonce (op_nonce (bd_options b)) h;
          op_timestamp := last_set sel_timestamp (op_timestamp (bd_options b)) h;
          op_version := last_set sel_version (op_version (bd_options b)) h |} |}.
Proof.
  induction h as [|x h IH]; intros b.
  - destruct b as [sm cl tk [o1 o2 o3 o4 o5]]. reflexivity.
  - change (configure (x :: h) b) with (configure h (set x b)). rewrite IH. destruct x; reflexivity.
Qed.
Print Assumptions C30_last_write_wins.

(** The last value set, in words: it was set by some setting and no later one set it again. *)
Theorem C30_last_set : forall {A} (select : setting -> option A) before h,
  (exists h1 x v h2, h = h1 ++ x :: h2 /\ select x = Some v /\ (forall y, In y h2 -> select y = None)
     /\ last_set select before h = v)
  \/ ((forall y, In y h -> select y = None) /\ last_set select before h = before).
Proof.
  intros A select before h. revert before. induction h as [|x h IH]; intros before; [right; split; [intros y []|reflexivity]|].
  cbn [last_set]. destruct (IH (match select x with Some v => v | None => before end)) as [[h1 [y [v [h2 [E1 [E2 [E3 E4]]]]]]]|[H1 H2]].
  - left. exists (x :: h1), y, v, h2. subst h. auto.
  - destruct (select x) as [v|] eqn:E.
    + left. exists [], x, v, h. auto.
    + right. split; [|exact H2]. intros y [<-|Hy]; auto.
Qed.
Print Assumptions C30_last_set.

(** Settings of different options commute. *)
Theorem C30_commute : forall x y b, about x <> about y -> set x (set y b) = set y (set x b).
Proof. intros x y b H. destruct x, y; try reflexivity; now elim H. Qed.
Print Assumptions C30_commute.

(** A setting hides every earlier one of the same option; so unsetting with [None] (or [false])
    restores the default of a fresh builder. *)
Theorem C30_overwrite : forall x h b,
  configure (h ++ [x]) b = configure (filter (fun y => negb (Nat.eqb (about y) (about x))) h ++ [x]) b.
Proof.
  intros x h b. rewrite !C30_last_write_wins.
  assert (HL : forall {A} (sel : setting -> option A) d h h2, last_set sel d (h ++ h2) = last_set sel (last_set sel d h) h2).
  { intros A sel d h0. revert d. induction h0; intros; [reflexivity|]. cbn. apply IHh0. }
  assert (HF : forall {A} (sel : setting -> option A), (forall y, about y = about x -> sel y = None) ->
    forall h d, last_set sel d (filter (fun y => negb (Nat.eqb (about y) (about x))) h) = last_set sel d h).
  { intros A sel Hs h0. induction h0 as [|y h0 IH]; intros d; [reflexivity|]. cbn [filter last_set].
    destruct (Nat.eqb (about y) (about x)) eqn:E; cbn [negb].
    - apply Nat.eqb_eq in E. now rewrite (Hs y E).
    - cbn [last_set]. apply IH. }
  rewrite !HL.
  f_equal; [destruct x; try reflexivity; (rewrite HF; [reflexivity|intros []; cbn; congruence])|].
  f_equal; destruct x; try reflexivity; (rewrite HF; [reflexivity|intros []; cbn; congruence]).
Qed.
Print Assumptions C30_overwrite.

Theorem C30_unset : forall h cl sm x,
  (x = SetToken None \/ x = SetCallback None \/ x = SetVerifier None \/ x = SetNonce None \/ x = SetTimestamp None \/ x = SetVersion false) ->
  configure (h ++ [x]) (Builder_new cl sm)
  = configure (filter (fun y => negb (Nat.eqb (about y) (about x))) h) (Builder_new cl sm).
Proof.
  intros h cl sm x Hx. rewrite C30_overwrite. set (g := filter _ h).
  assert (HG : forall y, In y g -> about y <> about x).
  { intros y Hy. apply filter_In in Hy as [_ Hy]. apply negb_true_iff, Nat.eqb_neq in Hy. exact Hy. }
  clearbody g. unfold configure. rewrite fold_left_app. cbn [fold_left].
  assert (HI : forall g b, (forall y, In y g -> about y <> about x) -> set x b = b -> set x (fold_left (fun b y => set y b) g b) = fold_left (fun b y => set y b) g b).
  { induction g0 as [|y g0 IH]; intros b Hg Hb; [exact Hb|]. cbn [fold_left]. apply IH.
    - intros z Hz. apply Hg. now right.
    - rewrite C30_commute by (intros K; apply (Hg y); [now left|congruence]). now rewrite Hb. }
  apply HI; auto. decompose [or] Hx; subst x; reflexivity.
Qed.
Print Assumptions C30_unset.

(** What a history starts from: nothing is configured but what the constructor is given. *)
Definition nothing_set (o : Options) : Prop :=
  op_callback o = None /\ op_verifier o = None /\ op_nonce o = None /\ op_timestamp o = None /\ op_version o = false.
Theorem C30_start : forall sm cl token,
  (bd_signature_method (Builder_new cl sm) = sm /\ bd_client (Builder_new cl sm) = cl
   /\ bd_token (Builder_new cl sm) = None /\ nothing_set (bd_options (Builder_new cl sm)))
  /\ (bd_signature_method (Builder_with_token token sm) = sm /\ bd_client (Builder_with_token token sm) = tk_client token
      /\ bd_token (Builder_with_token token sm) = Some (tk_token token) /\ nothing_set (bd_options (Builder_with_token token sm))).
Proof. intros sm cl token. repeat split. Qed.
Print Assumptions C30_start.

(** Whole histories: each call's outcome is that of a builder with the last values set before it;
    the calls made before do not matter. *)
Theorem C30_calls_independent : forall h1 c e k method r h2 b,
  outcomes (h1 ++ Calling c e k method r :: h2) b
  = outcomes h1 b ++ existT _ k (run c e (configure (settings_of h1) b) k method r) :: outcomes h2 (configure (settings_of h1) b).
Proof.
  induction h1 as [|[x|c0 e0 k0 m0 r0] h1 IH]; intros; cbn [app outcomes settings_of flat_map].
  - reflexivity.
  - rewrite IH. reflexivity.
  - rewrite IH. reflexivity.
Qed.
Print Assumptions C30_calls_independent.

Example C30_example :
  let b := configure [SetNonce (Some (lit "x")); SetVersion true; SetNonce (Some (lit "y")); SetVersion false] doc_builder in
  match op_nonce (bd_options b), op_version (bd_options b) with Some n, false => bseqb n (lit "y") | _, _ => false end = true.
Proof. vm_compute. reflexivity. Qed.

(** ** C31 *)

Definition url_alphabet : bytes := lit "ABCDEFGHIJKLMNOPQRSTUVWXYZabcdefghijklmnopqrstuvwxyz0123456789-_".

(** No draw makes the generation panic. *)
Theorem C31_never_panics : forall rand, length rand = 9 -> exists n, gen_nonce rand = Ok n
  /\ length n <= 12 /\ Forall (fun x => In x url_alphabet) n /\ pct_encode n = n.
Proof.
  intros rand H. exists (nonce_text rand). split; [now apply gen_nonce_ok|]. split; [now apply nonce_text_length|]. split.
  - apply Forall_forall. intros x Hx. unfold nonce_text in Hx. apply base64_chars_nopad in Hx; [exact Hx|reflexivity].
  - apply pct_encode_safe, nonce_text_safe.
Qed.
Print Assumptions C31_never_panics.

(** Different draws, different nonces: none of the 72 bits is lost. *)
Theorem C31_injective : forall r1 r2 n, length r1 = 9 -> length r2 = 9 ->
  gen_nonce r1 = Ok n -> gen_nonce r2 = Ok n -> r1 = r2.
Proof.
  intros r1 r2 n H1 H2 E1 E2. rewrite gen_nonce_ok in E1, E2 by auto. apply nonce_text_inj; congruence.
Qed.
Print Assumptions C31_injective.

(** The nonce in the header is the one generated from the next nine random bytes. *)
Lemma nonce_read : forall c e b name strict f r cs method uri out,
  builtin (bd_signature_method b) name strict f ->
  makes_calls r cs -> call_protos cs = all_protos -> op_nonce (bd_options b) = None ->
  Builder_authorize c e b method uri r = Ok out ->
  exists params, parse_header out = Some params
    /\ lookup (lit "oauth_nonce") params = [nonce_text (random_bytes e 0)].
Proof.
  intros c e b name strict f r cs method uri out HB HM HP HN H.
  destruct (C32_header c e b name strict f r cs method uri out HB HM HP H) as [params [HA [HL _]]].
  exists params. split; auto. specialize (HL PNonce). rewrite expected_sent in HL.
  cbn [sent conf_with cn_use_nonce] in HL. unfold nonce_value in HL. cbn [conf_with cn_options cn_env] in HL.
  rewrite HN in HL. rewrite <- nonce_of_bytes_text. exact HL.
Qed.

Theorem C31_in_header : forall c e b name strict f r cs method uri out,
  builtin (bd_signature_method b) name strict f ->
  makes_calls r cs -> call_protos cs = all_protos -> op_nonce (bd_options b) = None ->
  Builder_authorize c e b method uri r = Ok out ->
  exists params n, parse_header out = Some params /\ lookup (lit "oauth_nonce") params = [n]
    /\ gen_nonce (random_bytes e 0) = Ok n /\ length n <= 12 /\ Forall (fun x => In x url_alphabet) n.
Proof.
  intros c e b name strict f r cs method uri out HB HM HP HN H.
  destruct (nonce_read c e b name strict f r cs method uri out HB HM HP HN H) as [params [HA HL]].
  assert (HLen : length (random_bytes e 0) = 9) by (unfold random_bytes; now rewrite map_length, seq_length).
  destruct (C31_never_panics (random_bytes e 0) HLen) as [n [G1 [G2 [G3 _]]]].
  exists params, n. rewrite gen_nonce_ok in G1 by auto. inversion G1; subst n. rewrite gen_nonce_ok by auto. auto 6.
Qed.
Print Assumptions C31_in_header.

(** It can be empty. *)
Theorem C31_refuted : exists e b out,
  Builder_authorize dbg_std e b (lit "GET") (s2d "http://h/") Request_unit = Ok out
  /\ op_nonce (bd_options b) = None
  /\ option_map (lookup (lit "oauth_nonce")) (parse_header out) = Some [[]].
Proof.
  exists {| env_clock := fun _ => Some 1%N; env_rng := fun _ _ => x00 |}, (Builder_new (Cred (lit "id") (lit "s")) PLAINTEXT).
  eexists. split; [vm_compute; reflexivity|]. split; [reflexivity|]. vm_compute. reflexivity.
Qed.
Print Assumptions C31_refuted.

(** But only when all nine bytes drawn are zero. *)
Theorem C31_nonempty_partial : forall rand n, length rand = 9 -> gen_nonce rand = Ok n ->
  (n = [] <-> rand = repeat x00 9).
Proof.
  intros rand n H G. split.
  - intros ->. apply (C31_injective rand (repeat x00 9) []); auto.
  - intros ->. vm_compute in G. congruence.
Qed.
Print Assumptions C31_nonempty_partial.

Example C31_example : length (lit "random123") = 9
  /\ match gen_nonce (lit "random123"), gen_nonce (lit "random124") with
     | Ok n, Ok n' => bseqb n (lit "cmFuZG9tMTIz") && negb (bseqb n n')
     | _, _ => false
     end = true.
Proof. split; vm_compute; reflexivity. Qed.

(** ** C50 *)

Theorem C50_headers_differ : forall c e c' e' b name strict f r cs r' cs' method uri method' uri' out out',
  builtin (bd_signature_method b) name strict f -> op_nonce (bd_options b) = None ->
  makes_calls r cs -> call_protos cs = all_protos -> makes_calls r' cs' -> call_protos cs' = all_protos ->
  Builder_authorize c e b method uri r = Ok out -> Builder_authorize c' e' b method' uri' r' = Ok out' ->
  random_bytes e 0 <> random_bytes e' 0 ->
  out <> out' /\ option_map (lookup (lit "oauth_nonce")) (parse_header out) <> option_map (lookup (lit "oauth_nonce")) (parse_header out').
Proof.
  intros c e c' e' b name strict f r cs r' cs' method uri method' uri' out out' HB HN HM HP HM' HP' H H' HD.
  destruct (nonce_read c e b name strict f r cs method uri out HB HM HP HN H) as [p [A L]].
  destruct (nonce_read c' e' b name strict f r' cs' method' uri' out' HB HM' HP' HN H') as [p' [A' L']].
  assert (HX : option_map (lookup (lit "oauth_nonce")) (parse_header out) <> option_map (lookup (lit "oauth_nonce")) (parse_header out')).
  { rewrite A, A'. cbn [option_map]. rewrite L, L'. intros K. injection K as K.
    apply nonce_text_inj in K; auto; unfold random_bytes; now rewrite map_length, seq_length. }
  split; auto. intros ->. now apply HX.
Qed.
Print Assumptions C50_headers_differ.

(** The signed texts differ as well, even when everything else is the same. *)
Theorem C50_signed_differ : forall c e c' e' b name r l r' l' method uri method' uri' out out' sig sig',
  bd_signature_method b = Reveal name -> uri_safe name -> op_nonce (bd_options b) = None ->
  honest r l -> honest r' l' -> normal_method method -> normal_method method' ->
  Builder_authorize c e b method uri r = Ok out -> Builder_authorize c' e' b method' uri' r' = Ok out' ->
  option_map (lookup (lit "oauth_signature")) (parse_header out) = Some [sig] ->
  option_map (lookup (lit "oauth_signature")) (parse_header out') = Some [sig'] ->
  random_bytes e 0 <> random_bytes e' 0 -> sig <> sig'.
Proof.
  intros c e c' e' b name r l r' l' method uri method' uri' out out' sig sig' HB HN HO HR HR' HM HM' H H' L L' HD ES.
  subst sig'. destruct HR as [cs [M [P [A [D [C [S [O R]]]]]]]]. destruct HR' as [cs' [M' [P' [A' [D' [C' [S' [O' R']]]]]]]].
  assert (Q : Permutation (call_protos cs) all_protos) by now rewrite P.
  assert (Q' : Permutation (call_protos cs') all_protos) by now rewrite P'.
  destruct (C19_observable c e b r cs l method uri out c' e' b r' cs' l' method' uri' out' name sig HB HB HN M M'
    P C S O (normal_method_no_amp _ HM) P' C' S' O' (normal_method_no_amp _ HM') H H' L L') as [_ [_ [_ EO]]].
  apply (reveal_authorize c e b name r cs method uri out HB HN M Q) in H as [_ [_ E1]].
  apply (reveal_authorize c' e' b name r' cs' method' uri' out' HB HN M' Q') in H' as [_ [_ E2]].
  rewrite P in E1. rewrite P' in E2.
  assert (HL : forall e s, option_map (lookup (lit "oauth_nonce")) (parse_header (header_text (wire_fields (conf_of name e b) all_protos) (pct_encode s)))
    = Some [nonce_text (random_bytes e 0)]).
  { intros e0 s. rewrite (parse_header_text _ (raw_fields (conf_of name e0 b) all_protos) _ s).
    2: now apply wire_reads. 2: apply pct_decode_enc_quote. 2: apply pct_decode_encode.
    cbn [option_map]. rewrite lookup_app. change (lit "oauth_nonce") with (proto_key PNonce). rewrite (lookup_raw (conf_of name e0 b) all_protos PNonce).
    - cbn [sent conf_of conf_with cn_use_nonce]. unfold nonce_value. cbn [conf_of conf_with cn_options cn_env]. rewrite HO.
      rewrite nonce_of_bytes_text. reflexivity.
    - apply all_protos_nodup.
    - cbn. tauto. }
  pose proof (HL e (hashed_text method (dtext uri) (signed_fields (conf_of name e b) cs))) as K1.
  pose proof (HL e' (hashed_text method' (dtext uri') (signed_fields (conf_of name e' b) cs'))) as K2.
  rewrite <- E1 in K1. rewrite <- E2, <- EO, K1 in K2. injection K2 as K2.
  apply HD. apply nonce_text_inj; auto; unfold random_bytes; now rewrite map_length, seq_length.
Qed.
Print Assumptions C50_signed_differ.

Example C50_example :
  let e1 := {| env_clock := fun _ => Some 1%N; env_rng := fun _ i => if Nat.eqb i 8 then x01 else x00 |} in
  let e2 := {| env_clock := fun _ => Some 1%N; env_rng := fun _ i => if Nat.eqb i 7 then x01 else x00 |} in
  let b := Builder_new (Cred (lit "id") (lit "s")) HMAC_SHA1 in
  match Builder_authorize dbg_std e1 b (lit "GET") (s2d "http://h/") Request_unit,
        Builder_authorize dbg_std e2 b (lit "GET") (s2d "http://h/") Request_unit with
  | Ok x, Ok y => negb (bseqb x y)
  | _, _ => false
  end = true.
Proof. vm_compute. reflexivity. Qed.
