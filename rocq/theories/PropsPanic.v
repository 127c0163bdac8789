(** Properties C33-C36: panics. *)
From Coq Require Import String.
From Coq Require Import Lia Arith Sorted Permutation.
From Verif Require Import Bytes Crypto Spec MFmt MPercent MSerializer MSign MRequest MCredentials MAuth MBuilder ModelTests
  SpecFmt SpecCalls SpecCalls2 SpecAuth SpecBuild SpecForm SpecServer SpecParams SpecSign SpecPanic
  LBytes LFmt LPercent LCrypto LTrace LAuth LSign LBuild LForm LBase LBase2 LReq LReq2 LPanic LTop LParams LServer
  LReveal LAny LBuf LSim LCheck.

(** Tests for the examples. *)
Definition query_panic {A} (r : res A) : bool := match r with Panic PUriQuery => true | _ => false end.
Definition order_panic {A} (r : res A) : bool := match r with Panic PDictOrder => true | _ => false end.
Definition fmt_panic {A} (r : res A) : bool := match r with Panic PFmt => true | _ => false end.

(** ** C33 *)

(** In a debug build every entry point, with every signature method, every request and every
    writer, panics when the URI shows a "?", in however many pieces it is written. *)
Theorem C33_panics : forall c e b k method r,
  cf_debug c = true -> has_question (dtext (kind_uri k)) -> takes_prefix k ->
  run c e b k method r = Panic PUriQuery.
Proof.
  intros c e b k method r HD HQ HK. rewrite run_go. apply kind_data_ok in HK as [d HK]. rewrite HK. cbn [rbind].
  now apply go_question.
Qed.
Print Assumptions C33_panics.

(** Otherwise the check changes nothing: the debug build does what the release build does, which
    makes no check.  (Without [alloc], so that there is no ordering check; see C34 for that one.) *)
Theorem C33_otherwise_no_effect : forall std e b k method r,
  dok (kind_uri k) -> ~ has_question (dtext (kind_uri k)) ->
  run {| cf_debug := true; cf_alloc := false; cf_std := std |} e b k method r
  = run {| cf_debug := false; cf_alloc := false; cf_std := std |} e b k method r.
Proof.
  intros std e b k method r HD HQ. rewrite !run_go. destruct (kind_data k); [|reflexivity]. cbn [rbind].
  now apply go_no_alloc.
Qed.
Print Assumptions C33_otherwise_no_effect.

(** With the crate's methods, requests and [String]: exactly when. *)
Theorem C33_exact : forall c e b name strict f r l method uri,
  builtin (bd_signature_method b) name strict f -> crate_request r l ->
  timestamp_available c (conf_of name e b) -> dok uri ->
  Forall (fun p => dok (snd p)) l -> ascending (map fst l) ->
  (forall text, f (client_secret b) (token_secret b) text <> None) ->
  (Builder_authorize c e b method uri r = Panic PUriQuery <-> cf_debug c = true /\ has_question (dtext uri)).
Proof.
  intros c e b name strict f r l method uri HB HR HT HD HV HA HF. split.
  - intros H. destruct (cf_debug c) eqn:ED.
    + split; auto. destruct (contains_question (dtext uri)) eqn:EQ; [now apply contains_question_in|].
      exfalso. assert (HQ : ~ has_question (dtext uri)) by (rewrite <- contains_question_in; congruence).
      destruct (sig_of e b name f (calls_of l) method (dtext uri)) as [sig|] eqn:ES; [|now apply HF in ES].
      assert (HO : Builder_authorize c e b method uri r
        = Ok (header_text (wire_fields (conf_of name e b) (call_protos (calls_of l))) sig)).
      { apply (authorize_exact c e b name strict f HB r (calls_of l)); [now apply crate_request_calls|now rewrite call_protos_calls_of|].
        split; auto. split; [|exists sig; auto]. constructor; auto.
        - intros _. now apply displays_calls_of.
        - intros _ _. now apply calls_of_signed_order. }
      congruence.
    + exfalso. destruct (sig_of e b name f (calls_of l) method (dtext uri)) as [sig|] eqn:ES; [|now apply HF in ES].
      assert (HO : Builder_authorize c e b method uri r
        = Ok (header_text (wire_fields (conf_of name e b) (call_protos (calls_of l))) sig)).
      { apply (authorize_exact c e b name strict f HB r (calls_of l)); [now apply crate_request_calls|now rewrite call_protos_calls_of|].
        split; auto. split; [|exists sig; auto]. constructor; auto; try congruence.
        intros _. now apply displays_calls_of. }
      congruence.
  - intros [H1 H2]. exact (C33_panics c e b (KAuthorize uri) method r H1 H2 I).
Qed.
Print Assumptions C33_exact.

Example C33_example :
  let ch := DWrite (lit "http://h/") (fun _ => DWrite (lit "p?") (fun _ => DRet true)) in
  query_panic (Builder_authorize dbg_std env0 doc_builder (lit "GET") ch Request_unit)
  && is_ok (Builder_authorize (release dbg_std) env0 doc_builder (lit "GET") ch Request_unit)
  && is_ok (Builder_authorize dbg_std env0 doc_builder (lit "GET") (s2d "http://h/p") Request_unit) = true.
Proof. vm_compute. reflexivity. Qed.

(** ** C34 *)

(** Keys in order: the debug build does exactly what the release build does, whatever that is, for
    every signature method, entry point and writer. *)
Theorem C34_in_order : forall c e b un ut name k method r cs,
  constant_flags (bd_signature_method b) un ut name -> makes_calls r cs -> NoDup (call_protos cs) ->
  timestamp_available c (conf_with un ut name e b) ->
  dok (kind_uri k) -> ~ has_question (dtext (kind_uri k)) ->
  ascending (map fst (signed_fields (conf_with un ut name e b) cs)) ->
  run c e b k method r = run (release c) e b k method r.
Proof.
  intros c e b un ut name k method r cs HF HM HN HT HD HQ HA. rewrite !run_go.
  destruct (kind_data k); [|reflexivity]. cbn [rbind]. eapply go_in_order; eauto.
Qed.
Print Assumptions C34_in_order.

(** Keys out of order: a debug build with [alloc] never returns, and its panic is the ordering
    panic whenever a release build returns. *)
Theorem C34_out_of_order : forall c e b un ut name k method r cs,
  constant_flags (bd_signature_method b) un ut name -> makes_calls r cs -> Permutation (call_protos cs) all_protos ->
  timestamp_available c (conf_with un ut name e b) ->
  dok (kind_uri k) -> ~ has_question (dtext (kind_uri k)) ->
  cf_debug c = true -> cf_alloc c = true ->
  ~ ascending (map fst (signed_fields (conf_with un ut name e b) cs)) ->
  (forall out, run c e b k method r <> Ok out)
  /\ (forall out, run (release c) e b k method r = Ok out -> run c e b k method r = Panic PDictOrder).
Proof.
  intros c e b un ut name k method r cs HF HM HP HT HD HQ ED EA HA.
  assert (HN : NoDup (call_protos cs)) by (eapply Permutation_NoDup; [apply Permutation_sym, HP|apply all_protos_nodup]).
  rewrite !run_go. destruct (kind_data k) as [d|]; [|split; discriminate]. cbn [rbind]. split.
  - intros out H. apply (any_sound c e b un ut name HF r cs HM HP) in H as [_ [_ [H _]]]. auto.
  - intros out H. eapply go_out_of_order; eauto.
Qed.
Print Assumptions C34_out_of_order.

(** For the crate's own requests the keys in question are those of the parameters: the protocol
    parameters are put in their places. *)
Theorem C34_crate_keys : forall r l, crate_request r l -> exists cs, makes_calls r cs /\ call_protos cs = all_protos
  /\ forall cf, ascending (map fst (signed_fields cf cs)) <-> ascending (map fst l).
Proof.
  intros r l H. exists (calls_of l). split; [now apply crate_request_calls|]. split; [apply call_protos_calls_of|].
  intros cf. apply calls_of_signed_order.
Qed.
Print Assumptions C34_crate_keys.

(** So the check never fires for a [ParameterList], however it was built... *)
Theorem C34_parameter_list : forall sort l p dbg c e b un ut name k method, conforming sort -> history sort l p ->
  constant_flags (bd_signature_method b) un ut name -> timestamp_available c (conf_with un ut name e b) ->
  dok (kind_uri k) -> ~ has_question (dtext (kind_uri k)) ->
  run c e b k method (Request_pl dbg p) = run (release c) e b k method (Request_pl dbg p).
Proof.
  intros sort l p dbg c e b un ut name k method HC HH HF HT HD HQ.
  destruct (history_sorted sort l p HC HH) as [HK _].
  destruct (C34_crate_keys _ _ (cq_list dbg p)) as [cs [HM [HP HA]]].
  eapply C34_in_order; eauto.
  - rewrite HP. apply all_protos_nodup.
  - apply HA. now apply sorted_map_fst.
Qed.
Print Assumptions C34_parameter_list.

(** ...and for [AssertSorted] with a built-in method it fires exactly when the keys are out of order. *)
Theorem C34_assert_sorted : forall c e b name strict f l dbg method uri,
  builtin (bd_signature_method b) name strict f -> timestamp_available c (conf_of name e b) ->
  cf_debug c = true -> cf_alloc c = true -> dok uri -> ~ has_question (dtext uri) ->
  Forall (fun p => dok (snd p)) l -> (forall text, f (client_secret b) (token_secret b) text <> None) ->
  (Builder_authorize c e b method uri (AssertSorted dbg l) = Panic PDictOrder <-> ~ ascending (map fst l))
  /\ ((exists out, Builder_authorize c e b method uri (AssertSorted dbg l) = Ok out) <-> ascending (map fst l)).
Proof.
  intros c e b name strict f l dbg method uri HB HT ED EA HD HQ HV HF.
  assert (HR : forall c', timestamp_available c' (conf_of name e b) -> (cf_debug c' = true -> ascending (map fst l)) ->
    exists out, Builder_authorize c' e b method uri (AssertSorted dbg l) = Ok out).
  { intros c' HT' HA. destruct (sig_of e b name f (calls_of l) method (dtext uri)) as [sig|] eqn:ES; [|now apply HF in ES].
    eexists. apply (authorize_exact c' e b name strict f HB _ (calls_of l)); [apply AssertSorted_calls|now rewrite call_protos_calls_of|].
    split; auto. split; [|exists sig; eauto]. constructor; auto.
    - intros _. now apply displays_calls_of.
    - intros _ X. apply calls_of_signed_order. auto. }
  pose proof (crate_request_calls _ _ (cq_sorted dbg l)) as HM.
  pose proof (constant_builtin _ _ _ _ HB) as HFl.
  assert (HP : Permutation (call_protos (calls_of l)) all_protos) by now rewrite call_protos_calls_of.
  assert (HDis : ~ ascending (map fst l) -> Builder_authorize c e b method uri (AssertSorted dbg l) = Panic PDictOrder).
  { intros HA. destruct (HR (release c)) as [out HO]; [exact HT|discriminate|].
    destruct (C34_out_of_order c e b true true name (KAuthorize uri) method (AssertSorted dbg l) (calls_of l) HFl HM HP HT HD HQ ED EA) as [_ X].
    - now rewrite calls_of_signed_order.
    - exact (X out HO). }
  split; split.
  - intros H HA. destruct (HR c HT (fun _ => HA)) as [out HO]. congruence.
  - exact HDis.
  - intros [out HO]. apply (authorize_exact c e b name strict f HB _ (calls_of l) HM HP) in HO as [_ [[_ _ _ V] _]].
    apply (calls_of_signed_order (conf_of name e b)). auto.
  - intros HA. apply HR; auto.
Qed.
Print Assumptions C34_assert_sorted.

(** Out of order; a parameter between the protocol parameters; a release build. *)
Example C34_example :
  order_panic (Builder_authorize dbg_std env0 doc_builder (lit "GET") (s2d "http://h/") (AssertSorted true [kvs "b" "1"; kvs "a" "2"]))
  && is_ok (Builder_authorize dbg_std env0 doc_builder (lit "GET") (s2d "http://h/") (AssertSorted true [kvs "oauth_o" "1"; kvs "z" "2"]))
  && is_ok (Builder_authorize (release dbg_std) env0 doc_builder (lit "GET") (s2d "http://h/") (AssertSorted true [kvs "b" "1"; kvs "a" "2"]))
  = true.
Proof. vm_compute. reflexivity. Qed.

(** A hand-written request may put the protocol parameters themselves out of order. *)
Example C34_protocol_example :
  order_panic (Builder_authorize dbg_std env0 doc_builder (lit "GET") (s2d "http://h/")
    (of_calls [CProto PNonce; CProto PConsumerKey; CProto PCallback; CProto PSignatureMethod; CProto PTimestamp;
               CProto PToken; CProto PVerifier; CProto PVersion])) = true.
Proof. vm_compute. reflexivity. Qed.

(** ** C35 *)

(** A build in which the nonce and the timestamp can be made ([std], or both are set), a URI without
    query, values that can be displayed, a request of the crate with its keys in order: every entry
    point returns, in debug and in release builds, into every buffer that accepts what it is given. *)
Theorem C35_returns : forall c e b k method r l,
  bd_signature_method b = HMAC_SHA1 \/ bd_signature_method b = PLAINTEXT ->
  crate_request r l -> infallible (kind_writer k) ->
  cf_std c = true \/ op_timestamp (bd_options b) <> None ->
  dok (kind_uri k) -> ~ has_question (dtext (kind_uri k)) ->
  Forall (fun p => dok (snd p)) l -> ascending (map fst l) ->
  exists out, run c e b k method r = Ok out.
Proof.
  intros c e b k method r l HB HR HW HT HD HQ HV HA.
  assert (HBI : exists name strict f, builtin (bd_signature_method b) name strict f
                /\ forall text, f (client_secret b) (token_secret b) text <> None).
  { destruct HB as [->| ->]; do 3 eexists; (split; [constructor|discriminate]). }
  destruct HBI as [name [strict [f [HBI HF]]]].
  rewrite run_go.
  assert (HK : takes_prefix k).
  { destruct k; cbn [takes_prefix]; auto.
    destruct (write_unwrap_infallible (dstr (lit "OAuth ")) buf HW (dok_dstr _)) as [x H]. now exists x. }
  apply kind_data_ok in HK as [d HK]. rewrite HK. cbn [rbind].
  destruct (f (client_secret b) (token_secret b)
    (hashed_text method (dtext (kind_uri k)) (signed_fields (conf_of name e b) (calls_of l)))) as [sig|] eqn:ES; [|now apply HF in ES].
  eapply (go_complete c e b name strict f (builtin_signs_as _ _ _ _ HBI)); eauto using crate_request_calls.
  - destruct HT as [HT|HT]; [now left|right; now left].
  - rewrite call_protos_calls_of. apply all_protos_nodup.
  - constructor; auto.
    + intros _. now apply displays_calls_of.
    + intros _ _. now apply calls_of_signed_order.
Qed.
Print Assumptions C35_returns.

Theorem C35_parameter_list : forall sort l p dbg c e b k method,
  conforming sort -> history sort l p ->
  bd_signature_method b = HMAC_SHA1 \/ bd_signature_method b = PLAINTEXT ->
  infallible (kind_writer k) -> cf_std c = true \/ op_timestamp (bd_options b) <> None ->
  dok (kind_uri k) -> ~ has_question (dtext (kind_uri k)) -> Forall (fun p => dok (snd p)) l ->
  exists out, run c e b k method (Request_pl dbg p) = Ok out.
Proof.
  intros sort l p dbg c e b k method HC HH HB HW HT HD HQ HV.
  destruct (history_sorted sort l p HC HH) as [HK HP].
  apply C35_returns with (l := p); auto.
  - apply cq_list.
  - now rewrite HP.
  - now apply sorted_map_fst.
Qed.
Print Assumptions C35_parameter_list.

(** RSA-SHA1: the same when the key signs every SHA-1 digest. *)
Theorem C35_rsa : forall c e b k method r l key,
  bd_signature_method b = RsaSha1 key \/ bd_signature_method b = RsaSha1_ref key -> (forall text, key (sha1 text) <> None) ->
  crate_request r l -> infallible (kind_writer k) ->
  cf_std c = true \/ op_timestamp (bd_options b) <> None ->
  dok (kind_uri k) -> ~ has_question (dtext (kind_uri k)) ->
  Forall (fun p => dok (snd p)) l -> ascending (map fst l) ->
  exists out, run c e b k method r = Ok out.
Proof.
  intros c e b k method r l key HB HK0 HR HW HT HD HQ HV HA.
  assert (HBI : builtin (bd_signature_method b) (lit "RSA-SHA1") true
    (fun _ _ text => option_map (fun s => pct_encode (base64 b64_std true s)) (key (sha1 text)))).
  { destruct HB as [->| ->]; constructor. }
  rewrite run_go.
  assert (HK : takes_prefix k).
  { destruct k; cbn [takes_prefix]; auto.
    destruct (write_unwrap_infallible (dstr (lit "OAuth ")) buf HW (dok_dstr _)) as [x H]. now exists x. }
  apply kind_data_ok in HK as [d HK]. rewrite HK. cbn [rbind].
  destruct (key (sha1 (hashed_text method (dtext (kind_uri k)) (signed_fields (conf_of (lit "RSA-SHA1") e b) (calls_of l)))))
    as [sig|] eqn:ES; [|now apply HK0 in ES].
  eapply (go_complete c e b _ _ _ (builtin_signs_as _ _ _ _ HBI)); eauto using crate_request_calls.
  - destruct HT as [HT|HT]; [now left|right; now left].
  - rewrite call_protos_calls_of. apply all_protos_nodup.
  - constructor; auto.
    + intros _. now apply displays_calls_of.
    + intros _ _. now apply calls_of_signed_order.
  - unfold signature_of. rewrite ES. reflexivity.
Qed.
Print Assumptions C35_rsa.

(** Forms and queries of the requests themselves. *)
Theorem C35_form_query : forall r l, crate_request r l -> Forall (fun p => dok (snd p)) l ->
  (exists out, to_form r = Ok out) /\ (forall uri, exists out, to_query uri r = Ok out).
Proof.
  intros r l HR HV. pose proof (crate_request_calls r l HR) as HM.
  apply displays_calls_of in HV. split.
  - eexists. apply (to_form_exact r _ _ HM). split; eauto.
  - intros uri. eexists. apply (to_query_exact r _ _ _ HM). split; eauto.
Qed.
Print Assumptions C35_form_query.

Example C35_example : forall b, bd_signature_method b = HMAC_SHA1 -> forall p, p = insertion_sort [kvs "b" "1"; kvs "a" "2"] ->
  exists out, run dbg_std env0 b (KQuery StringW dstr (lit "http://h/")) (lit "GET") (Request_pl true p) = Ok out.
Proof.
  intros b HB p ->.
  apply (C35_parameter_list insertion_sort [kvs "b" "1"; kvs "a" "2"]); auto.
  - apply insertion_conforming.
  - apply hi_new.
  - exact infallible_string.
  - apply dok_dstr.
  - cbn [kind_uri]. rewrite dtext_dstr. vm_compute. intuition discriminate.
  - repeat constructor; apply dok_dstr.
Qed.

(** ** C36 *)

(** Whatever the buffer: if a call with a built-in method returns, all the writes it made were
    accepted, in turn, and their text is the whole output; the values that were looked at displayed
    without error. *)
Theorem C36_complete : forall c e b name strict f k method r cs out,
  builtin (bd_signature_method b) name strict f -> makes_calls r cs -> Permutation (call_protos cs) all_protos ->
  run c e b k method r = Ok out ->
  (strict = true -> Forall displays_ok cs /\ dok (kind_uri k))
  /\ exists sig pieces,
       f (client_secret b) (token_secret b) (hashed_text method (dtext (kind_uri k)) (signed_fields (conf_of name e b) cs)) = Some sig
       /\ writes_ok (kind_buf k) pieces out
       /\ concat pieces = kind_text k (wire_fields (conf_of name e b) (call_protos cs)) sig.
Proof.
  intros c e b name strict f k method r cs out HB HM HP H. rewrite run_go in H. apply rbind_ok in H as [d [HK H]].
  assert (HT : timestamp_available c (conf_of name e b)).
  { eapply (go_needs_timestamp c e b name strict f (builtin_signs_as _ _ _ _ HB)); eauto.
    eapply Permutation_in; [apply Permutation_sym, HP|]. cbn. tauto. }
  apply (go_sound c e b name strict f (builtin_signs_as _ _ _ _ HB) HT _ _ _ _ _ cs) in H as [HV [sig [ch [HS [W C]]]]]; auto.
  2:{ eapply Permutation_NoDup; [apply Permutation_sym, HP|apply all_protos_nodup]. }
  split.
  { intros HX. destruct HV as [V1 V2 V3 V4]. split; auto. }
  exists sig.
  assert (HE : forall (fs : list pair) x, fs ++ [x] <> []) by (intros [] ? ?; discriminate).
  destruct k; cbn [kind_data kind_writer] in *.
  - injection HK as <-. cbn [data_buf added_text] in W, C.
    exists (lit "OAuth " :: ch). split; [exact HS|]. split.
    + econstructor; [reflexivity|exact W].
    + cbn [concat kind_text]. rewrite C. reflexivity.
  - injection HK as <-. exists ch. split; [exact HS|]. split; [exact W|]. rewrite C. cbn [kind_text added_text].
    rewrite <- (added_form []). reflexivity.
  - apply rbind_ok in HK as [h [HK1 HK2]]. injection HK2 as <-. cbn [data_buf added_text] in W, C.
    apply write_unwrap_propagates in HK1 as [_ [ch0 [C0 W0]]]; [|apply propagates_dstr].
    exists (ch0 ++ ch). split; [exact HS|]. split; [eapply writes_ok_app; eauto|].
    rewrite concat_app, C0, C, dtext_dstr. reflexivity.
  - injection HK as <-. exists ch. split; [exact HS|]. split; [exact W|]. rewrite C. cbn [kind_text added_text].
    rewrite <- (added_form []). reflexivity.
  - injection HK as <-. exists ch. split; [exact HS|]. split; [exact W|]. rewrite C. cbn [kind_text added_text ue_query ue_next_append].
    destruct (wire_fields (conf_of name e b) (call_protos cs)); reflexivity.
Qed.
Print Assumptions C36_complete.

(** The same for forms and queries of the request itself, into any buffer; [prefix] is what is
    written before the first pair. *)
Theorem C36_urlencoder : forall (w : Writer) (u : Urlencoder w) r cs out,
  makes_calls r cs -> Forall values_propagate cs ->
  r (UrlencoderS w) u = Ok out ->
  Forall displays_ok cs /\ exists pieces, writes_ok (ue_data u) pieces out
    /\ concat pieces = match form_fields cs with
                       | [] => []
                       | fs => match ue_next_append u with ANone => [] | AQuestion => lit "?" | AAmpersand => lit "&" end ++ form_text fs
                       end.
Proof.
  intros w u r cs out HM HV H. rewrite (HM (UrlencoderS w)) in H. apply rbind_ok in H as [u' [H1 H2]].
  apply ue_run_any in H1 as [D [_ [ch [W C]]]]; auto. cbn in H2. injection H2 as <-.
  split; auto. exists ch. split; auto. rewrite C. destruct (form_fields cs), (ue_next_append u); reflexivity.
Qed.
Print Assumptions C36_urlencoder.

(** A buffer that is too small makes the call panic. *)
Theorem C36_too_small : forall c e b name strict f method uri r cs cap,
  builtin (bd_signature_method b) name strict f -> makes_calls r cs -> Permutation (call_protos cs) all_protos ->
  cap < length (lit "OAuth oauth_signature=""""") ->
  forall out, Builder_authorize_with_buf c e b (w := BoundedW cap) [] method uri r <> Ok out.
Proof.
  intros c e b name strict f method uri r cs cap HB HM HP HC out H.
  destruct (C36_complete c e b name strict f (KAuthorizeBuf (BoundedW cap) [] uri) method r cs out HB HM HP H)
    as [_ [sig [pieces [_ [W C]]]]].
  assert (HL : forall (s s' : BoundedW cap) ps, writes_ok s ps s' -> length (concat ps) + length (s : bytes) = length (s' : bytes) /\ (ps = [] \/ length (s' : bytes) <= cap)).
  { intros s s' ps HW. induction HW as [s|s x s1 ps s2 H1 H2 [IH1 IH2]]; [split; [reflexivity|now left]|].
    cbn in H1. destruct (Nat.leb (length (s ++ x)) cap) eqn:E; inversion H1; subst. apply Nat.leb_le in E.
    rewrite app_length in *. cbn [concat]. rewrite app_length. split; [lia|]. right.
    destruct IH2 as [->|IH2]; [inversion H2; subst; rewrite app_length; lia|exact IH2]. }
  apply HL in W as [W1 [->|W2]].
  - discriminate C.
  - rewrite C in W1. cbn [kind_text kind_buf] in W1. unfold header_text in W1. rewrite !app_length in W1.
    change (length (lit "OAuth oauth_signature=""""")) with 24 in HC.
    change (length (lit "OAuth ")) with 6 in W1. change (length (lit "oauth_signature=""")) with 17 in W1.
    change (length (lit """")) with 1 in W1. cbn [length] in W1. lia.
Qed.
Print Assumptions C36_too_small.

(** The limit reached in the middle of a field, and one byte before the end. *)
Definition doc_header_length : nat :=
  match Builder_authorize dbg_std env0 doc_builder (lit "GET") (s2d "http://h/") Request_unit with Ok o => length o | _ => 0 end.
Example C36_example :
  fmt_panic (Builder_authorize_with_buf dbg_std env0 doc_builder (w := BoundedW 40) [] (lit "GET") (s2d "http://h/") Request_unit)
  && fmt_panic (Builder_authorize_with_buf dbg_std env0 doc_builder (w := BoundedW (doc_header_length - 1)) []
                  (lit "GET") (s2d "http://h/") Request_unit)
  && match Builder_authorize_with_buf dbg_std env0 doc_builder (w := BoundedW doc_header_length) []
             (lit "GET") (s2d "http://h/") Request_unit with
     | Ok o => Nat.eqb (length (o : bytes)) doc_header_length
     | Panic _ => false
     end = true.
Proof. vm_compute. reflexivity. Qed.
