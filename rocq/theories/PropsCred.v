(** Properties C38, C39 and C51: credentials. *)
From Coq Require Import String.
From Coq Require Import Lia Arith.
From Verif Require Import Bytes Crypto Spec MFmt MPercent MSerializer MSign MRequest MCredentials MAuth MBuilder MDebug ModelTests SpecCalls SpecAuth SpecSign LBytes LFmt LPercent LTrace LSign LForm LBuf LSim LCrypto.

(** ** C38 *)

(** Replacing secrets changes no debug output, in either format. *)
Theorem C38_credentials_hidden : forall {T} (dbg : bool -> T -> bytes) pretty i s s',
  Credentials_debug dbg pretty (Cred i s) = Credentials_debug dbg pretty (Cred i s').
Proof. reflexivity. Qed.
Print Assumptions C38_credentials_hidden.

Theorem C38_token_hidden : forall {C T} (dc : bool -> C -> bytes) (dt : bool -> T -> bytes) pretty ci cs cs' ti ts ts',
  Token_debug dc dt pretty (Tok (Cred ci cs) (Cred ti ts)) = Token_debug dc dt pretty (Tok (Cred ci cs') (Cred ti ts')).
Proof. reflexivity. Qed.
Print Assumptions C38_token_hidden.

Theorem C38_builder_hidden : forall dsm ds pretty sm ci cs cs' ti ts ts' o,
  Builder_debug dsm ds pretty {| bd_signature_method := sm; bd_client := Cred ci cs; bd_token := Some (Cred ti ts); bd_options := o |}
  = Builder_debug dsm ds pretty {| bd_signature_method := sm; bd_client := Cred ci cs'; bd_token := Some (Cred ti ts'); bd_options := o |}
  /\ Builder_debug dsm ds pretty {| bd_signature_method := sm; bd_client := Cred ci cs; bd_token := None; bd_options := o |}
  = Builder_debug dsm ds pretty {| bd_signature_method := sm; bd_client := Cred ci cs'; bd_token := None; bd_options := o |}.
Proof. split; reflexivity. Qed.
Print Assumptions C38_builder_hidden.

(** The identifiers' own debug text is shown. *)
Definition shows (out part : bytes) : Prop := exists x y, out = x ++ part ++ y.

Lemma shows_refl : forall s, shows s s.
Proof. intros s. exists [], []. now rewrite app_nil_r. Qed.

Lemma shows_mid : forall x s y p, shows s p -> shows (x ++ s ++ y) p.
Proof. intros x s y p [a [b ->]]. exists (x ++ a), (b ++ y). now rewrite <- !app_assoc. Qed.

Lemma pad_false : forall t s, ~ In x0a t -> pad_lines false (t ++ s) = t ++ pad_lines false s.
Proof.
  induction t as [|b t IH]; intros s H; [reflexivity|]. cbn [pad_lines app].
  destruct (beqb b x0a) eqn:E; [apply beqb_eq in E; elim H; now left|].
  rewrite IH; [reflexivity|]. intros K. apply H. now right.
Qed.

Lemma shows_pad : forall p s st, ~ In x0a p -> shows s p -> shows (pad_lines st s) p.
Proof.
  intros p s st HN [x [y ->]]. revert st. induction x as [|b x IH]; intros st.
  - cbn [app]. destruct p as [|b p]; [exists [], (pad_lines st y); reflexivity|].
    cbn [pad_lines app]. destruct (beqb b x0a) eqn:E; [apply beqb_eq in E; elim HN; now left|].
    rewrite pad_false by (intros K; apply HN; now right).
    exists (if st then lit "    " else []), (pad_lines false y). reflexivity.
  - cbn [pad_lines app]. destruct (IH (beqb b x0a)) as [u [v E]]. rewrite E.
    exists ((if st then lit "    " else []) ++ b :: u), v. now rewrite <- !app_assoc.
Qed.

Lemma shows_join : forall sep l s p, In s l -> shows s p -> shows (join sep l) p.
Proof.
  induction l as [|a l IH]; intros s p H HS; [destruct H|]. destruct l as [|b l].
  - destruct H as [<-|[]]. exact HS.
  - change (join sep (a :: b :: l)) with (a ++ sep ++ join sep (b :: l)). destruct H as [<-|H].
    + apply (shows_mid [] a (sep ++ join sep (b :: l))). exact HS.
    + pose proof (shows_mid (a ++ sep) (join sep (b :: l)) [] p (IH s p H HS)) as K.
      rewrite app_nil_r, <- app_assoc in K. exact K.
Qed.

Lemma shows_struct : forall pretty name fields f p, In f fields -> (pretty = true -> ~ In x0a p) -> shows (snd f) p ->
  shows (debug_struct pretty name fields) p.
Proof.
  intros pretty name fields f p H HN HS. unfold debug_struct. destruct pretty.
  - rewrite app_assoc, app_assoc. apply shows_mid. induction fields as [|g fields IH]; [destruct H|]. cbn [flat_map].
    destruct H as [<-|H].
    + apply (shows_mid []). apply shows_pad; [auto|]. rewrite app_assoc. now apply shows_mid.
    + rewrite <- (app_nil_r (_ ++ _)), <- app_assoc. apply shows_mid. now apply IH.
  - rewrite app_assoc. apply shows_mid. eapply shows_join; [apply in_map, H|]. cbn beta.
    rewrite <- (app_nil_r (_ ++ snd f)), <- app_assoc, app_assoc. rewrite app_assoc. rewrite <- app_assoc. now apply shows_mid.
Qed.

Theorem C38_credentials_shown : forall {T} (dbg : bool -> T -> bytes) pretty i s,
  (pretty = true -> ~ In x0a (dbg pretty i)) -> shows (Credentials_debug dbg pretty (Cred i s)) (dbg pretty i).
Proof. intros. eapply shows_struct; [now left|assumption|apply shows_refl]. Qed.
Print Assumptions C38_credentials_shown.

Theorem C38_token_shown : forall {C T} (dc : bool -> C -> bytes) (dt : bool -> T -> bytes) pretty ci cs ti ts,
  (pretty = true -> ~ In x0a (dc pretty ci)) -> (pretty = true -> ~ In x0a (dt pretty ti)) ->
  shows (Token_debug dc dt pretty (Tok (Cred ci cs) (Cred ti ts))) (dc pretty ci)
  /\ shows (Token_debug dc dt pretty (Tok (Cred ci cs) (Cred ti ts))) (dt pretty ti).
Proof.
  intros. split; eapply shows_struct; try assumption.
  - now left.
  - now apply C38_credentials_shown.
  - right. now left.
  - now apply C38_credentials_shown.
Qed.
Print Assumptions C38_token_shown.

Theorem C38_builder_shown : forall dsm ds pretty sm ci cs ti ts o,
  (pretty = true -> ~ In x0a (ds pretty ci)) -> (pretty = true -> ~ In x0a (ds pretty ti)) ->
  let out := Builder_debug dsm ds pretty {| bd_signature_method := sm; bd_client := Cred ci cs; bd_token := Some (Cred ti ts); bd_options := o |} in
  shows out (ds pretty ci) /\ shows out (ds pretty ti).
Proof.
  intros. split; eapply shows_struct; try assumption.
  - right. now left.
  - now apply C38_credentials_shown.
  - right. right. now left.
  - cbn [snd option_debug bd_token]. destruct pretty.
    + rewrite app_assoc. apply shows_mid, shows_pad; [auto|]. apply (shows_mid []). now apply C38_credentials_shown.
    + apply shows_mid. now apply C38_credentials_shown.
Qed.
Print Assumptions C38_builder_shown.

(** The whole text, spelled out, for every builder; [ds] is the [Debug] of strings. *)
Definition some_or_none (o : option bytes) : bytes :=
  match o with Some x => lit "Some(" ++ x ++ lit ")" | None => lit "None" end.

Theorem C38_credentials_text : forall {T} (dbg : bool -> T -> bytes) i s,
  Credentials_debug dbg false (Cred i s) = lit "Credentials { identifier: " ++ dbg false i ++ lit ", secret: <hidden> }".
Proof. intros. cbn. now rewrite <- !app_assoc. Qed.
Print Assumptions C38_credentials_text.

Theorem C38_token_text : forall {C T} (dc : bool -> C -> bytes) (dt : bool -> T -> bytes) t,
  Token_debug dc dt false t
  = lit "Token { client: " ++ Credentials_debug dc false (tk_client t)
    ++ lit ", token: " ++ Credentials_debug dt false (tk_token t) ++ lit " }".
Proof.
  intros. unfold Token_debug. generalize (Credentials_debug dc false (tk_client t)), (Credentials_debug dt false (tk_token t)).
  intros a b. cbn. repeat (rewrite <- !app_assoc; cbn [app]). reflexivity.
Qed.
Print Assumptions C38_token_text.

Theorem C38_builder_text : forall dsm ds b,
  Builder_debug dsm ds false b
  = lit "Builder { signature_method: " ++ dsm false
    ++ lit ", client: " ++ Credentials_debug ds false (bd_client b)
    ++ lit ", token: " ++ some_or_none (option_map (Credentials_debug ds false) (bd_token b))
    ++ lit ", options: Options { callback: " ++ some_or_none (option_map (ds false) (op_callback (bd_options b)))
    ++ lit ", verifier: " ++ some_or_none (option_map (ds false) (op_verifier (bd_options b)))
    ++ lit ", nonce: " ++ some_or_none (option_map (ds false) (op_nonce (bd_options b)))
    ++ lit ", timestamp: " ++ some_or_none (option_map decimal (op_timestamp (bd_options b)))
    ++ lit ", version: " ++ (if op_version (bd_options b) then lit "true" else lit "false")
    ++ lit " } }".
Proof.
  intros. unfold Builder_debug, Options_debug.
  assert (HO : forall T (d : bool -> T -> bytes) o, option_debug d false o = some_or_none (option_map (d false) o)) by now intros ? ? [].
  rewrite !HO. unfold u64_debug, bool_debug.
  generalize (Credentials_debug ds false (bd_client b)). intros cl.
  generalize (some_or_none (option_map (Credentials_debug ds false) (bd_token b))). intros tk.
  generalize (some_or_none (option_map (ds false) (op_callback (bd_options b)))). intros cb.
  generalize (some_or_none (option_map (ds false) (op_verifier (bd_options b)))). intros ve.
  generalize (some_or_none (option_map (ds false) (op_nonce (bd_options b)))). intros no.
  change (option_map (fun n : N => decimal n)) with (option_map decimal).
  generalize (some_or_none (option_map decimal (op_timestamp (bd_options b)))). intros ti.
  destruct (op_version (bd_options b)); cbn; repeat (rewrite <- !app_assoc; cbn [app]); reflexivity.
Qed.
Print Assumptions C38_builder_text.

(** The pretty format [{:#?}], line by line. *)
Definition lines (ls : list bytes) : bytes := flat_map (fun l => l ++ [x0a]) ls.
Definition indent (n : nat) (s : bytes) : bytes := repeat " "%byte (4 * n) ++ s.

Definition option_lines (n : nat) (name : bytes) (o : option bytes) : list bytes :=
  match o with
  | Some x => [indent n (name ++ lit ": Some("); indent (S n) (x ++ lit ","); indent n (lit "),")]
  | None => [indent n (name ++ lit ": None,")]
  end.

Definition credentials_lines (n : nat) (i : bytes) : list bytes :=
  [indent n (lit "identifier: " ++ i ++ lit ","); indent n (lit "secret: <hidden>,")].

Definition builder_lines (dsm client : bytes) (token callback verifier nonce timestamp : option bytes) (version : bool) : list bytes :=
  [lit "Builder {"; indent 1 (lit "signature_method: " ++ dsm ++ lit ","); indent 1 (lit "client: Credentials {")]
  ++ credentials_lines 2 client ++ [indent 1 (lit "},")]
  ++ match token with
     | Some t => [indent 1 (lit "token: Some("); indent 2 (lit "Credentials {")] ++ credentials_lines 3 t
                 ++ [indent 2 (lit "},"); indent 1 (lit "),")]
     | None => [indent 1 (lit "token: None,")]
     end
  ++ [indent 1 (lit "options: Options {")]
  ++ option_lines 2 (lit "callback") callback ++ option_lines 2 (lit "verifier") verifier
  ++ option_lines 2 (lit "nonce") nonce ++ option_lines 2 (lit "timestamp") timestamp
  ++ [indent 2 (lit "version: " ++ (if version then lit "true" else lit "false") ++ lit ",")]
  ++ [indent 1 (lit "},")].

Lemma pad_start : forall s, s <> [] -> pad_lines true s = lit "    " ++ pad_lines false s.
Proof. intros [|b s] H; [congruence|reflexivity]. Qed.

Lemma pad_line : forall t s, ~ In x0a t -> pad_lines true (t ++ x0a :: s) = indent 1 t ++ x0a :: pad_lines true s.
Proof.
  intros t s H. rewrite pad_start by (destruct t; discriminate). rewrite pad_false by exact H. unfold indent.
  rewrite <- app_assoc. reflexivity.
Qed.

Lemma pad_all : forall ls, Forall (fun l => ~ In x0a l) ls -> pad_lines true (lines ls) = lines (map (indent 1) ls).
Proof.
  induction 1 as [|l ls H _ IH]; [reflexivity|]. cbn [lines flat_map map]. fold (lines ls) (lines (map (indent 1) ls)).
  rewrite <- !app_assoc. cbn [app]. now rewrite pad_line, IH by exact H.
Qed.

Definition one_line (s : bytes) : Prop := ~ In x0a s.

Lemma lines_app : forall a b, lines (a ++ b) = lines a ++ lines b.
Proof. intros. apply flat_map_app. Qed.

Lemma struct_pretty : forall name fields lss,
  Forall2 (fun f ls => fst f ++ lit ": " ++ snd f ++ lit "," ++ [x0a] = lines ls /\ Forall one_line ls) fields lss ->
  debug_struct true name fields = lines ((name ++ lit " {") :: map (indent 1) (concat lss)) ++ lit "}".
Proof.
  intros name fields lss H. unfold debug_struct.
  assert (E : flat_map (fun f => pad_lines true (fst f ++ lit ": " ++ snd f ++ lit "," ++ [x0a])) fields = lines (map (indent 1) (concat lss))).
  { induction H as [|f ls fields lss [HE HL] _ IH]; [reflexivity|]. cbn [flat_map concat].
    rewrite HE, IH, map_app, lines_app, pad_all by exact HL. reflexivity. }
  rewrite E. cbn [lines flat_map]. fold (lines (map (indent 1) (concat lss))). now rewrite <- !app_assoc.
Qed.

Lemma field_line : forall name text, name ++ lit ": " ++ text ++ lit "," ++ [x0a] = lines [name ++ lit ": " ++ text ++ lit ","].
Proof. intros. cbn [lines flat_map]. now rewrite app_nil_r, <- !app_assoc. Qed.

Lemma field_struct : forall name h ls,
  name ++ lit ": " ++ (lines (h :: ls) ++ lit "}") ++ lit "," ++ [x0a] = lines ((name ++ lit ": " ++ h) :: ls ++ [lit "},"]).
Proof.
  intros. cbn [lines flat_map]. fold (lines ls) (lines (ls ++ [lit "},"])). rewrite lines_app. cbn [lines flat_map].
  now rewrite app_nil_r, <- !app_assoc.
Qed.

Lemma field_some : forall name text ls, text ++ lit "," ++ [x0a] = lines ls -> Forall one_line ls ->
  name ++ lit ": " ++ (lit "Some(" ++ [x0a] ++ pad_lines true (text ++ lit "," ++ [x0a]) ++ lit ")") ++ lit "," ++ [x0a]
  = lines ((name ++ lit ": Some(") :: map (indent 1) ls ++ [lit "),"]).
Proof.
  intros name text ls E H. rewrite E, pad_all by exact H. cbn [lines flat_map].
  fold (lines (map (indent 1) ls)) (lines (map (indent 1) ls ++ [lit "),"])). rewrite lines_app. cbn [lines flat_map].
  rewrite app_nil_r, <- !app_assoc. reflexivity.
Qed.

Lemma one_line_app : forall a b, one_line a -> one_line b -> one_line (a ++ b).
Proof. intros a b HA HB H. apply in_app_iff in H as [H|H]; auto. Qed.

Lemma one_line_lit : forall s, forallb (fun b => negb (beqb b x0a)) s = true -> one_line s.
Proof. intros s H K. rewrite forallb_forall in H. apply H in K. discriminate K. Qed.

Lemma field_option : forall {T} (d : bool -> T -> bytes) name o, one_line name ->
  (forall x, o = Some x -> one_line (d true x)) ->
  name ++ lit ": " ++ option_debug d true o ++ lit "," ++ [x0a] = lines (option_lines 0 name (option_map (d true) o))
  /\ Forall one_line (option_lines 0 name (option_map (d true) o)).
Proof.
  intros T d name [x|] HN HD; cbn [option_debug option_map option_lines].
  - specialize (HD x eq_refl). split.
    + rewrite (field_some name (d true x) [d true x ++ lit ","]).
      * reflexivity.
      * cbn [lines flat_map]. now rewrite app_nil_r, <- app_assoc.
      * constructor; [|constructor]. apply one_line_app; [exact HD|now apply one_line_lit].
    + constructor; [apply (one_line_app name); [exact HN|now apply one_line_lit]|]. constructor; [|constructor; [now apply one_line_lit|constructor]].
      unfold indent. apply one_line_app; [now apply one_line_lit|]. apply one_line_app; [exact HD|now apply one_line_lit].
  - split.
    + cbn [lines flat_map]. rewrite app_nil_r. unfold indent. cbn [repeat Nat.mul Nat.add app]. rewrite <- app_assoc. reflexivity.
    + constructor; [apply (one_line_app name); [exact HN|now apply one_line_lit]|constructor].
Qed.

Lemma indent_option : forall n name o, map (indent 1) (option_lines n name o) = option_lines (S n) name o.
Proof.
  assert (HI : forall n s, indent 1 (indent n s) = indent (S n) s).
  { intros n s. unfold indent. rewrite app_assoc, <- repeat_app. do 2 f_equal. lia. }
  intros n name [x|]; cbn [option_lines map]; now rewrite !HI.
Qed.

Lemma decimal_one_line : forall n, one_line (decimal n).
Proof. intros n H. apply (decimal_safe n) in H. discriminate H. Qed.

Theorem C38_builder_pretty : forall dsm ds b, one_line (dsm true) -> (forall s, one_line (ds true s)) ->
  let o := bd_options b in
  Builder_debug dsm ds true b
  = lines (builder_lines (dsm true) (ds true (cr_identifier (bd_client b)))
      (option_map (fun t => ds true (cr_identifier t)) (bd_token b)) (option_map (ds true) (op_callback o))
      (option_map (ds true) (op_verifier o)) (option_map (ds true) (op_nonce o)) (option_map decimal (op_timestamp o)) (op_version o))
    ++ lit "}".
Proof.
  intros dsm ds b HM HS o. subst o.
  assert (HC : forall c, Credentials_debug ds true c = lines (lit "Credentials {" :: credentials_lines 1 (ds true (cr_identifier c))) ++ lit "}").
  { intros c. unfold Credentials_debug. rewrite (struct_pretty _ _ [[lit "identifier: " ++ ds true (cr_identifier c) ++ lit ","]; [lit "secret: <hidden>,"]]); [reflexivity|].
    constructor; [split; [apply field_line|]|constructor; [split; [apply field_line|]|constructor]].
    - constructor; [|constructor]. cbn [fst snd]. repeat apply one_line_app; try (now apply one_line_lit). apply HS.
    - constructor; [now apply one_line_lit|constructor]. }
  assert (HCL : forall c, Forall one_line (lit "Credentials {" :: credentials_lines 1 (ds true (cr_identifier c)))).
  { intros c. constructor; [now apply one_line_lit|]. constructor; [|constructor; [now apply one_line_lit|constructor]].
    unfold indent. repeat apply one_line_app; try (now apply one_line_lit). apply HS. }
  destruct b as [sm cl tk [cb ve no ti vs]]. cbn [bd_signature_method bd_client bd_token bd_options op_callback op_verifier op_nonce op_timestamp op_version].
  assert (HOD : Options_debug ds true {| op_callback := cb; op_verifier := ve; op_nonce := no; op_timestamp := ti; op_version := vs |}
    = lines (lit "Options {" :: option_lines 1 (lit "callback") (option_map (ds true) cb) ++ option_lines 1 (lit "verifier") (option_map (ds true) ve)
        ++ option_lines 1 (lit "nonce") (option_map (ds true) no) ++ option_lines 1 (lit "timestamp") (option_map decimal ti)
        ++ [indent 1 (lit "version: " ++ (if vs then lit "true" else lit "false") ++ lit ",")]) ++ lit "}").
  { unfold Options_debug. cbn [op_callback op_verifier op_nonce op_timestamp op_version].
    rewrite (struct_pretty _ _ [option_lines 0 (lit "callback") (option_map (ds true) cb); option_lines 0 (lit "verifier") (option_map (ds true) ve);
      option_lines 0 (lit "nonce") (option_map (ds true) no); option_lines 0 (lit "timestamp") (option_map decimal ti);
      [lit "version: " ++ (if vs then lit "true" else lit "false") ++ lit ","]]).
    - cbn [concat]. rewrite !map_app, !indent_option, app_nil_r. reflexivity.
    - constructor; [apply field_option; [now apply one_line_lit|intros; apply HS]|].
      constructor; [apply field_option; [now apply one_line_lit|intros; apply HS]|].
      constructor; [apply field_option; [now apply one_line_lit|intros; apply HS]|].
      constructor; [apply (field_option u64_debug); [now apply one_line_lit|intros; apply decimal_one_line]|].
      constructor; [|constructor]. split; [destruct vs; reflexivity|]. constructor; [|constructor]. destruct vs; now apply one_line_lit. }
  unfold Builder_debug. cbn [bd_signature_method bd_client bd_token bd_options].
  assert (HOL : forall name o, one_line name -> (forall x, o = Some x -> one_line x) -> Forall one_line (option_lines 1 name o)).
  { intros name [x|] HN HX; cbn [option_lines]; unfold indent.
    - specialize (HX x eq_refl). repeat (constructor; [repeat apply one_line_app; try assumption; now apply one_line_lit|]). constructor.
    - repeat (constructor; [repeat apply one_line_app; try assumption; now apply one_line_lit|]). constructor. }
  assert (HS' : forall o x, option_map (ds true) o = Some x -> one_line x) by (intros [y|] x E; [injection E as <-; apply HS|discriminate E]).
  assert (HT' : forall o x, option_map decimal o = Some x -> one_line x) by (intros [y|] x E; [injection E as <-; apply decimal_one_line|discriminate E]).
  rewrite (struct_pretty _ _
    [[lit "signature_method: " ++ dsm true ++ lit ","];
     (lit "client: Credentials {") :: credentials_lines 1 (ds true (cr_identifier cl)) ++ [lit "},"];
     match tk with
     | Some t => lit "token: Some(" :: map (indent 1) (lit "Credentials {" :: credentials_lines 1 (ds true (cr_identifier t)) ++ [lit "},"]) ++ [lit "),"]
     | None => [lit "token: None,"]
     end;
     lit "options: Options {" :: (option_lines 1 (lit "callback") (option_map (ds true) cb) ++ option_lines 1 (lit "verifier") (option_map (ds true) ve)
        ++ option_lines 1 (lit "nonce") (option_map (ds true) no) ++ option_lines 1 (lit "timestamp") (option_map decimal ti)
        ++ [indent 1 (lit "version: " ++ (if vs then lit "true" else lit "false") ++ lit ",")]) ++ [lit "},"]]).
  - f_equal. f_equal. unfold builder_lines. cbn [concat map app]. rewrite !map_app, !map_cons, !map_app, !indent_option.
    destruct tk as [t|]; cbn [option_map map app credentials_lines]; rewrite <- ?app_assoc; cbn [app]; reflexivity.
  - constructor.
    { cbn [fst snd]. split; [apply field_line|]. constructor; [|constructor]. repeat apply one_line_app; try (now apply one_line_lit). exact HM. }
    constructor.
    { cbn [fst snd]. rewrite HC. split; [apply field_struct|]. specialize (HCL cl). inversion HCL; subst.
      constructor; [now apply one_line_lit|]. apply Forall_app. split; [assumption|]. constructor; [now apply one_line_lit|constructor]. }
    constructor.
    { cbn [fst snd]. destruct tk as [t|]; cbn [option_debug].
      - assert (HL : Forall one_line (lit "Credentials {" :: credentials_lines 1 (ds true (cr_identifier t)) ++ [lit "},"])).
        { specialize (HCL t). inversion HCL; subst. constructor; [assumption|]. apply Forall_app. split; [assumption|].
          constructor; [now apply one_line_lit|constructor]. }
        split.
        + apply field_some; [|exact HL]. rewrite HC. cbn [lines flat_map]. rewrite flat_map_app. cbn [flat_map]. rewrite app_nil_r, <- !app_assoc. reflexivity.
        + constructor; [now apply one_line_lit|]. apply Forall_app. split; [|constructor; [now apply one_line_lit|constructor]].
          apply Forall_map. eapply Forall_impl; [|exact HL]. intros l K. unfold indent. apply one_line_app; [now apply one_line_lit|exact K].
      - split; [reflexivity|]. constructor; [now apply one_line_lit|constructor]. }
    constructor; [|constructor].
    cbn [fst snd]. rewrite HOD. split; [apply field_struct|]. constructor; [now apply one_line_lit|].
    repeat (apply Forall_app; split); try (apply HOL; [now apply one_line_lit|]); eauto.
    + constructor; [destruct vs; now apply one_line_lit|constructor].
    + constructor; [now apply one_line_lit|constructor].
Qed.
Print Assumptions C38_builder_pretty.

Definition quoted (_ : bool) (s : bytes) : bytes := lit """" ++ s ++ lit """".

Example C38_example :
  bseqb (Builder_debug HmacSha1_debug quoted false
           {| bd_signature_method := HMAC_SHA1; bd_client := Cred (lit "ci") (lit "cs"); bd_token := Some (Cred (lit "ti") (lit "ts"));
              bd_options := Options_new |})
    (lit "Builder { signature_method: HmacSha1, client: Credentials { identifier: ""ci"", secret: <hidden> }, token: Some(Credentials { identifier: ""ti"", secret: <hidden> }), options: Options { callback: None, verifier: None, nonce: None, timestamp: None, version: false } }")
  && bseqb (Builder_debug HmacSha1_debug quoted true
           {| bd_signature_method := HMAC_SHA1; bd_client := Cred (lit "ci") (lit "cs"); bd_token := None;
              bd_options := {| op_callback := Some (lit "oob"); op_verifier := None; op_nonce := None; op_timestamp := Some 7%N; op_version := true |} |})
    (lines [lit "Builder {"; lit "    signature_method: HmacSha1,"; lit "    client: Credentials {"; lit "        identifier: ""ci"",";
       lit "        secret: <hidden>,"; lit "    },"; lit "    token: None,"; lit "    options: Options {"; lit "        callback: Some(";
       lit "            ""oob"","; lit "        ),"; lit "        verifier: None,"; lit "        nonce: None,"; lit "        timestamp: Some(";
       lit "            7,"; lit "        ),"; lit "        version: true,"; lit "    },"] ++ lit "}")
  && bseqb (Credentials_debug quoted true (Cred (lit "ci") (lit "cs")))
       (lit "Credentials {" ++ [x0a] ++ lit "    identifier: ""ci""," ++ [x0a] ++ lit "    secret: <hidden>," ++ [x0a] ++ lit "}") = true.
Proof. vm_compute. reflexivity. Qed.

(** ** C51 *)

Lemma signing_key_no_newline : forall cs ts, ~ In x0a (signing_key cs ts).
Proof.
  intros cs ts H. unfold signing_key in H. apply in_app_iff in H as [H|H]; [now apply enc_no in H|].
  apply in_app_iff in H as [H|H]; [destruct H as [H|[]]; discriminate H|now apply enc_no in H].
Qed.

(** The object that signs for [PLAINTEXT] shows the secrets when debug formatted, whatever they are:
    the encoded secrets joined with an ampersand. *)
Theorem C51_refuted : forall pretty cs ts,
  exists sg, sm_sign_with PLAINTEXT cs ts = Ok sg
  /\ shows (PlaintextSign_debug (bf := StringB) quoted pretty sg)
       (pct_encode cs ++ lit "&" ++ pct_encode (match ts with Some t => t | None => [] end)).
Proof.
  intros pretty cs ts. exists (signing_key cs ts). split.
  - cbn [sm_sign_with PLAINTEXT Plaintext]. change (bf_w StringB) with StringW.
    rewrite write_unwrap_string by apply dok_signing_key. now rewrite dtext_signing_key.
  - change (pct_encode cs ++ _) with (signing_key cs ts). eapply shows_struct.
    + now left.
    + intros _. apply signing_key_no_newline.
    + cbn [snd]. unfold quoted. apply shows_mid, shows_refl.
Qed.
Print Assumptions C51_refuted.

Example C51_example :
  match sm_sign_with PLAINTEXT (lit "c s") (Some (lit "t")) with
  | Ok sg => bseqb (PlaintextSign_debug (bf := StringB) quoted false sg) (lit "PlaintextSign { signing_key: ""c%20s&t"" }")
  | Panic _ => false
  end = true.
Proof. vm_compute. reflexivity. Qed.

(** What the serializers show besides the object that signs, in full: the key, the token, the options,
    the output so far and their own state; the previous key only when the check that uses it is built. *)
Theorem C51_text_partial : forall (sg : Sign) (w : Writer) c ds (dw : bool -> w -> bytes) (dsg : bool -> sg -> bytes) (a : Authorizer sg w),
  Authorizer_debug c ds dw dsg false a
  = lit "Authorizer { consumer_key: " ++ ds false (au_consumer_key a)
    ++ lit ", token: " ++ some_or_none (option_map (ds false) (au_token a))
    ++ lit ", options: " ++ Options_debug ds false (au_options a)
    ++ lit ", data: " ++ match au_data a with
       | Authorization x => lit "Authorization(" ++ dw false x ++ lit ")"
       | Urlencode u => lit "Urlencode(Urlencoder { data: " ++ dw false (ue_data u)
           ++ lit ", next_append: " ++ (match ue_next_append u with
              | ANone => lit "None" | AQuestion => lit "Question" | AAmpersand => lit "Ampersand" end) ++ lit " })"
       end
    ++ lit ", sign: " ++ dsg false (au_sign a)
    ++ lit ", append_delim_to_sign: " ++ (if au_append_delim a then lit "true" else lit "false")
    ++ (if cf_alloc c && cf_debug c then lit ", prev_key: " ++ ds false (au_prev_key a) else [])
    ++ lit " }".
Proof.
  intros sg w c ds dw dsg a. unfold Authorizer_debug, Data_debug, Urlencoder_debug, debug_tuple1, Append_debug, bool_debug.
  generalize (Options_debug ds false (au_options a)). intros op.
  destruct (au_token a), (au_data a) as [x|u], (cf_alloc c && cf_debug c), (au_append_delim a);
    try destruct (ue_next_append u);
    unfold debug_struct, option_debug, some_or_none; cbn [option_map map join fst snd app];
    repeat (rewrite <- ?app_assoc; cbn [app lit String.list_byte_of_string]); reflexivity.
Qed.
Print Assumptions C51_text_partial.

(** The same holds of the serializer that authorizes a request with [PLAINTEXT], through the whole
    serialization: after any calls it still shows them. *)
Lemma Plaintext_frozen : forall (bf : Buffer) (k : bf_w bf),
  sign_steps (PlaintextSign bf) (PlaintextSign bf) (fun _ => k).
Proof. intros bf k. constructor; try reflexivity. intros s []; reflexivity. Qed.

Lemma plaintext_kept : forall (bf : Buffer) (w : Writer) c e cs (a a' : Authorizer (PlaintextSign bf) w),
  run_calls (S := AuthorizerS (PlaintextSign bf) w c e) cs a = Ok a' -> au_sign a' = au_sign a.
Proof.
  intros bf w c e cs a a' H.
  pose proof (calls_lift _ _ w c e _ (Plaintext_frozen bf (au_sign a)) cs a) as HC.
  assert (HL : lift _ _ w (fun _ => au_sign a) a = a) by now destruct a.
  rewrite HL, H in HC. injection HC as HC. rewrite HC. reflexivity.
Qed.

Theorem C51_authorizer_refuted : forall (w : Writer) c e ds (dw : bool -> w -> bytes) pretty (buf : w) method uri ci cs tk o calls a,
  (a0 <- authorization_with_buf c PLAINTEXT buf method uri (Cred ci cs) tk o ;;
   run_calls (S := AuthorizerS (sm_sign PLAINTEXT) w c e) calls a0) = Ok a ->
  shows (Authorizer_debug (sg := sm_sign PLAINTEXT) c ds dw (PlaintextSign_debug (bf := StringB) quoted) pretty a)
    (pct_encode cs ++ lit "&" ++ pct_encode (match tk with Some t => cr_secret t | None => [] end)).
Proof.
  intros w c e ds dw pretty buf method uri ci cs tk o calls a H.
  unfold authorization_with_buf in H. destruct (write_unwrap (dstr (lit "OAuth ")) buf) as [h|]; [|discriminate H].
  cbn [rbind] in H. unfold make_sign in H.
  destruct (if cf_debug c then _ else _) as [u|]; [|discriminate H]. cbn [rbind cr_secret] in H.
  set (key := signing_key cs (option_map cr_secret tk)).
  assert (HK : sm_sign_with PLAINTEXT cs (option_map cr_secret tk) = Ok key).
  { cbn [sm_sign_with PLAINTEXT Plaintext]. change (bf_w StringB) with StringW.
    rewrite write_unwrap_string by apply dok_signing_key. now rewrite dtext_signing_key. }
  rewrite HK in H. cbn [rbind] in H.
  change (sg_request_method (key : sm_sign PLAINTEXT) method) with (Ok (key : sm_sign PLAINTEXT)) in H. cbn [rbind] in H.
  change (sg_uri (key : sm_sign PLAINTEXT) (PercentEncode uri)) with (Ok (key : sm_sign PLAINTEXT)) in H. cbn [rbind] in H.
  apply (plaintext_kept StringB) in H. cbn [au_new au_sign] in H.
  replace (pct_encode cs ++ _) with key by (unfold key; destruct tk; reflexivity).
  assert (HN : ~ In x0a key) by apply signing_key_no_newline.
  eapply shows_struct with (f := (lit "sign", _)).
  - apply in_app_iff. left. do 4 right. left. reflexivity.
  - intros _. exact HN.
  - cbn [snd]. eapply shows_struct; [now left|intros _; exact HN|]. cbn [snd].
    match goal with |- shows (quoted _ ?x) _ => replace x with key by (symmetry; exact H) end.
    apply shows_mid, shows_refl.
Qed.
Print Assumptions C51_authorizer_refuted.

(** With [HMAC-SHA1] the property holds: at every point of every serialization, for every transport
    and every buffer, the debug text of the serializer does not depend on the secrets.  The suffix says
    that the property is claimed for all signature methods. *)
Lemma Hmac_rekey : forall k, sign_steps HmacSha1Sign HmacSha1Sign (fun s : HmacState => {| hm_key := k; hm_fed := hm_fed s |}).
Proof.
  intros k. constructor; try reflexivity.
  intros s x. destruct x; try reflexivity; cbn;
    match goal with |- context [rbind ?r _] => destruct r; reflexivity end.
Qed.

Definition same_ids (tk tk' : option (Credentials bytes)) : Prop :=
  option_map cr_identifier tk = option_map cr_identifier tk'.

Lemma hmac_rekey_run : forall (w : Writer) c e ds (dw : bool -> w -> bytes) dh pretty (data : Data w) method uri
    ci cs cs' tk tk' o calls, same_ids tk tk' ->
  rmap (Authorizer_debug (sg := HmacSha1Sign) c ds dw (HmacSha1Sign_debug dh) pretty)
    (sg <- make_sign c HMAC_SHA1 method uri (Cred ci cs) tk ;;
     run_calls (S := AuthorizerS HmacSha1Sign w c e) calls (au_new data sg (Cred ci cs) tk o))
  = rmap (Authorizer_debug (sg := HmacSha1Sign) c ds dw (HmacSha1Sign_debug dh) pretty)
    (sg <- make_sign c HMAC_SHA1 method uri (Cred ci cs') tk' ;;
     run_calls (S := AuthorizerS HmacSha1Sign w c e) calls (au_new data sg (Cred ci cs') tk' o)).
Proof.
  intros w c e ds dw dh pretty data method uri ci cs cs' tk tk' o calls HI. unfold make_sign.
  destruct (if cf_debug c then _ else _) as [u|]; [|reflexivity]. cbn [rbind cr_secret].
  destruct (HMAC_sign_with cs (option_map cr_secret tk)) as [st [E1 [F1 _]]].
  destruct (HMAC_sign_with cs' (option_map cr_secret tk')) as [st' [E2 [F2 _]]].
  rewrite E1, E2. cbn [rbind]. change (sm_sign HMAC_SHA1) with HmacSha1Sign in *.
  set (g := fun s : HmacState => {| hm_key := hm_key st'; hm_fed := hm_fed s |}).
  assert (HG : st' = g st) by (unfold g; rewrite F1, <- F2; now destruct st').
  pose proof (Hmac_rekey (hm_key st')) as HR. fold g in HR. rewrite HG.
  pose proof (sm_step _ _ _ HR st (SMethod method)) as HM. cbn [run_scall] in HM.
  rewrite HM. destruct (sg_request_method (st : HmacSha1Sign) method) as [s1|]; [|reflexivity]. cbn [rmap rbind].
  pose proof (sm_step _ _ _ HR s1 (SUri (PercentEncode uri))) as HU. cbn [run_scall] in HU.
  rewrite HU. destruct (sg_uri (s1 : HmacSha1Sign) (PercentEncode uri)) as [s2|]; [|reflexivity]. cbn [rmap rbind].
  pose proof (calls_lift HmacSha1Sign HmacSha1Sign w c e g HR calls (au_new data s2 (Cred ci cs) tk o)) as HC.
  replace (au_new (sg := HmacSha1Sign) data (g s2) (Cred ci cs') tk' o) with (lift HmacSha1Sign HmacSha1Sign w g (au_new data s2 (Cred ci cs) tk o)).
  2:{ unfold lift, au_new. cbn. unfold same_ids in HI. now rewrite HI. }
  rewrite HC. match goal with |- _ = rmap _ (rmap _ ?x) => change x with (run_calls (S := AuthorizerS HmacSha1Sign w c e) calls (au_new (sg := HmacSha1Sign) data s2 (Cred ci cs) tk o)); destruct x as [a|]; reflexivity end.
Qed.

Theorem C51_hmac_partial : forall (w : Writer) c e ds (dw : bool -> w -> bytes) dh pretty (buf : w) show method uri
    ci cs cs' tk tk' o calls, same_ids tk tk' ->
  let text (r : res (Authorizer HmacSha1Sign w)) :=
    rmap (Authorizer_debug (sg := HmacSha1Sign) c ds dw (HmacSha1Sign_debug dh) pretty)
      (a <- r ;; run_calls (S := AuthorizerS HmacSha1Sign w c e) calls a) in
  text (authorization_with_buf c HMAC_SHA1 buf method uri (Cred ci cs) tk o)
  = text (authorization_with_buf c HMAC_SHA1 buf method uri (Cred ci cs') tk' o)
  /\ text (form_with_buf c HMAC_SHA1 buf method uri (Cred ci cs) tk o)
  = text (form_with_buf c HMAC_SHA1 buf method uri (Cred ci cs') tk' o)
  /\ text (query c HMAC_SHA1 show method buf (Cred ci cs) tk o)
  = text (query c HMAC_SHA1 show method buf (Cred ci cs') tk' o).
Proof.
  intros w c e ds dw dh pretty buf show method uri ci cs cs' tk tk' o calls HI text. unfold text.
  assert (HB : forall data u,
    rmap (Authorizer_debug (sg := HmacSha1Sign) c ds dw (HmacSha1Sign_debug dh) pretty)
      (a <- (sg <- make_sign c HMAC_SHA1 method u (Cred ci cs) tk ;; Ok (au_new data sg (Cred ci cs) tk o)) ;;
       run_calls (S := AuthorizerS HmacSha1Sign w c e) calls a)
    = rmap (Authorizer_debug (sg := HmacSha1Sign) c ds dw (HmacSha1Sign_debug dh) pretty)
      (a <- (sg <- make_sign c HMAC_SHA1 method u (Cred ci cs') tk' ;; Ok (au_new data sg (Cred ci cs') tk' o)) ;;
       run_calls (S := AuthorizerS HmacSha1Sign w c e) calls a)).
  { intros data u. pose proof (hmac_rekey_run w c e ds dw dh pretty data method u ci cs cs' tk tk' o calls HI) as H.
    destruct (make_sign c HMAC_SHA1 method u (Cred ci cs) tk), (make_sign c HMAC_SHA1 method u (Cred ci cs') tk'); exact H. }
  split; [|split].
  - unfold authorization_with_buf. destruct (write_unwrap (dstr (lit "OAuth ")) buf) as [h|]; [|reflexivity]. apply HB.
  - apply HB.
  - apply HB.
Qed.
Print Assumptions C51_hmac_partial.

(** The text is there to be compared: a serialization that runs. *)
Example C51_hmac_example :
  match (a <- authorization dbg_std HMAC_SHA1 (lit "GET") (s2d "http://h/") (Cred (lit "ck") (lit "s")) (Some (Cred (lit "t") (lit "u"))) Options_new ;;
         run_calls (S := AuthorizerS HmacSha1Sign StringW dbg_std env0) [CProto PConsumerKey; CParam (lit "p") (s2d "v")] a) with
  | Ok a => bseqb (Authorizer_debug (sg := HmacSha1Sign) (w := StringW) dbg_std quoted quoted (HmacSha1Sign_debug (fun _ => lit "Hmac<Sha1> { .. }")) false a)
      (lit "Authorizer { consumer_key: ""ck"", token: Some(""t""), options: Options { callback: None, verifier: None, nonce: None, timestamp: None, version: false }, data: Authorization(""OAuth oauth_consumer_key=""ck"",""), sign: HmacSha1Sign { inner: UpdateSign(Hmac<Sha1> { .. }) }, append_delim_to_sign: true, prev_key: ""p"" }")
  | Panic _ => false
  end = true.
Proof. vm_compute. reflexivity. Qed.

(** With [RSA-SHA1], too: the text does not depend on the secrets, which are not kept.  (It does show
    what the [rsa] crate shows of the key.) *)
Theorem C51_rsa_partial : forall (w : Writer) c e ds (dw : bool -> w -> bytes) dsha dk pretty (buf : w) show method uri
    key ci cs cs' tk tk' o calls, same_ids tk tk' ->
  let text (r : res (Authorizer (rsa_sign rsa_end_owned) w)) :=
    rmap (Authorizer_debug (sg := rsa_sign rsa_end_owned) c ds dw (RsaSha1Sign_debug dsha dk) pretty)
      (a <- r ;; run_calls (S := AuthorizerS (rsa_sign rsa_end_owned) w c e) calls a) in
  text (authorization_with_buf c (RsaSha1 key) buf method uri (Cred ci cs) tk o)
  = text (authorization_with_buf c (RsaSha1 key) buf method uri (Cred ci cs') tk' o)
  /\ text (form_with_buf c (RsaSha1 key) buf method uri (Cred ci cs) tk o)
  = text (form_with_buf c (RsaSha1 key) buf method uri (Cred ci cs') tk' o)
  /\ text (query c (RsaSha1 key) show method buf (Cred ci cs) tk o)
  = text (query c (RsaSha1 key) show method buf (Cred ci cs') tk' o)
  /\ (forall s, shows (RsaSha1Sign_debug dsha dk false s) (dk false)).
Proof.
  intros w c e ds dw dsha dk pretty buf show method uri key ci cs cs' tk tk' o calls HI text. unfold text.
  assert (HN : forall data sg, au_new (w := w) (sg := rsa_sign rsa_end_owned) data sg (Cred ci cs) tk o
    = au_new (sg := rsa_sign rsa_end_owned) data sg (Cred ci cs') tk' o).
  { intros data sg. unfold au_new. cbn. unfold same_ids in HI. now rewrite HI. }
  assert (HM : forall u, make_sign c (RsaSha1 key) method u (Cred ci cs) tk = make_sign c (RsaSha1 key) method u (Cred ci cs') tk') by reflexivity.
  split; [|split; [|split]].
  - unfold authorization_with_buf. destruct (write_unwrap (dstr (lit "OAuth ")) buf) as [h|]; [|reflexivity]. cbn [rbind].
    rewrite HM. destruct (make_sign c (RsaSha1 key) method uri (Cred ci cs') tk') as [sg|]; [|reflexivity]. cbn [rbind].
    now rewrite (HN _ sg).
  - unfold form_with_buf. rewrite HM. destruct (make_sign c (RsaSha1 key) method uri (Cred ci cs') tk') as [sg|]; [|reflexivity].
    cbn [rbind]. now rewrite (HN _ sg).
  - unfold query. rewrite HM. destruct (make_sign c (RsaSha1 key) method _ (Cred ci cs') tk') as [sg|]; [|reflexivity].
    cbn [rbind]. now rewrite (HN _ sg).
  - intros s. eapply shows_struct with (f := (lit "key", dk false)); [right; now left|discriminate|apply shows_refl].
Qed.
Print Assumptions C51_rsa_partial.

(** ** C39 *)

Theorem C39_projections : forall {C T} (ac : C -> bytes) (at_ : T -> bytes) (ci cs : C) (ti ts : T),
  let c := Credentials_new ci cs in
  let k := Credentials_new ti ts in
  Credentials_identifier ac c = ac ci /\ Credentials_secret ac c = ac cs
  /\ Credentials_as_ref ac c = Cred (ac ci) (ac cs) /\ Credentials_from ac c = Cred (ac ci) (ac cs)
  /\ Token_from_parts ci cs ti ts = Token_new c k
  /\ tk_client (Token_new c k) = Cred ci cs /\ tk_token (Token_new c k) = Cred ti ts
  /\ Token_client ac (Token_new c k) = Cred (ac ci) (ac cs) /\ Token_token at_ (Token_new c k) = Cred (at_ ti) (at_ ts)
  /\ Token_as_ref ac at_ (Token_new c k) = Tok (Cred (ac ci) (ac cs)) (Cred (at_ ti) (at_ ts))
  /\ Token_from ac at_ (Token_new c k) = Tok (Cred (ac ci) (ac cs)) (Cred (at_ ti) (at_ ts))
  /\ Token_from_ref ac at_ c k = Tok (Cred (ac ci) (ac cs)) (Cred (at_ ti) (at_ ts)).
Proof. intros. repeat split. Qed.
Print Assumptions C39_projections.

(** The parts of credentials and tokens, in order. *)
Definition parts {T} (c : Credentials T) : list T := [cr_identifier c; cr_secret c].
Definition token_parts {T} (t : Token T T) : list T := parts (tk_client t) ++ parts (tk_token t).

(** Calling a stateful function on each element of a list in turn. *)
Fixpoint thread {St T U} (f : St -> T -> St * U) (st : St) (l : list T) : St * list U :=
  match l with
  | [] => (st, [])
  | x :: l' => let (st1, y) := f st x in let (st2, ys) := thread f st1 l' in (st2, y :: ys)
  end.

Theorem C39_map : forall {St T U} (f : St -> T -> St * U) st c,
  let (st', c') := Credentials_map f st c in thread f st (parts c) = (st', parts c').
Proof.
  intros St T U f st [i s]. unfold Credentials_map, parts, thread. cbn.
  destruct (f st i) as [st1 i'], (f st1 s) as [st2 s']. reflexivity.
Qed.
Print Assumptions C39_map.

Theorem C39_token_map : forall {St T U} (f : St -> T -> St * U) st t,
  let (st', t') := Token_map f st t in thread f st (token_parts t) = (st', token_parts t').
Proof.
  intros St T U f st [[a b] [c d]]. cbn. unfold Token_map, Token_map_client, Token_map_token, Credentials_map. cbn.
  destruct (f st a) as [s1 a'], (f s1 b) as [s2 b']. cbn. destruct (f s2 c) as [s3 c'], (f s3 d) as [s4 d']. reflexivity.
Qed.
Print Assumptions C39_token_map.

Theorem C39_map_client : forall {St C C2 T} (f : St -> C -> St * C2) st (t : Token C T),
  let (st', t') := Token_map_client f st t in
  thread f st (parts (tk_client t)) = (st', parts (tk_client t')) /\ tk_token t' = tk_token t.
Proof.
  intros St C C2 T f st [[a b] k]. unfold Token_map_client, Credentials_map. cbn.
  destruct (f st a) as [s1 a'], (f s1 b) as [s2 b']. cbn. auto.
Qed.
Print Assumptions C39_map_client.

Theorem C39_map_token : forall {St C T T2} (f : St -> T -> St * T2) st (t : Token C T),
  let (st', t') := Token_map_token f st t in
  thread f st (parts (tk_token t)) = (st', parts (tk_token t')) /\ tk_client t' = tk_client t.
Proof.
  intros St C T T2 f st [k [a b]]. unfold Token_map_token, Credentials_map. cbn.
  destruct (f st a) as [s1 a'], (f s1 b) as [s2 b']. cbn. auto.
Qed.
Print Assumptions C39_map_token.

(** A function that records its arguments sees each part once, in order. *)
Theorem C39_calls : forall {T U} (g : T -> U) ci cs ti ts,
  Token_map (fun log x => (log ++ [x], g x)) [] (Tok (Cred ci cs) (Cred ti ts))
  = ([ci; cs; ti; ts], Tok (Cred (g ci) (g cs)) (Cred (g ti) (g ts))).
Proof. reflexivity. Qed.
Print Assumptions C39_calls.

(** Identity and composition. *)
Theorem C39_identity : forall {St T} (st : St) (t : Token T T) (c : Credentials T),
  Token_map (fun st x => (st, x)) st t = (st, t) /\ Credentials_map (fun st x => (st, x)) st c = (st, c)
  /\ Token_map_client (fun st x => (st, x)) st t = (st, t) /\ Token_map_token (fun st x => (st, x)) st t = (st, t).
Proof. intros St T st [[a b] [c d]] [i s]. repeat split. Qed.
Print Assumptions C39_identity.

Theorem C39_composition : forall {A B D} (f : A -> B) (g : B -> D) (t : Token A A),
  snd (Token_map (fun u x => (u, g x)) tt (snd (Token_map (fun u x => (u, f x)) tt t)))
  = snd (Token_map (fun u x => (u, g (f x))) tt t)
  /\ Token_map (fun u x => (u, f x)) tt t
     = Token_map_client (fun u x => (u, f x)) tt (snd (Token_map_token (fun u x => (u, f x)) tt t)).
Proof. intros A B D f g [[a b] [c d]]. split; reflexivity. Qed.
Print Assumptions C39_composition.

Example C39_example :
  let (n, t) := Token_map (fun n (x : bytes) => (S n, (x, n))) 0 (Tok (Cred (lit "a") (lit "b")) (Cred (lit "c") (lit "d"))) in
  n = 4 /\ token_parts t = [(lit "a", 0); (lit "b", 1); (lit "c", 2); (lit "d", 3)].
Proof. split; reflexivity. Qed.
