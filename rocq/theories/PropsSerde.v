(** Properties C40 and C75: reading and writing credentials with serde. *)
From Coq Require Import String.
From Coq Require Import Lia Arith Permutation.
From Verif Require Import Bytes Spec MFmt MCredentials MSerde SpecAuth SpecForm LBytes LPercent LCrypto LBuild LForm.

(** The text of a key that is a string (of characters or of bytes). *)
Definition key_text {E T} (en : entry E T) : option bytes :=
  match en_key en with VisitStr s => Some s | VisitBytes s => Some s | VisitU64 _ | BadKey _ => None end.

Definition has_key {E T} (k : bytes) (en : entry E T) : bool :=
  match key_text en with Some s => bseqb s k | None => false end.

(** [k] occurs exactly once, with the value [v]. *)
Definition once {E T} (k : bytes) (v : T) (l : list (entry E T)) : Prop :=
  exists en, filter (has_key k) l = [en] /\ en_value en = inl v.

(** Every key is a string and every value of another key can be skipped. *)
Definition readable {E T} (l : list (entry E T)) : Prop :=
  Forall (fun en => exists k, key_text en = Some k
            /\ (k <> lit "oauth_token" -> k <> lit "oauth_token_secret" -> exists u, en_ignored en = inl u)) l.

Lemma visit_loop_spec : forall {E T} (end_ : option E) (l : list (entry E T)) oi os i s,
  visit_loop end_ l oi os = inl (Cred i s) <->
  end_ = None /\ readable l
  /\ match oi with Some x => x = i /\ filter (has_key (lit "oauth_token")) l = [] | None => once (lit "oauth_token") i l end
  /\ match os with Some x => x = s /\ filter (has_key (lit "oauth_token_secret")) l = [] | None => once (lit "oauth_token_secret") s l end.
Proof.
  intros E T end_ l. unfold readable, once. induction l as [|en l IH]; intros oi os i s.
  - cbn [visit_loop filter]. destruct end_ as [e|]; [split; [discriminate|intros [K _]; discriminate]|].
    destruct oi as [x|].
    + destruct os as [y|].
      * split; [intros K; injection K as -> ->; auto|]. intros [_ [_ [[-> _] [-> _]]]]. reflexivity.
      * split; [discriminate|]. intros [_ [_ [_ [en [K _]]]]]. discriminate K.
    + split; [discriminate|]. intros [_ [_ [[en [K _]] _]]]. discriminate K.
  - cbn [visit_loop filter]. destruct (key_text en) as [k|] eqn:KX.
    2: { split.
         - unfold key_text in KX. destruct (en_key en); try discriminate KX; cbn [Field_deserialize]; discriminate.
         - intros [_ [K _]]. inversion K as [|? ? [k [K1 _]] _]; subst. congruence. }
    assert (FK : Field_deserialize (en_key en) = inl (field_of k))
      by (unfold key_text in KX; destruct (en_key en); try discriminate; injection KX as ->; reflexivity).
    rewrite FK. unfold field_of.
    assert (HX : forall k', has_key k' en = bseqb k k') by (intros k'; unfold has_key; now rewrite KX).
    rewrite !HX. destruct (bseqb k (lit "oauth_token")) eqn:E1.
    + apply bseqb_eq in E1; subst k. change (bseqb (lit "oauth_token") (lit "oauth_token_secret")) with false. cbn iota.
      destruct oi as [x|]; [split; [discriminate|]; intros [_ [_ [[_ K] _]]]; discriminate K|].
      destruct (en_value en) as [v|e] eqn:EV; cbn [lift].
      2: { split; [discriminate|]. intros [_ [_ [[en' [K1 K2]] _]]]. injection K1 as <- _. congruence. }
      rewrite IH. split.
      * intros [H1 [H2 [[<- H3] H4]]]. split; [exact H1|]. split; [|split; [exists en; now rewrite H3|exact H4]].
        constructor; [|exact H2]. exists (lit "oauth_token"). split; [exact KX|]. intros K. now elim K.
      * intros [H1 [H2 [[en' [H3 H5]] H4]]]. inversion H2; subst. injection H3 as <- H3.
        split; [reflexivity|]. split; [assumption|]. split; [split; [congruence|exact H3]|exact H4].
    + destruct (bseqb k (lit "oauth_token_secret")) eqn:E2.
      * apply bseqb_eq in E2; subst k.
        destruct os as [x|]; [split; [discriminate|]; intros [_ [_ [_ [_ K]]]]; discriminate K|].
        destruct (en_value en) as [v|e] eqn:EV; cbn [lift].
        2: { split; [discriminate|]. intros [_ [_ [_ [en' [K1 K2]]]]]. injection K1 as <- _. congruence. }
        rewrite IH. split.
        -- intros [H1 [H2 [H4 [<- H3]]]]. split; [exact H1|]. split; [|split; [exact H4|exists en; now rewrite H3]].
           constructor; [|exact H2]. exists (lit "oauth_token_secret"). split; [exact KX|]. intros _ K. now elim K.
        -- intros [H1 [H2 [H4 [en' [H3 H5]]]]]. inversion H2; subst. injection H3 as <- H3.
           split; [reflexivity|]. split; [assumption|]. split; [exact H4|split; [congruence|exact H3]].
      * destruct (en_ignored en) as [u|e] eqn:EI; cbn [lift].
        2: { split; [discriminate|]. intros [_ [K _]]. inversion K as [|? ? [k' [K1 K2]] _]; subst.
             rewrite KX in K1. injection K1 as <-.
             destruct K2 as [u K2]; [intros ->; discriminate E1|intros ->; discriminate E2|congruence]. }
        rewrite IH. split; intros [H1 [H2 [H3 H4]]]; (split; [exact H1|]); (split; [|split; [exact H3|exact H4]]).
        -- constructor; [|exact H2]. exists k. split; [exact KX|]. intros _ _. now exists u.
        -- now inversion H2.
Qed.

(** Deserialization succeeds iff the input is a map, readable, and each of the two keys occurs
    exactly once; the values returned are those two. *)
Theorem C40_accepts : forall {E T} (d : input E T) i s,
  Credentials_deserialize d = inl (Cred i s) <->
  exists m, d = AMap m /\ ma_end m = None /\ readable (ma_entries m)
    /\ once (lit "oauth_token") i (ma_entries m) /\ once (lit "oauth_token_secret") s (ma_entries m).
Proof.
  intros E T [m|l|e] i s; cbn [Credentials_deserialize].
  - rewrite visit_loop_spec. split; [intros H; exists m; tauto|]. intros [m' [K H]]. injection K as <-. exact H.
  - split; [discriminate|]. intros [m [K _]]. discriminate K.
  - split; [discriminate|]. intros [m [K _]]. discriminate K.
Qed.
Print Assumptions C40_accepts.

(** The order of the entries does not matter. *)
Theorem C40_order : forall {E T} (l l' : list (entry E T)) end_ c,
  Permutation l l' ->
  Credentials_deserialize (AMap {| ma_entries := l; ma_end := end_ |}) = inl c ->
  Credentials_deserialize (AMap {| ma_entries := l'; ma_end := end_ |}) = inl c.
Proof.
  intros E T l l' end_ [i s] HP H. rewrite C40_accepts in *. destruct H as [m [K [H1 [H2 [H3 H4]]]]]. injection K as <-.
  cbn [ma_entries ma_end] in *. eexists. split; [reflexivity|]. cbn [ma_entries ma_end].
  assert (HO : forall k v, once k v l -> once k v l').
  { intros k v [en [F V]]. exists en. split; [|exact V].
    assert (Permutation (filter (has_key k) l) (filter (has_key k) l')).
    { clear -HP. induction HP; cbn [filter].
      - constructor.
      - destruct (has_key k x); [now constructor|assumption].
      - destruct (has_key k x), (has_key k y); auto. constructor.
      - etransitivity; eassumption. }
    rewrite F in H. now apply Permutation_length_1_inv in H. }
  split; [exact H1|]. split; [eapply Permutation_Forall; eassumption|]. split; now apply HO.
Qed.
Print Assumptions C40_order.

(** A second occurrence is an error even if its value could not be read, and a missing key is
    reported as such. *)
Theorem C40_duplicate : forall {E T} (pre : list (entry E T)) en post end_ k v,
  (k = lit "oauth_token" \/ k = lit "oauth_token_secret") ->
  readable pre -> once k v pre -> key_text en = Some k ->
  (forall k', k' = lit "oauth_token" \/ k' = lit "oauth_token_secret" -> k' <> k ->
     filter (has_key k') pre = [] \/ exists v', once k' v' pre) ->
  Credentials_deserialize (AMap {| ma_entries := pre ++ en :: post; ma_end := end_ |}) = inr (DuplicateField k).
Proof.
  intros E T pre en post end_ k v Hk HR HO HE HB. cbn [Credentials_deserialize ma_entries ma_end].
  assert (G : forall (l : list (entry E T)) oi os, readable l ->
    match oi with Some _ => filter (has_key (lit "oauth_token")) l = []
    | None => filter (has_key (lit "oauth_token")) l = [] \/ exists v, once (lit "oauth_token") v l end ->
    match os with Some _ => filter (has_key (lit "oauth_token_secret")) l = []
    | None => filter (has_key (lit "oauth_token_secret")) l = [] \/ exists v, once (lit "oauth_token_secret") v l end ->
    exists oi' os', visit_loop end_ (l ++ en :: post) oi os = visit_loop end_ (en :: post) oi' os'
      /\ (oi' = None -> oi = None /\ filter (has_key (lit "oauth_token")) l = [])
      /\ (os' = None -> os = None /\ filter (has_key (lit "oauth_token_secret")) l = [])).
  { clear HR HO HB pre. induction l as [|x l IH]; intros oi os HR HI HS.
    - exists oi, os. auto.
    - inversion HR as [|? ? [kx [KX KI]] HR']; subst. cbn [app visit_loop].
      assert (FK : Field_deserialize (en_key x) = inl (field_of kx))
        by (unfold key_text in KX; destruct (en_key x); try discriminate; injection KX as ->; reflexivity).
      rewrite FK. unfold field_of. cbn [filter] in HI, HS |- *.
      assert (HX : forall k', has_key k' x = bseqb kx k') by (intros k'; unfold has_key; now rewrite KX).
      unfold once in HI, HS. cbn [filter] in HI, HS. rewrite HX in HI, HS. rewrite !HX.
      destruct (bseqb kx (lit "oauth_token")) eqn:E1.
      + apply bseqb_eq in E1; subst kx. change (bseqb (lit "oauth_token") (lit "oauth_token_secret")) with false in *. cbn iota in *.
        destruct oi as [y|]; [discriminate HI|]. destruct HI as [HI|[v0 [en0 [F0 V0]]]]; [discriminate HI|].
        injection F0 as -> F0. rewrite V0. cbn [lift].
        destruct (IH (Some v0) os HR' F0 HS) as [oi' [os' [A [B D]]]]. exists oi', os'. split; [exact A|]. split; [|exact D].
        intros K. destruct (B K) as [K1 _]. discriminate K1.
      + destruct (bseqb kx (lit "oauth_token_secret")) eqn:E2.
        * apply bseqb_eq in E2; subst kx.
          destruct os as [y|]; [discriminate HS|]. destruct HS as [HS|[v0 [en0 [F0 V0]]]]; [discriminate HS|].
          injection F0 as -> F0. rewrite V0. cbn [lift].
          destruct (IH oi (Some v0) HR' HI F0) as [oi' [os' [A [B D]]]]. exists oi', os'. split; [exact A|]. split; [exact B|].
          intros K. destruct (D K) as [K1 _]. discriminate K1.
        * destruct KI as [u KI]; [intros ->; discriminate E1|intros ->; discriminate E2|]. rewrite KI. cbn [lift].
          exact (IH oi os HR' HI HS). }
  assert (HNE : filter (has_key k) pre <> []) by (destruct HO as [x [F _]]; rewrite F; discriminate).
  destruct (G pre None None HR) as [oi' [os' [A [B D]]]].
  - destruct (list_eq_dec byte_eq_dec (lit "oauth_token") k) as [<-|N]; [right; now exists v|]. apply HB; auto.
  - destruct (list_eq_dec byte_eq_dec (lit "oauth_token_secret") k) as [<-|N]; [right; now exists v|]. apply HB; auto.
  - rewrite A. cbn [visit_loop].
    assert (FK : Field_deserialize (en_key en) = inl (field_of k))
      by (unfold key_text in HE; destruct (en_key en); try discriminate; injection HE as ->; reflexivity).
    rewrite FK. destruct Hk as [->| ->].
    + change (field_of (lit "oauth_token")) with FIdentifier. cbn iota. destruct oi'; [reflexivity|].
      destruct (B eq_refl) as [_ K]. contradiction.
    + change (field_of (lit "oauth_token_secret")) with FSecret. cbn iota. destruct os'; [reflexivity|].
      destruct (D eq_refl) as [_ K]. contradiction.
Qed.
Print Assumptions C40_duplicate.

Theorem C40_missing : forall {E T} (l : list (entry E T)) c,
  Credentials_deserialize (AMap {| ma_entries := l; ma_end := None |}) = c ->
  readable l -> Forall (fun en => exists v, en_value en = inl v) l ->
  (filter (has_key (lit "oauth_token")) l = [] -> length (filter (has_key (lit "oauth_token_secret")) l) <= 1 ->
     c = inr (MissingField (lit "oauth_token")))
  /\ (length (filter (has_key (lit "oauth_token")) l) = 1 -> filter (has_key (lit "oauth_token_secret")) l = [] ->
     c = inr (MissingField (lit "oauth_token_secret"))).
Proof.
  intros E T l c <- HR HV. cbn [Credentials_deserialize ma_entries ma_end].
  assert (G : forall oi os : option T,
    (oi = None -> filter (has_key (lit "oauth_token")) l = [] ->
      length (filter (has_key (lit "oauth_token_secret")) l) <= match os with None => 1 | Some _ => 0 end ->
      visit_loop None l oi os = inr (MissingField (lit "oauth_token")))
    /\ (os = None -> length (filter (has_key (lit "oauth_token")) l) = match oi with None => 1 | Some _ => 0 end ->
      filter (has_key (lit "oauth_token_secret")) l = [] ->
      visit_loop None l oi os = inr (MissingField (lit "oauth_token_secret")))).
  { induction l as [|x l IH]; intros oi os.
    - split; intros -> H1 H2; cbn [visit_loop]; [reflexivity|]. destruct oi; [reflexivity|discriminate H1].
    - inversion HR as [|? ? [kx [KX KI]] HR']; subst. inversion HV as [|? ? [vx VX] HV']; subst.
      specialize (IH HR' HV'). cbn [visit_loop filter].
      assert (FK : Field_deserialize (en_key x) = inl (field_of kx))
        by (unfold key_text in KX; destruct (en_key x); try discriminate; injection KX as ->; reflexivity).
      rewrite FK. unfold field_of.
      assert (HX : forall k', has_key k' x = bseqb kx k') by (intros k'; unfold has_key; now rewrite KX).
      rewrite !HX. destruct (bseqb kx (lit "oauth_token")) eqn:E1.
      + apply bseqb_eq in E1; subst kx. change (bseqb (lit "oauth_token") (lit "oauth_token_secret")) with false. cbn iota.
        split; intros -> H1 H2; [discriminate H1|]. destruct oi; [discriminate H1|]. rewrite VX. cbn [lift].
        apply IH; auto.
      + destruct (bseqb kx (lit "oauth_token_secret")) eqn:E2.
        * split; intros -> H1 H2; [|discriminate H2]. destruct os; [cbn in H2; lia|]. rewrite VX. cbn [lift].
          apply IH; [reflexivity|exact H1|]. cbn [length] in H2. lia.
        * destruct KI as [u KI]; [intros ->; discriminate E1|intros ->; discriminate E2|]. rewrite KI. cbn [lift]. apply IH. }
  split; intros H1 H2; [now apply (G None None)|now apply (G None None)].
Qed.
Print Assumptions C40_missing.

(** ** Round trip *)

(** A self-describing format: the serializer records the fields in order. *)
Definition map_serializer (T E : Type) : Serializer T (list (bytes * T)) E :=
  {| sr_struct := list (bytes * T);
     serialize_struct := fun _ _ => inl [];
     serialize_field := fun st k v => inl (st ++ [(k, v)]);
     serialize_end := fun st => inl st |}.

(** Reading back what such a format wrote: every key as a string, every value as itself. *)
Definition read_back {T} (E : Type) (l : list (bytes * T)) : input E T :=
  AMap {| ma_entries := map (fun p => {| en_key := VisitStr (fst p); en_value := inl (snd p); en_ignored := inl tt |}) l;
          ma_end := None |}.

(** What is wrong with an entry that comes after [seen], or with the end. *)
Definition ours (k : bytes) : Prop := k = lit "oauth_token" \/ k = lit "oauth_token_secret".
Definition unseen {E T} (k : bytes) (seen : list (entry E T)) : Prop := filter (has_key k) seen = [].

Definition nothing_wrong {E T} (seen : list (entry E T)) (en : entry E T) : Prop :=
  exists k, key_text en = Some k
    /\ (ours k -> unseen k seen /\ exists v, en_value en = inl v) /\ (~ ours k -> exists u, en_ignored en = inl u).

Inductive wrong {E T} (seen : list (entry E T)) (en : entry E T) : de_error E -> Prop :=
  | wrong_key : forall x, en_key en = BadKey x -> wrong seen en (FormatError x)
  | wrong_number : forall n, en_key en = VisitU64 n -> wrong seen en (InvalidType (Unsigned n) (lit "a string"))
  | wrong_again : forall k, key_text en = Some k -> ours k -> ~ unseen k seen -> wrong seen en (DuplicateField k)
  | wrong_value : forall k x, key_text en = Some k -> ours k -> unseen k seen -> en_value en = inr x -> wrong seen en (FormatError x)
  | wrong_other : forall k x, key_text en = Some k -> ~ ours k -> en_ignored en = inr x -> wrong seen en (FormatError x).

Inductive fails {E T} (end_ : option E) : list (entry E T) -> list (entry E T) -> de_error E -> Prop :=
  | fails_here : forall seen en l e, wrong seen en e -> fails end_ seen (en :: l) e
  | fails_later : forall seen en l e, nothing_wrong seen en -> fails end_ (seen ++ [en]) l e -> fails end_ seen (en :: l) e
  | fails_end : forall seen x, end_ = Some x -> fails end_ seen [] (FormatError x)
  | fails_token : forall seen, end_ = None -> unseen (lit "oauth_token") seen -> fails end_ seen [] (MissingField (lit "oauth_token"))
  | fails_secret : forall seen, end_ = None -> ~ unseen (lit "oauth_token") seen -> unseen (lit "oauth_token_secret") seen ->
      fails end_ seen [] (MissingField (lit "oauth_token_secret")).

Lemma unseen_app : forall {E T} k (seen : list (entry E T)) en, unseen k (seen ++ [en]) <-> unseen k seen /\ has_key k en = false.
Proof.
  intros E T k seen en. unfold unseen. rewrite filter_app. cbn [filter]. split.
  - intros H. apply app_eq_nil in H as [H1 H2]. split; [exact H1|]. now destruct (has_key k en).
  - intros [-> ->]. reflexivity.
Qed.

Lemma loop_fails : forall {E T} (end_ : option E) (l seen : list (entry E T)) oi os e,
  (oi = None <-> unseen (lit "oauth_token") seen) -> (os = None <-> unseen (lit "oauth_token_secret") seen) ->
  visit_loop end_ l oi os = inr e <-> fails end_ seen l e.
Proof.
  intros E T end_. induction l as [|en l IH]; intros seen oi os e HI HS.
  - cbn [visit_loop]. split.
    + destruct end_ as [x|]; [intros H; injection H as <-; now constructor|].
      destruct oi as [i|].
      * destruct os as [s|]; [discriminate|]. intros H. injection H as <-. apply fails_secret; [reflexivity| |now apply HS].
        intros K. apply HI in K. discriminate.
      * intros H. injection H as <-. apply fails_token; [reflexivity|now apply HI].
    + intros H. inversion H; subst; try reflexivity.
      * apply HI in H1. subst. reflexivity.
      * apply HS in H2. subst. destruct oi; [reflexivity|]. exfalso. apply H1. now apply HI.
  - cbn [visit_loop]. destruct (en_key en) as [k|k|n|x] eqn:EK.
    3: { cbn [Field_deserialize]. split.
         - intros H. injection H as <-. apply fails_here. now constructor.
         - intros H. inversion H as [? ? ? ? W|? ? ? ? [k [K _]] _| | |]; subst; [|unfold key_text in K; rewrite EK in K; discriminate].
           inversion W; subst; try congruence; unfold key_text in *; rewrite EK in *; discriminate. }
    3: { cbn [Field_deserialize]. split.
         - intros H. injection H as <-. apply fails_here. now constructor.
         - intros H. inversion H as [? ? ? ? W|? ? ? ? [k [K _]] _| | |]; subst; [|unfold key_text in K; rewrite EK in K; discriminate].
           inversion W; subst; try congruence; unfold key_text in *; rewrite EK in *; discriminate. }
    all: assert (KX : key_text en = Some k) by (unfold key_text; now rewrite EK).
    all: assert (NB : forall x, en_key en <> BadKey x) by (intros x; rewrite EK; discriminate).
    all: assert (NU : forall n, en_key en <> VisitU64 n) by (intros n; rewrite EK; discriminate).
    all: clear EK; cbn [Field_deserialize].
    all: assert (FW : forall e, fails end_ seen (en :: l) e <-> wrong seen en e \/ nothing_wrong seen en /\ fails end_ (seen ++ [en]) l e)
      by (intros e0; split; [intros H; inversion H; subst; auto|intros [H|[H1 H2]]; [now apply fails_here|now apply fails_later]]).
    all: rewrite FW; clear FW.
    all: assert (HX : forall k', has_key k' en = bseqb k k') by (intros k'; unfold has_key; now rewrite KX).
    all: unfold field_of.
    all: destruct (bseqb k (lit "oauth_token")) eqn:E1;
      [ apply bseqb_eq in E1; subst k | destruct (bseqb k (lit "oauth_token_secret")) eqn:E2; [apply bseqb_eq in E2; subst k|] ].
    (* the identifier *)
    1, 4: destruct oi as [i|];
      [ assert (NS : ~ unseen (lit "oauth_token") seen) by (intros K; apply HI in K; discriminate);
        split; [intros H; injection H as <-; left; apply wrong_again; [exact KX|now left|exact NS]|];
        intros [W|[(k & K & K1 & _) _]];
        [ inversion W as [x Hb|n Hn|k K _ _|k x K _ U _|k x K NO _]; subst;
          [now elim (NB x)|now elim (NU n)|rewrite KX in K; injection K as <-; reflexivity|rewrite KX in K; injection K as <-; now elim NS|
           rewrite KX in K; injection K as <-; elim NO; now left]
        | rewrite KX in K; injection K as <-; destruct K1 as [U _]; [now left|now elim NS] ]
      | assert (US : unseen (lit "oauth_token") seen) by (apply HI; reflexivity);
        destruct (en_value en) as [v|x] eqn:EV; cbn [lift];
        [ rewrite (IH (seen ++ [en]));
          [ split;
            [ intros H; right; split; [|exact H]; exists (lit "oauth_token"); split; [exact KX|]; split; [intros _; split; [exact US|now exists v]|];
              intros K; elim K; now left
            | intros [W|[_ H]]; [|exact H];
              inversion W as [x Hb|n Hn|k K _ U|k x K _ U Hv|k x K NO _]; subst;
              [now elim (NB x)|now elim (NU n)|rewrite KX in K; injection K as <-; now elim U|congruence|
               rewrite KX in K; injection K as <-; elim NO; now left] ]
          | split; [discriminate|]; rewrite unseen_app, HX; intros [_ K]; discriminate
          | rewrite unseen_app, HX; rewrite HS; split; [intros K; split; [exact K|reflexivity]|intros [K _]; exact K] ]
        | split; [intros H; injection H as <-; left; apply (wrong_value seen en (lit "oauth_token")); [exact KX|now left|exact US|exact EV]|];
          intros [W|[(k & K & K1 & _) _]];
          [ inversion W as [y Hb|n Hn|k K _ U|k y K _ U Hv|k y K NO _]; subst;
            [now elim (NB y)|now elim (NU n)|rewrite KX in K; injection K as <-; now elim U|congruence|
             rewrite KX in K; injection K as <-; elim NO; now left]
          | rewrite KX in K; injection K as <-; destruct K1 as [_ [v Hv]]; [now left|congruence] ] ] ].
    (* the secret *)
    1, 3: destruct os as [i|];
      [ assert (NS : ~ unseen (lit "oauth_token_secret") seen) by (intros K; apply HS in K; discriminate);
        split; [intros H; injection H as <-; left; apply wrong_again; [exact KX|now right|exact NS]|];
        intros [W|[(k & K & K1 & _) _]];
        [ inversion W as [x Hb|n Hn|k K _ _|k x K _ U _|k x K NO _]; subst;
          [now elim (NB x)|now elim (NU n)|rewrite KX in K; injection K as <-; reflexivity|rewrite KX in K; injection K as <-; now elim NS|
           rewrite KX in K; injection K as <-; elim NO; now right]
        | rewrite KX in K; injection K as <-; destruct K1 as [U _]; [now right|now elim NS] ]
      | assert (US : unseen (lit "oauth_token_secret") seen) by (apply HS; reflexivity);
        destruct (en_value en) as [v|x] eqn:EV; cbn [lift];
        [ rewrite (IH (seen ++ [en]));
          [ split;
            [ intros H; right; split; [|exact H]; exists (lit "oauth_token_secret"); split; [exact KX|]; split; [intros _; split; [exact US|now exists v]|];
              intros K; elim K; now right
            | intros [W|[_ H]]; [|exact H];
              inversion W as [x Hb|n Hn|k K _ U|k x K _ U Hv|k x K NO _]; subst;
              [now elim (NB x)|now elim (NU n)|rewrite KX in K; injection K as <-; now elim U|congruence|
               rewrite KX in K; injection K as <-; elim NO; now right] ]
          | rewrite unseen_app, HX; rewrite HI; split; [intros K; split; [exact K|reflexivity]|intros [K _]; exact K]
          | split; [discriminate|]; rewrite unseen_app, HX; intros [_ K]; discriminate ]
        | split; [intros H; injection H as <-; left; apply (wrong_value seen en (lit "oauth_token_secret")); [exact KX|now right|exact US|exact EV]|];
          intros [W|[(k & K & K1 & _) _]];
          [ inversion W as [y Hb|n Hn|k K _ U|k y K _ U Hv|k y K NO _]; subst;
            [now elim (NB y)|now elim (NU n)|rewrite KX in K; injection K as <-; now elim U|congruence|
             rewrite KX in K; injection K as <-; elim NO; now right]
          | rewrite KX in K; injection K as <-; destruct K1 as [_ [v Hv]]; [now right|congruence] ] ] ].
    (* another key *)
    all: assert (NO : ~ ours k) by (intros [->| ->]; [now rewrite bseqb_refl in E1|now rewrite bseqb_refl in E2]).
    all: destruct (en_ignored en) as [u|x] eqn:EV; cbn [lift];
      [ rewrite (IH (seen ++ [en]));
        [ split;
          [ intros H; right; split; [|exact H]; exists k; split; [exact KX|]; split; [intros K; now elim NO|intros _; now exists u]
          | intros [W|[_ H]]; [|exact H];
            inversion W as [x Hb|n Hn|k' K O U|k' x K O U Hv|k' x K _ Hv]; subst;
            [now elim (NB x)|now elim (NU n)|rewrite KX in K; injection K as <-; now elim NO|rewrite KX in K; injection K as <-; now elim NO|congruence] ]
        | rewrite unseen_app, HX, E1; rewrite HI; split; [intros K; split; [exact K|reflexivity]|intros [K _]; exact K]
        | rewrite unseen_app, HX, E2; rewrite HS; split; [intros K; split; [exact K|reflexivity]|intros [K _]; exact K] ]
      | split; [intros H; injection H as <-; left; now apply (wrong_other seen en k)|];
        intros [W|[(k' & K & _ & K1) _]];
        [ inversion W as [y Hb|n Hn|k' K O U|k' y K O U Hv|k' y K _ Hv]; subst;
          [now elim (NB y)|now elim (NU n)|rewrite KX in K; injection K as <-; now elim NO|rewrite KX in K; injection K as <-; now elim NO|congruence]
        | rewrite KX in K; injection K as <-; destruct K1 as [v Hv]; [exact NO|congruence] ] ].
Qed.

(** If it fails, the error is what is wrong first. *)
Theorem C40_errors : forall {E T} (l : list (entry E T)) end_ e,
  Credentials_deserialize (AMap {| ma_entries := l; ma_end := end_ |}) = inr e <-> fails end_ [] l e.
Proof.
  intros E T l end_ e. cbn [Credentials_deserialize ma_entries ma_end]. apply loop_fails; split; reflexivity.
Qed.
Print Assumptions C40_errors.

Theorem C40_round_trip : forall {T E} (c : Credentials T) before after,
  (forall k v, In (k, v) (before ++ after) -> k <> lit "oauth_token" /\ k <> lit "oauth_token_secret") ->
  exists l, Credentials_serialize (map_serializer T E) c = inl l
    /\ l = [(lit "oauth_token", cr_identifier c); (lit "oauth_token_secret", cr_secret c)]
    /\ Credentials_deserialize (read_back E (before ++ l ++ after)) = inl c.
Proof.
  intros T E [i s] before after H. eexists. split; [reflexivity|]. split; [reflexivity|].
  apply C40_accepts. eexists. split; [reflexivity|]. cbn [ma_end ma_entries].
  assert (HN : forall k l, (forall k' v, In (k', v) l -> k' <> k) ->
    filter (has_key k) (map (fun p : bytes * T => {| en_key := VisitStr (fst p); en_value := inl (snd p); en_ignored := inl tt |} : entry E T) l) = []).
  { intros k l Hl. induction l as [|[k' v] l IH]; [reflexivity|]. cbn [map filter fst]. unfold has_key at 1, key_text at 1. cbn [en_key].
    destruct (bseqb k' k) eqn:EQ; [apply bseqb_eq in EQ; subst; elim (Hl k v); [now left|reflexivity]|].
    apply IH. intros k0 v0 H0. apply (Hl k0 v0). now right. }
  split; [reflexivity|]. split.
  - unfold readable. apply Forall_map, Forall_forall. intros [k v] _. exists k. split; [reflexivity|]. intros _ _. now exists tt.
  - unfold once. rewrite !map_app, !filter_app.
    assert (HB : forall k' v, In (k', v) before -> k' <> lit "oauth_token" /\ k' <> lit "oauth_token_secret")
      by (intros k' v K; apply (H k' v), in_app_iff; now left).
    assert (HA : forall k' v, In (k', v) after -> k' <> lit "oauth_token" /\ k' <> lit "oauth_token_secret")
      by (intros k' v K; apply (H k' v), in_app_iff; now right).
    split; rewrite (HN _ before), (HN _ after) by (intros k' v K; first [now apply (HB k' v)|now apply (HA k' v)]);
      eexists; (split; [reflexivity|]); reflexivity.
Qed.
Print Assumptions C40_round_trip.

(** A response body (RFC 5849 section 2.1) read as a form. *)
Definition read_response (body : bytes) : option (Credentials bytes + de_error bytes) :=
  option_map (fun l => Credentials_deserialize (read_back bytes l)) (parse_form body).

Theorem C40_response : forall i s others,
  Forall (fun p => uri_safe (fst p) /\ fst p <> lit "oauth_token" /\ fst p <> lit "oauth_token_secret") others ->
  read_response (form_text (map enc_value ((lit "oauth_token", i) :: (lit "oauth_token_secret", s) :: others)))
  = Some (inl (Cred i s)).
Proof.
  intros i s others H. unfold read_response. rewrite parse_form_text.
  - cbn [option_map]. f_equal. destruct (C40_round_trip (E := bytes) (Cred i s) [] others) as [l [_ [-> K]]]; [|exact K].
    intros k v K. rewrite Forall_forall in H. now apply (H (k, v)).
  - constructor; [now apply safe_name|]. constructor; [now apply safe_name|].
    eapply Forall_impl; [|exact H]. now intros p [K _].
Qed.
Print Assumptions C40_response.

Example C40_example :
  match read_response (lit "oauth_token=token&oauth_token_secret=secret&oauth_callback_confirmed=true") with
  | Some (inl c) => bseqb (cr_identifier c) (lit "token") && bseqb (cr_secret c) (lit "secret")
  | _ => false
  end = true.
Proof. vm_compute. reflexivity. Qed.

(** A token that cannot be read is reported and not the repeated secret after it; without it the secret is. *)
Example C40_errors_example :
  let text n (v : bytes + bytes) := {| en_key := VisitStr (lit n); en_value := v; en_ignored := inl tt |} in
  let secrets := [text "oauth_token_secret"%string (inl (lit "s")); text "oauth_token_secret"%string (inr (lit "e"))] in
  let read l := Credentials_deserialize (AMap {| ma_entries := l; ma_end := None |}) in
  read (text "x"%string (inr (lit "u")) :: text "oauth_token"%string (inr (lit "v")) :: secrets) = inr (FormatError (lit "v"))
  /\ read secrets = inr (DuplicateField (lit "oauth_token_secret"))
  /\ fails None [] secrets (DuplicateField (lit "oauth_token_secret")).
Proof.
  intros text secrets read. split; [reflexivity|split; [reflexivity|]]. now apply C40_errors.
Qed.

(** ** C75 *)

(** How a data format writes a struct: the names of the fields as text or as bytes, their positions,
    or only the values one after the other (bincode and the like); and what it then shows to the
    reader. *)
Inductive style := ByName | ByNameBytes | ByPosition | ValuesOnly.

Fixpoint numbered {A} (n : N) (l : list A) : list (N * A) :=
  match l with [] => [] | x :: l' => (n, x) :: numbered (n + 1) l' end.

Definition shown {T} (E : Type) (st : style) (l : list (bytes * T)) : input E T :=
  let field k v := {| en_key := k; en_value := inl v; en_ignored := inl tt |} in
  match st with
  | ByName => AMap {| ma_entries := map (fun p => field (VisitStr (fst p)) (snd p)) l; ma_end := None |}
  | ByNameBytes => AMap {| ma_entries := map (fun p => field (VisitBytes (fst p)) (snd p)) l; ma_end := None |}
  | ByPosition => AMap {| ma_entries := map (fun q => field (VisitU64 (fst q)) (snd (snd q))) (numbered 0 l); ma_end := None |}
  | ValuesOnly => ASeq (map (fun p => inl (snd p)) l)
  end.

(** What is written can be read back with the same format. *)
Definition reads_back (E : Type) {T} (st : style) (c : Credentials T) : Prop :=
  exists l, Credentials_serialize (map_serializer T E) c = inl l /\ Credentials_deserialize (shown E st l) = inl c.

(** No credentials survive a format that writes no field names: [Serialize] writes them without an
    error, and the same format then fails to read them. *)
Theorem C75_refuted : forall {T E} (c : Credentials T),
  (exists l e, Credentials_serialize (map_serializer T E) c = inl l
     /\ Credentials_deserialize (shown E ValuesOnly l) = inr e)
  /\ (exists l e, Credentials_serialize (map_serializer T E) c = inl l
     /\ Credentials_deserialize (shown E ByPosition l) = inr e).
Proof. intros T E c. split; eexists; eexists; (split; [reflexivity|]); reflexivity. Qed.
Print Assumptions C75_refuted.

(** It works exactly for the formats that write the names. *)
Theorem C75_exact_partial : forall {T E} (c : Credentials T) st,
  reads_back E st c <-> st = ByName \/ st = ByNameBytes.
Proof.
  intros T E [i s] st. split.
  - intros [l [H1 H2]]. injection H1 as <-. destruct st; auto; discriminate H2.
  - intros [->| ->]; eexists; (split; [reflexivity|]); reflexivity.
Qed.
Print Assumptions C75_exact_partial.

(** Some formats (RON and the like) also write the name of the struct and need the number of its fields
    before them: a writer that keeps all it is told sees the type's own name, and as many fields as were
    announced. *)
Definition full_serializer (T E : Type) : Serializer T (bytes * nat * list (bytes * T)) E := {|
  sr_struct := bytes * nat * list (bytes * T);
  serialize_struct name n := inl (name, n, []);
  serialize_field st k v := inl (fst st, snd st ++ [(k, v)]);
  serialize_end st := inl st;
|}.

Theorem C75_announced_partial : forall {T E} (c : Credentials T), exists fields,
  Credentials_serialize (full_serializer T E) c = inl (lit "Credentials", length fields, fields)
  /\ Credentials_serialize (map_serializer T E) c = inl fields
  /\ fields = [(lit "oauth_token", cr_identifier c); (lit "oauth_token_secret", cr_secret c)].
Proof.
  intros T E c. exists [(lit "oauth_token", cr_identifier c); (lit "oauth_token_secret", cr_secret c)].
  split; [|split]; reflexivity.
Qed.
Print Assumptions C75_announced_partial.

Example C75_example :
  match Credentials_deserialize (shown bytes ByNameBytes [(lit "oauth_token", lit "a"); (lit "oauth_token_secret", lit "b")]),
        Credentials_deserialize (shown bytes ValuesOnly [(lit "oauth_token", lit "a"); (lit "oauth_token_secret", lit "b")]) with
  | inl c, inr (InvalidType Seq what) => bseqb (cr_identifier c) (lit "a") && bseqb (cr_secret c) (lit "b") && bseqb what (lit "struct Credentials")
  | _, _ => false
  end = true.
Proof. vm_compute. reflexivity. Qed.
