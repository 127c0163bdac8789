(** C87: signatures that agree by accident are collisions of SHA-1 itself. *)
From Coq Require Import String.
From Coq Require Import Lia Arith Sorted Permutation.
From Verif Require Import Bytes Crypto Spec MFmt MPercent MSerializer MSign MRequest MCredentials MAuth MBuilder ModelTests
  SpecFmt SpecCalls SpecCalls2 SpecAuth SpecBuild SpecForm SpecServer SpecServer2 SpecParams SpecSign
  LBytes LFmt LPercent LTrace LAuth LSign LBuild LForm LBase LReq LReq2 LPanic LTop LParams LServer
  LExample PropsServer PropsHeader PropsSign PropsServer2 PropsRsa PropsForge.
Local Open Scope nat_scope.

(** ** What the signatures are hashes of *)

(** Two different texts with the same SHA-1 digest. *)
Definition collision (x y : bytes) : Prop := x <> y /\ sha1 x = sha1 y.

(** RFC 2104, section 2: the key, hashed if it is longer than a block of 64 bytes, followed by zeros to the length of a
    block; the inner text and the outer text. *)
Definition block (key : bytes) : bytes :=
  let k := if Nat.leb (length key) 64 then key else sha1 key in k ++ repeat x00 (64 - length k).
Definition inner (key text : bytes) : bytes := map (fun b => n2b (N.lxor (bn b) 0x36)) (block key) ++ text.
Definition outer (key text : bytes) : bytes := map (fun b => n2b (N.lxor (bn b) 0x5c)) (block key) ++ sha1 (inner key text).

(** [key] is too long for a block, and its digest without zeros at the end happens to be the key [key']. *)
Definition digest_is (key key' : bytes) : Prop :=
  64 < length key /\ length key' <= 20 /\ exists n, sha1 key = key' ++ repeat x00 n.

(** HMAC does not tell the two keys apart. *)
Definition same_key (key key' : bytes) : Prop :=
  key = key' \/ (64 < length key /\ 64 < length key' /\ collision key key') \/ digest_is key key' \/ digest_is key' key.

(** ** Lemmas *)

Lemma block_model : forall k, hmac_block_key k = block k.
Proof.
  intros k. unfold hmac_block_key, block.
  destruct (Nat.ltb_spec 64 (length k)); destruct (Nat.leb_spec (length k) 64); try lia; reflexivity.
Qed.
Lemma hmac_outer : forall k m, hmac_sha1 k m = sha1 (outer k m).
Proof. intros k m. unfold hmac_sha1, outer, inner. rewrite block_model. reflexivity. Qed.

Lemma block_length : forall k, length (block k) = 64.
Proof.
  intros k. unfold block. destruct (Nat.leb_spec (length k) 64); rewrite app_length, repeat_length; [lia|].
  rewrite sha1_length. lia.
Qed.

Lemma app_same_length : forall (a b x y : bytes), length a = length b -> a ++ x = b ++ y -> a = b /\ x = y.
Proof.
  induction a as [|c a IH]; intros [|d b] x y HL H; try discriminate; [auto|].
  cbn [app] in H. injection H as -> H. injection HL as HL. destruct (IH b x y HL H) as [-> ->]. auto.
Qed.

Lemma map_inj : forall (f : byte -> byte), (forall a b, f a = f b -> a = b) -> forall x y, map f x = map f y -> x = y.
Proof.
  intros f HF. induction x as [|a x IH]; intros [|b y] H; try discriminate; [reflexivity|].
  cbn [map] in H. injection H as HA H. now rewrite (HF _ _ HA), (IH _ H).
Qed.

Lemma xor36_back : forall b, n2b (N.lxor (bn (n2b (N.lxor (bn b) 0x36))) 0x36) = b.
Proof. intros b. destruct b; vm_compute; reflexivity. Qed.
Lemma xor5c_back : forall b, n2b (N.lxor (bn (n2b (N.lxor (bn b) 0x5c))) 0x5c) = b.
Proof. intros b. destruct b; vm_compute; reflexivity. Qed.
Lemma xor36_inj : forall a b, n2b (N.lxor (bn a) 0x36) = n2b (N.lxor (bn b) 0x36) -> a = b.
Proof. intros a b H. rewrite <- (xor36_back a), <- (xor36_back b). now rewrite H. Qed.
Lemma xor5c_inj : forall a b, n2b (N.lxor (bn a) 0x5c) = n2b (N.lxor (bn b) 0x5c) -> a = b.
Proof. intros a b H. rewrite <- (xor5c_back a), <- (xor5c_back b). now rewrite H. Qed.

Lemma inner_inj : forall k m k' m', inner k m = inner k' m' -> block k = block k' /\ m = m'.
Proof.
  intros k m k' m' H. unfold inner in H.
  apply app_same_length in H as [H1 H2]; [|now rewrite !map_length, !block_length].
  split; [|exact H2]. exact (map_inj _ xor36_inj _ _ H1).
Qed.
Lemma outer_inj : forall k m k' m', outer k m = outer k' m' -> block k = block k' /\ sha1 (inner k m) = sha1 (inner k' m').
Proof.
  intros k m k' m' H. unfold outer in H.
  apply app_same_length in H as [H1 H2]; [|now rewrite !map_length, !block_length].
  split; [|exact H2]. exact (map_inj _ xor5c_inj _ _ H1).
Qed.

(** Texts without a zero byte, followed by zeros. *)
Lemma zeros_cut : forall a b n m, ~ In x00 a -> ~ In x00 b -> a ++ repeat x00 n = b ++ repeat x00 m -> a = b.
Proof.
  induction a as [|c a IH]; intros [|d b] n m HA HB H; [reflexivity| | |].
  - cbn [app] in H. destruct n; [discriminate|]. cbn [repeat app] in H. injection H as <- H. exfalso. apply HB. now left.
  - cbn [app] in H. destruct m; [discriminate|]. cbn [repeat app] in H. injection H as -> H. exfalso. apply HA. now left.
  - cbn [app] in H. injection H as -> H. f_equal. apply (IH b n m); auto.
    + intros I. apply HA. now right.
    + intros I. apply HB. now right.
Qed.

(** A text [b] without zero bytes, followed by zeros, that is [a] followed by zeros. *)
Lemma zeros_prefix : forall a b n m, ~ In x00 b -> a ++ repeat x00 n = b ++ repeat x00 m -> length b <= length a /\
  exists j, a = b ++ repeat x00 j.
Proof.
  intros a b n m HB H. assert (L : length b <= length a).
  { destruct (Nat.le_gt_cases (length b) (length a)) as [L|L]; [exact L|]. exfalso. apply HB.
    assert (E : nth (length a) (a ++ repeat x00 n) xff = nth (length a) (b ++ repeat x00 m) xff) by now rewrite H.
    rewrite (app_nth1 b) in E by exact L. rewrite app_nth2, Nat.sub_diag in E by lia.
    destruct n.
    - apply (f_equal (@length byte)) in H. rewrite !app_length, !repeat_length in H. lia.
    - cbn [repeat nth] in E. rewrite E. now apply nth_In. }
  split; [exact L|]. exists (length a - length b).
  assert (LM : length a - length b <= m).
  { apply (f_equal (@length byte)) in H. rewrite !app_length, !repeat_length in H. lia. }
  apply (f_equal (firstn (length a))) in H. rewrite firstn_app, Nat.sub_diag, firstn_all in H. cbn [firstn] in H.
  rewrite app_nil_r in H. rewrite firstn_app, firstn_all2 in H by exact L. rewrite H at 1. f_equal.
  clear - LM. revert LM. generalize (length a - length b). intros j. revert m. induction j as [|j IH]; intros m LM; [reflexivity|].
  destruct m; [lia|]. cbn [repeat firstn]. f_equal. apply IH. lia.
Qed.

Lemma key_no_zero : forall cs ts, ~ In x00 (signing_key cs ts).
Proof.
  intros cs ts H. unfold signing_key in H. apply in_app_iff in H as [H|H].
  - apply pct_encode_chars in H as [H|H]; discriminate.
  - apply in_app_iff in H as [[H|[]]|H]; [discriminate|]. apply pct_encode_chars in H as [H|H]; discriminate.
Qed.

Lemma block_same : forall k k', ~ In x00 k -> ~ In x00 k' -> (block k = block k' <-> same_key k k').
Proof.
  intros k k' HK HK'. unfold block, same_key, digest_is, collision.
  destruct (Nat.leb_spec (length k) 64) as [L|L]; destruct (Nat.leb_spec (length k') 64) as [L'|L']; cbv zeta.
  - split.
    + intros H. left. exact (zeros_cut _ _ _ _ HK HK' H).
    + intros [->|[[? _]|[[? _]|[? _]]]]; [reflexivity|lia..].
  - rewrite sha1_length. split.
    + intros H. apply eq_sym in H. destruct (zeros_prefix _ _ _ _ HK H) as [B [j E]]. rewrite sha1_length in B.
      right. right. right. split; [exact L'|]. split; [exact B|]. now exists j.
    + intros [->|[[? _]|[[? _]|[_ [B [n E]]]]]]; [lia..|]. rewrite E, <- app_assoc, <- repeat_app. f_equal. f_equal.
      apply (f_equal (@length byte)) in E. rewrite sha1_length, app_length, repeat_length in E. lia.
  - rewrite sha1_length. split.
    + intros H. destruct (zeros_prefix _ _ _ _ HK' H) as [B [j E]]. rewrite sha1_length in B.
      right. right. left. split; [exact L|]. split; [exact B|]. now exists j.
    + intros [->|[[_ [? _]]|[[_ [B [n E]]]|[? _]]]]; [lia..| |lia]. rewrite E, <- app_assoc, <- repeat_app. f_equal. f_equal.
      apply (f_equal (@length byte)) in E. rewrite sha1_length, app_length, repeat_length in E. lia.
  - rewrite !sha1_length. split.
    + intros H. apply app_inv_tail in H. destruct (list_eq_dec Byte.byte_eq_dec k k') as [E|N]; [now left|].
      right. left. auto.
    + intros [->|[[_ [_ [_ ->]]]|[[_ [B _]]|[_ [B _]]]]]; [reflexivity|reflexivity|lia..].
Qed.

(** ** C87 *)

(** Two HMACs under the keys of two pairs of secrets agree exactly if the keys are the same for HMAC and the texts are
    the same or collide behind the key, or if the outer texts collide. *)
Theorem C87_hmac : forall cs ts text cs' ts' text',
  let key := signing_key cs ts in
  let key' := signing_key cs' ts' in
  hmac_sha1 key text = hmac_sha1 key' text' <->
  same_key key key' /\ (text = text' \/ collision (inner key text) (inner key' text'))
  \/ collision (outer key text) (outer key' text').
Proof.
  intros cs ts text cs' ts' text'. cbv zeta.
  pose proof (key_no_zero cs ts) as Z. pose proof (key_no_zero cs' ts') as Z'.
  revert Z Z'. generalize (signing_key cs ts) as k. generalize (signing_key cs' ts') as k'. intros k' k Z Z'.
  rewrite !hmac_outer. split.
  - intros H. destruct (list_eq_dec Byte.byte_eq_dec (outer k text) (outer k' text')) as [E|N]; [left|right; now split].
    apply outer_inj in E as [E1 E2]. split; [now apply block_same|].
    destruct (list_eq_dec Byte.byte_eq_dec (inner k text) (inner k' text')) as [E|N].
    + left. exact (proj2 (inner_inj _ _ _ _ E)).
    + right. now split.
  - intros [[K H]|[_ H]]; [|exact H]. apply block_same in K; [|exact Z|exact Z']. unfold outer. rewrite K.
    assert (E : sha1 (inner k text) = sha1 (inner k' text')).
    { destruct H as [->|[_ H]]; [|exact H]. unfold inner. now rewrite K. }
    now rewrite E.
Qed.
Print Assumptions C87_hmac.

(** Keys that fit into a block are told apart. *)
Theorem C87_short_keys : forall cs ts cs' ts',
  length (signing_key cs ts) <= 64 -> length (signing_key cs' ts') <= 64 ->
  (same_key (signing_key cs ts) (signing_key cs' ts') <-> same_secrets cs ts cs' ts').
Proof.
  intros cs ts cs' ts' L L'. unfold same_key, digest_is, same_secrets. rewrite <- C20_signing_key. split.
  - intros [H|[[? _]|[[? _]|[? _]]]]; [exact H|lia..].
  - now left.
Qed.
Print Assumptions C87_short_keys.

(** A signature by the builder with which any request passes a server that knows any secrets: the server's secrets are
    those of the builder and the request is the signed one, or two different texts, made of the two keys and the two base
    strings as below, have the same SHA-1 digest, or the digest of one key is the other key. *)
Theorem C87_server : forall c e b method uri r l s client token method' uri' header' body' out,
  bd_signature_method b = HMAC_SHA1 -> honest r l -> normal_method method ->
  client_signature c e b method uri r s ->
  server_check (hmac_check client token) method' uri' header' body' = Some out ->
  lookup (lit "oauth_signature") out = [s] ->
  exists base q, parse_uri uri' = Some (base, q)
    /\ (map to_upper method' = map to_upper method /\ base_uri base = uri
        /\ Permutation (unsigned out) (protocol_pairs (hmac_conf e b) ++ l)
        /\ same_secrets (client_secret b) (token_secret b) client token
        \/ let text := base_string method uri (protocol_pairs (hmac_conf e b) ++ l) in
           let text' := base_string method' (base_uri base) (unsigned out) in
           let key := signing_key (client_secret b) (token_secret b) in
           let key' := signing_key client token in
           collision key key' \/ collision (inner key text) (inner key' text') \/ collision (outer key text) (outer key' text')
           \/ digest_is key key' \/ digest_is key' key).
Proof.
  intros c e b method uri r l s client token method' uri' header' body' out HB HR HM HC H HL.
  destruct (C73_hmac c e b method uri r l s client token method' uri' header' body' out HB HR HM HC H HL)
    as [base [q [HP [D|[N D]]]]]; exists base, q; (split; [exact HP|]); [now left|].
  right. cbv zeta. apply C87_hmac in D as [[K D]|D]; [|auto].
  destruct D as [D|D]; [|auto]. rewrite D in N. unfold same_key in K. destruct K as [K|[[_ [_ K]]|[K|K]]]; auto.
  exfalso. apply N. now rewrite K.
Qed.
Print Assumptions C87_server.

(** What the builder sends passes a server with other secrets exactly in these cases; with keys of up to 64 bytes only if
    the outer texts collide. *)
Theorem C87_other_secrets : forall c e b r l method uri d client token,
  bd_signature_method b = HMAC_SHA1 -> timestamp_available c (hmac_conf e b) ->
  honest r l -> normal_method method -> normal_uri uri -> dtext d = uri -> dok d ->
  ~ same_secrets (client_secret b) (token_secret b) client token ->
  let text := base_string method uri (protocol_pairs (hmac_conf e b) ++ l) in
  let key := signing_key (client_secret b) (token_secret b) in
  let key' := signing_key client token in
  exists header body,
    Builder_authorize c e b method d r = Ok header /\ to_form r = Ok body
    /\ (server_check (hmac_check client token) method uri (Some header) body <> None <->
        collision (outer key text) (outer key' text)
        \/ 64 < length key /\ 64 < length key' /\ collision key key' \/ digest_is key key' \/ digest_is key' key).
Proof.
  intros c e b r l method uri d client token HB HT HR HM HU HD HO HS text key key'.
  destruct (C73_other_secrets c e b r l method uri d client token HB HT HR HM HU HD HO HS) as [header [body [H1 [H2 H3]]]].
  exists header, body. split; [exact H1|]. split; [exact H2|]. rewrite H3. cbv zeta. fold text key key'.
  pose proof (C87_hmac (client_secret b) (token_secret b) text client token text) as C. cbv zeta in C. fold key key' in C.
  rewrite C. unfold same_key.
  assert (NK : key <> key') by (intros E; apply HS; now apply C20_signing_key).
  split.
  - intros [[[K|K] _]|K]; [congruence|auto|auto].
  - intros [K|K]; [auto|]. left. split; [now right|now left].
Qed.
Print Assumptions C87_other_secrets.

(** The definitions at work: a key of 67 bytes is replaced by its digest. *)
Example C87_example :
  length (signing_key (repeat "a"%byte 66) None) = 67
  /\ firstn 20 (block (signing_key (repeat "a"%byte 66) None)) = sha1 (signing_key (repeat "a"%byte 66) None)
  /\ block (signing_key (lit "kd94hf93k423kf44") (Some (lit "pfkkdhi9sl3r4s00"))) = lit "kd94hf93k423kf44&pfkkdhi9sl3r4s00" ++ repeat x00 31
  /\ ~ same_secrets (lit "a") (Some (lit "b")) (lit "a") (Some (lit "c")).
Proof.
  split; [reflexivity|]. split; [vm_compute; reflexivity|]. split; [vm_compute; reflexivity|].
  intros [_ H]. discriminate H.
Qed.
