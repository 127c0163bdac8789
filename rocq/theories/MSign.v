(** Model of oauth1-request/src/signature_method.rs and signature_method/{digest_common,hmac_sha1,
    plaintext,rsa_sha1,either}.rs. *)
From Coq Require Import String.
From Verif Require Import Bytes Crypto MFmt MPercent.

(** signature_method.rs:132-207, trait [Sign].  A method that takes [&mut self] returns the new
    state or panics.  [use_nonce], [use_timestamp] and [get_signature_method_name] take [&self] and
    are assumed not to panic (simplification). *)
Record Sign := {
  sg_st :> Type;
  sg_name : sg_st -> bytes;                                   (** get_signature_method_name *)
  sg_request_method : sg_st -> bytes -> res sg_st;
  sg_uri : sg_st -> disp -> res sg_st;
  sg_parameter : sg_st -> bytes -> disp -> res sg_st;
  sg_delimiter : sg_st -> res sg_st;
  sg_end : sg_st -> res disp;                                 (** Self::Signature: Display *)
  sg_callback : sg_st -> disp -> res sg_st;
  sg_consumer_key : sg_st -> disp -> res sg_st;
  sg_nonce : sg_st -> disp -> res sg_st;
  sg_use_nonce : sg_st -> bool;
  sg_signature_method : sg_st -> res sg_st;
  sg_timestamp : sg_st -> N -> res sg_st;
  sg_use_timestamp : sg_st -> bool;
  sg_token : sg_st -> disp -> res sg_st;
  sg_verifier : sg_st -> disp -> res sg_st;
  sg_version : sg_st -> res sg_st;
}.
Arguments sg_name {s} _ : rename.
Arguments sg_request_method {s} _ _ : rename.
Arguments sg_uri {s} _ _ : rename.
Arguments sg_parameter {s} _ _ _ : rename.
Arguments sg_delimiter {s} _ : rename.
Arguments sg_end {s} _ : rename.
Arguments sg_callback {s} _ _ : rename.
Arguments sg_consumer_key {s} _ _ : rename.
Arguments sg_nonce {s} _ _ : rename.
Arguments sg_use_nonce {s} _ : rename.
Arguments sg_signature_method {s} _ : rename.
Arguments sg_timestamp {s} _ _ : rename.
Arguments sg_use_timestamp {s} _ : rename.
Arguments sg_token {s} _ _ : rename.
Arguments sg_verifier {s} _ _ : rename.
Arguments sg_version {s} _ : rename.

(** [Display for u64]: the decimal digits in one [write_str].
    (signature_method.rs:184-186) *)
Definition dnum (n : N) : disp := dstr (decimal n).

(** A [Sign] that overrides none of the provided methods: signature_method.rs:58-78 ([provide!]),
    158, 166-168, 175-177, 184-186, 194-196, 198, 204-206. *)
Definition default_sign (St : Type)
    (name : St -> bytes)
    (request_method : St -> bytes -> res St)
    (uri : St -> disp -> res St)
    (parameter : St -> bytes -> disp -> res St)
    (delimiter : St -> res St)
    (fin : St -> res disp) : Sign :=
  {| sg_st := St;
     sg_name := name;
     sg_request_method := request_method;
     sg_uri := uri;
     sg_parameter := parameter;
     sg_delimiter := delimiter;
     sg_end := fin;
     sg_callback := fun s v => parameter s (lit "oauth_callback") v;
     sg_consumer_key := fun s v => parameter s (lit "oauth_consumer_key") v;
     sg_nonce := fun s v => parameter s (lit "oauth_nonce") v;
     sg_use_nonce := fun _ => true;
     sg_signature_method := fun s => parameter s (lit "oauth_signature_method") (dstr (name s));
     sg_timestamp := fun s n => parameter s (lit "oauth_timestamp") (dnum n);
     sg_use_timestamp := fun _ => true;
     sg_token := fun s v => parameter s (lit "oauth_token") v;
     sg_verifier := fun s v => parameter s (lit "oauth_verifier") v;
     sg_version := fun s => parameter s (lit "oauth_version") (dstr (lit "1.0")) |}.

(** signature_method.rs:50-56, trait [SignatureMethod], as the value it is called on. *)
Record SignatureMethod := {
  sm_sign : Sign;
  sm_sign_with : bytes -> option bytes -> res sm_sign;
}.

(** signature_method.rs:209-220 [write_signing_key], as the [Display]-like sequence of writes it
    performs on [dst]: [write!(dst, "{}", pct(cs))?; dst.write_str("&")?; write!(dst, "{}", pct(ts))?]. *)
Definition write_signing_key (client_secret : bytes) (token_secret : option bytes) : disp :=
  dseq (percent_encode client_secret)
    (dseq (dstr (lit "&"))
       (match token_secret with
        | Some ts => percent_encode ts
        | None => DRet true
        end)).

(** ** digest_common.rs *)

(** Anything that implements [digest::Update]: here a digest is represented by the bytes it has
    been fed (crates [sha1], [hmac]); [update] appends.
    (digest_common.rs:16-33) *)
Definition update (fed : bytes) (b : bytes) : bytes := fed ++ b.

(** digest_common.rs:46-51 [Write for UpdateWrite]. *)
Definition UpdateWrite : Writer :=
  {| W := bytes; write_str := fun fed s => Ok (update fed s, true) |}.

(** digest_common.rs:16-19 [UpdateSign::request_method]. *)
Definition us_request_method (fed : bytes) (method : bytes) : bytes :=
  update (update fed method) (lit "&").

(** digest_common.rs:21-23 [UpdateSign::uri]: [write!(.., "{}&", uri).unwrap()]. *)
Definition us_uri (fed : bytes) (uri : disp) : res bytes :=
  write_unwrap (w := UpdateWrite) (dseq uri (dstr (lit "&"))) fed.

(** digest_common.rs:25-29 [UpdateSign::parameter]. *)
Definition us_parameter (fed : bytes) (key : bytes) (value : disp) : res bytes :=
  write_unwrap (w := UpdateWrite) value (update (update fed key) (lit "%3D")).

(** digest_common.rs:31-33 [UpdateSign::delimiter]. *)
Definition us_delimiter (fed : bytes) : bytes := update fed (lit "%26").

(** digest_common.rs:36-44 [Display for Base64PercentEncodeDisplay].  [Base64Display] writes the
    base 64 text; it is modelled as one write (the crate may split long inputs; theorem C01 shows
    the split does not matter). *)
Definition Base64PercentEncodeDisplay (a : bytes) : disp :=
  PercentEncode (dstr (base64 b64_std true a)).

(** ** hmac_sha1.rs *)

(** hmac_sha1.rs:39-46 [SigningKey].  The 64-byte block buffer and the write position are kept as
    in the code; [Digest] holds the bytes fed to the SHA-1 state. *)
Inductive SigningKey :=
  | Key (buf : bytes) (pos : nat)
  | Digest (fed : bytes).

(** hmac_sha1.rs:112-117 [SigningKey::new]; the SHA-1 block size is 64. *)
Definition SigningKey_new : SigningKey := Key (repeat x00 64) 0.

(** [buf[a..b].copy_from_slice(input)]: panics if the range is out of bounds or the lengths
    differ.
    (hmac_sha1.rs:131) *)
Definition copy_into (buf : bytes) (a b : nat) (input : bytes) : res bytes :=
  if (Nat.leb a b && Nat.leb b (length buf) && Nat.eqb (b - a) (length input))%bool
  then Ok (firstn a buf ++ input ++ skipn b buf)
  else Panic PIndex.

(** hmac_sha1.rs:119-141 [SigningKey::write].  [buf.len() - *pos] is a [usize] subtraction, which
    panics (debug) or wraps (release) on underflow: modelled as an index panic. *)
Definition SigningKey_write (k : SigningKey) (input : bytes) : res SigningKey :=
  match k with
  | Key buf pos =>
      if Nat.ltb (length buf) pos then Panic PIndex
      else if Nat.ltb (length buf - pos) (length input) then
        head <- slice buf 0 pos ;;
        Ok (Digest (update (update [] head) input))
      else
        buf' <- copy_into buf pos (pos + length input) input ;;
        Ok (Key buf' (pos + length input))
  | Digest fed => Ok (Digest (update fed input))
  end.

(** hmac_sha1.rs:151-156 [Write for SigningKey]. *)
Definition SigningKeyW : Writer :=
  {| W := SigningKey;
     write_str := fun k s => k' <- SigningKey_write k s ;; Ok (k', true) |}.

(** The state of [UpdateSign<Hmac<Sha1>>]: the HMAC key and the bytes fed so far.
    [Hmac::new_from_slice] accepts keys of every length.
    (hmac_sha1.rs:26-30, 143-149) *)
Record HmacState := { hm_key : bytes; hm_fed : bytes }.

(** hmac_sha1.rs:143-149 [SigningKey::into_hmac]. *)
Definition into_hmac (k : SigningKey) : res HmacState :=
  match k with
  | Key buf pos => key <- slice buf 0 pos ;; Ok {| hm_key := key; hm_fed := [] |}
  | Digest fed => Ok {| hm_key := sha1 fed; hm_fed := [] |}
  end.

(** hmac_sha1.rs:75-103 [Sign for HmacSha1Sign]. *)
Definition HmacSha1Sign : Sign :=
  default_sign HmacState
    (fun _ => lit "HMAC-SHA1")
    (fun s m => Ok {| hm_key := hm_key s; hm_fed := us_request_method (hm_fed s) m |})
    (fun s u => f <- us_uri (hm_fed s) u ;; Ok {| hm_key := hm_key s; hm_fed := f |})
    (fun s k v => f <- us_parameter (hm_fed s) k v ;; Ok {| hm_key := hm_key s; hm_fed := f |})
    (fun s => Ok {| hm_key := hm_key s; hm_fed := us_delimiter (hm_fed s) |})
    (fun s => Ok (Base64PercentEncodeDisplay (hmac_sha1 (hm_key s) (hm_fed s)))).

(** hmac_sha1.rs:63-73 [SignatureMethod for HmacSha1]. *)
Definition HMAC_SHA1 : SignatureMethod :=
  {| sm_sign := HmacSha1Sign;
     sm_sign_with := fun cs ts =>
       key <- write_unwrap (w := SigningKeyW) (write_signing_key cs ts) SigningKey_new ;;
       into_hmac key |}.

(** ** plaintext.rs *)

(** A type usable as [W: Default + Display + Write].
    (plaintext.rs:87-98) *)
Record Buffer := {
  bf_w :> Writer;
  bf_default : bf_w;
  bf_display : bf_w -> disp;
}.

(** [String]
    (plaintext.rs:30-31) *)
Definition StringB : Buffer :=
  {| bf_w := StringW; bf_default := ([] : bytes); bf_display := dstr |}.

(** plaintext.rs:100-127 [Sign for PlaintextSign<W>]. *)
Definition PlaintextSign (b : Buffer) : Sign :=
  default_sign (W b)
    (fun _ => lit "PLAINTEXT")
    (fun s _ => Ok s)
    (fun s _ => Ok s)
    (fun s _ _ => Ok s)
    (fun s => Ok s)
    (fun s => Ok (bf_display b s)).

(** plaintext.rs:87-98 [SignatureMethod for Plaintext<W>]. *)
Definition Plaintext (b : Buffer) : SignatureMethod :=
  {| sm_sign := PlaintextSign b;
     sm_sign_with := fun cs ts =>
       write_unwrap (w := b) (write_signing_key cs ts) (bf_default b) |}.

(** plaintext.rs:30-31 [PLAINTEXT]. *)
Definition PLAINTEXT : SignatureMethod := Plaintext StringB.

(** ** rsa_sha1.rs *)

(** A private key, reduced to what the crate uses: [RsaPrivateKey::sign(Pkcs1v15Sign(SHA-1), digest)],
    which may fail ([None]).  Any function can stand for it.  The two versions of the [rsa] crate differ in how the padding is
    named only (rsa_sha1_06.rs:11-13, rsa_sha1_09.rs:11-13).  [RsaSha1] wraps a key: [new], [From] and [AsRef], a cast between
    types of the same layout, leave it as it is (rsa_sha1.rs:19, 35-61).
    (rsa_sha1.rs:144) *)
Definition RsaKey := bytes -> option bytes.

(** The state of [RsaSha1Sign<K>]: the key (owned or borrowed) and the bytes fed to SHA-1.
    (rsa_sha1.rs:18-35) *)
Record RsaState := { rs_key : RsaKey; rs_fed : bytes }.

(** rsa_sha1.rs:141-148 [end] for the borrowed key. *)
Definition rsa_end_ref (s : RsaState) : res disp :=
  match rs_key s (sha1 (rs_fed s)) with
  | Some signature => Ok (Base64PercentEncodeDisplay signature)
  | None => Panic PRsa
  end.

(** rsa_sha1.rs:109-115 [end] for the owned key: rebuilds the state with [&self.key]. *)
Definition rsa_end_owned (s : RsaState) : res disp :=
  rsa_end_ref {| rs_key := rs_key s; rs_fed := rs_fed s |}.

(** rsa_sha1.rs:86-116 and 118-149, which differ only in [end]. *)
Definition rsa_sign (fin : RsaState -> res disp) : Sign :=
  default_sign RsaState
    (fun _ => lit "RSA-SHA1")
    (fun s m => Ok {| rs_key := rs_key s; rs_fed := us_request_method (rs_fed s) m |})
    (fun s u => f <- us_uri (rs_fed s) u ;; Ok {| rs_key := rs_key s; rs_fed := f |})
    (fun s k v => f <- us_parameter (rs_fed s) k v ;; Ok {| rs_key := rs_key s; rs_fed := f |})
    (fun s => Ok {| rs_key := rs_key s; rs_fed := us_delimiter (rs_fed s) |})
    fin.

(** rsa_sha1.rs:64-73 [SignatureMethod for RsaSha1]; the secrets are ignored. *)
Definition RsaSha1 (key : RsaKey) : SignatureMethod :=
  {| sm_sign := rsa_sign rsa_end_owned;
     sm_sign_with := fun _ _ => Ok ({| rs_key := key; rs_fed := [] |} : rsa_sign rsa_end_owned) |}.

(** rsa_sha1.rs:75-84 [SignatureMethod for &RsaSha1]. *)
Definition RsaSha1_ref (key : RsaKey) : SignatureMethod :=
  {| sm_sign := rsa_sign rsa_end_ref;
     sm_sign_with := fun _ _ => Ok ({| rs_key := key; rs_fed := [] |} : rsa_sign rsa_end_ref) |}.

(** ** either.rs *)

(** The macro [delegate!] (either.rs:1-74): the call goes to the side that is there. *)
Definition either_mut {L R : Type} (e : L + R) (fl : L -> res L) (fr : R -> res R) : res (L + R) :=
  match e with
  | inl l => l' <- fl l ;; Ok (inl l')
  | inr r => r' <- fr r ;; Ok (inr r')
  end.

(** either.rs:48-74 [Sign for Either<L, R>].  The list of delegated methods does not contain
    [consumer_key], so that method is the provided one, which calls the delegated [parameter]. *)
Definition EitherSign (L R : Sign) : Sign :=
  {| sg_st := (L + R)%type;
     sg_name := fun e => match e with inl l => sg_name l | inr r => sg_name r end;
     sg_request_method := fun e m =>
       either_mut e (fun l => sg_request_method l m) (fun r => sg_request_method r m);
     sg_uri := fun e u => either_mut e (fun l => sg_uri l u) (fun r => sg_uri r u);
     sg_parameter := fun e k v =>
       either_mut e (fun l => sg_parameter l k v) (fun r => sg_parameter r k v);
     sg_delimiter := fun e => either_mut e (fun l => sg_delimiter l) (fun r => sg_delimiter r);
     sg_end := fun e => match e with inl l => sg_end l | inr r => sg_end r end;
     sg_callback := fun e v => either_mut e (fun l => sg_callback l v) (fun r => sg_callback r v);
     sg_consumer_key := fun e v =>
       either_mut e (fun l => sg_parameter l (lit "oauth_consumer_key") v)
                    (fun r => sg_parameter r (lit "oauth_consumer_key") v);
     sg_nonce := fun e v => either_mut e (fun l => sg_nonce l v) (fun r => sg_nonce r v);
     sg_use_nonce := fun e => match e with inl l => sg_use_nonce l | inr r => sg_use_nonce r end;
     sg_signature_method := fun e =>
       either_mut e (fun l => sg_signature_method l) (fun r => sg_signature_method r);
     sg_timestamp := fun e n => either_mut e (fun l => sg_timestamp l n) (fun r => sg_timestamp r n);
     sg_use_timestamp := fun e =>
       match e with inl l => sg_use_timestamp l | inr r => sg_use_timestamp r end;
     sg_token := fun e v => either_mut e (fun l => sg_token l v) (fun r => sg_token r v);
     sg_verifier := fun e v => either_mut e (fun l => sg_verifier l v) (fun r => sg_verifier r v);
     sg_version := fun e => either_mut e (fun l => sg_version l) (fun r => sg_version r) |}.

(** either.rs:8-17 [SignatureMethod for Either<L, R>]. *)
Definition Either_Left (l : SignatureMethod) (R : Sign) : SignatureMethod :=
  {| sm_sign := EitherSign (sm_sign l) R;
     sm_sign_with := fun cs ts => s <- sm_sign_with l cs ts ;; Ok (inl s : EitherSign (sm_sign l) R) |}.
Definition Either_Right (L : Sign) (r : SignatureMethod) : SignatureMethod :=
  {| sm_sign := EitherSign L (sm_sign r);
     sm_sign_with := fun cs ts => s <- sm_sign_with r cs ts ;; Ok (inr s : EitherSign L (sm_sign r)) |}.
