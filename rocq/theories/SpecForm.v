(** What a plain form or query shows of a call sequence. *)
From Coq Require Import String.
From Coq Require Import Sorted.
From Verif Require Import Bytes Crypto Spec MFmt MSerializer MRequest SpecCalls.

(** Key and wire text of the request parameters, in call order: the encoded value, or the value as
    it is if it was handed over encoded.  Protocol calls leave no trace. *)
Definition form_fields (cs : list call) : list pair :=
  flat_map (fun c =>
    match c with
    | CParam k v => [(k, pct_encode (dtext v))]
    | CParamEnc k v => [(k, dtext v)]
    | CProto _ => []
    end) cs.

(** The key and displayed text of pairs. *)
Definition texts (l : list kv) : list pair := map (fun p => (fst p, dtext (snd p))) l.

(** Keys that need no encoding. *)
Definition safe_keys (l : list pair) : Prop := Forall (fun p => uri_safe (fst p)) l.

(** RFC 5849 order of (key, encoded value) pairs. *)
Definition pair_le (p q : pair) : Prop := pair_leb p q = true.

(** Names of protocol parameters, which a request's own parameters should not use. *)
Definition oauth_keys : list bytes := lit "oauth_signature" :: map proto_key all_protos.
Definition no_oauth_keys (l : list pair) : Prop := Forall (fun p => ~ In (fst p) oauth_keys) l.

(** The same pair with its value encoded once. *)
Definition enc_value (p : pair) : pair := (fst p, pct_encode (snd p)).

(** [l] are the request's parameters in RFC order: by key, then by encoded value. *)
Definition rfc_sorted (l : list pair) : Prop := StronglySorted pair_le (map enc_value l).

(** The calls [cs] transport the parameters [l]: every value that goes out is the encoding of the
    value in [l]. *)
Definition carries (cs : list call) (l : list pair) : Prop := form_fields cs = map enc_value l.
