(** Requests that are written by hand: any finite sequence of calls, whether or not it follows the
    documentation of [Serializer].  What is sent and what is signed, as functions of the calls. *)
From Coq Require Import String.
From Coq Require Import Sorted.
From Verif Require Import Bytes Crypto Spec MFmt MPercent MSerializer MRequest MAuth SpecCalls SpecAuth SpecBuild
  SpecSign.

(** Counting the calls for a nonce and for a timestamp. *)
Definition next_nonce (x : call) (n : nat) : nat := match x with CProto PNonce => S n | _ => n end.
Definition next_time (x : call) (t : nat) : nat := match x with CProto PTimestamp => S t | _ => t end.

(** The protocol parameters that go out, in the order of the calls: one for each call, if it is
    configured.  After [n] calls for a nonce, the next generated one is the [n]-th; likewise for the clock. *)
Fixpoint sent_by (cf : conf) (n t : nat) (cs : list call) : list (proto * bytes) :=
  match cs with
  | [] => []
  | x :: cs' =>
      match x with
      | CProto p => match sent cf n t p with Some v => [(p, v)] | None => [] end
      | _ => []
      end ++ sent_by cf (next_nonce x n) (next_time x t) cs'
  end.

(** Key and once-encoded value of all that is signed, in the order of the calls. *)
Fixpoint signed_by (cf : conf) (n t : nat) (cs : list call) : list pair :=
  match cs with
  | [] => []
  | x :: cs' =>
      match x with
      | CParam k v => [(k, pct_encode (dtext v))]
      | CParamEnc k v => [(k, dtext v)]
      | CProto p => match sent cf n t p with Some v => [(proto_key p, pct_encode v)] | None => [] end
      end ++ signed_by cf (next_nonce x n) (next_time x t) cs'
  end.

(** How protocol parameters are written, and what they say. *)
Definition written (l : list (proto * bytes)) : list pair := map (fun x => (proto_key (fst x), on_wire (fst x) (snd x))) l.
Definition said (l : list (proto * bytes)) : list pair := map (fun x => (proto_key (fst x), snd x)) l.

(** When the calls return, in build configuration [c]: a timestamp can be had if one is asked for; [strict]
    methods need everything to be displayable; a query in the URI and a wrong order are noticed in debug builds. *)
Record returns (strict : bool) (c : cfg) (cf : conf) (uri : disp) (cs : list call) : Prop := {
  rt_time : In PTimestamp (call_protos cs) -> timestamp_available c cf;
  rt_uri : strict = true \/ cf_debug c = true -> dok uri;
  rt_query : cf_debug c = true -> ~ has_question (dtext uri);
  rt_values : strict = true -> Forall displays_ok cs;
  rt_order : cf_alloc c = true -> cf_debug c = true -> ascending (map fst (signed_by cf 0 0 cs));
}.

(** The calls for the name of the signature method. *)
Definition is_method (p : proto) : bool := match p with PSignatureMethod => true | _ => false end.
Definition method_calls (cs : list call) : nat := length (filter is_method (call_protos cs)).

(** What a signature method is fed, in the order of the calls. *)
Fixpoint fed_by (cf : conf) (n t : nat) (cs : list call) : list scall :=
  match cs with
  | [] => []
  | x :: cs' =>
      match x with
      | CParam k v => [SParam k (DoublePercentEncode v)]
      | CParamEnc k v => [SParam k (PercentEncode v)]
      | CProto PTimestamp => if cn_use_timestamp cf then [STimestamp (timestamp_value cf t)] else []
      | CProto p => match sent cf n t p with Some v => [proto_feed cf p v] | None => [] end
      end ++ fed_by cf (next_nonce x n) (next_time x t) cs'
  end.
