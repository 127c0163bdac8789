(** A server that has no other implementation of OAuth than this crate: it reads a request with the
    parsers of Spec.v, configures a builder with what it has read, signs again and compares. *)
From Coq Require Import String.
From Verif Require Import Bytes Crypto Spec MFmt MSign MSerializer MRequest MCredentials MAuth MBuilder SpecCalls SpecForm.

(** The values of a parameter that is absent or has one value. *)
Definition listed (v : option bytes) : list bytes := match v with Some x => [x] | None => [] end.

(** The builder [b] is configured with the parameters [h] of a header: identifiers, nonce,
    timestamp, callback, verifier and version are those received; nothing else was received but the
    signature, its method and perhaps a realm.  The builder takes a timestamp as [NonZeroU64].  (Where the secrets come from is up to the
    server.) *)
Record set_up_from (h : list pair) (b : Builder) : Prop := {
  su_names : forall p, In p h -> fst p = lit "realm" \/ In (fst p) oauth_keys;
  su_client : lookup (lit "oauth_consumer_key") h = [cr_identifier (bd_client b)];
  su_token : lookup (lit "oauth_token") h = listed (option_map cr_identifier (bd_token b));
  su_nonce : exists n, lookup (lit "oauth_nonce") h = [n] /\ op_nonce (bd_options b) = Some n;
  su_timestamp : exists t, lookup (lit "oauth_timestamp") h = [decimal t] /\ op_timestamp (bd_options b) = Some t
    /\ (0 < t < 2 ^ 64)%N;
  su_callback : lookup (lit "oauth_callback") h = listed (op_callback (bd_options b));
  su_verifier : lookup (lit "oauth_verifier") h = listed (op_verifier (bd_options b));
  su_version : lookup (lit "oauth_version") h = if op_version (bd_options b) then [lit "1.0"] else [];
  su_method : lookup (lit "oauth_signature_method") h = [lit "HMAC-SHA1"];
}.

(** A received parameter, as it is given to the crate. *)
Definition as_kv (p : pair) : kv := (fst p, dstr (snd p)).

(** Signs again with [b] what was received and compares the signatures.  The parameters of query and
    body are given to a [ParameterList], the URI without its query to [authorize].  A request that
    is accepted is answered with its header parameters and its other parameters. *)
Definition signs_again (c : cfg) (e : env) (sort : sorter) (b : Builder) (method uri header body : bytes)
  : res (option (list pair * list pair)) :=
  match parse_header header, parse_uri uri, parse_form body with
  | Some h, Some (base, q), Some f =>
      let params := pl_new sort (map as_kv (q ++ f)) in
      again <- Builder_authorize c e b method (dstr (base_uri base)) (Request_pl (cf_debug c) params) ;;
      match parse_header again with
      | Some h' =>
          match lookup (lit "oauth_signature") h, lookup (lit "oauth_signature") h' with
          | [received], [computed] => Ok (if bseqb received computed then Some (h, q ++ f) else None)
          | _, _ => Ok None
          end
      | None => Ok None
      end
  | _, _, _ => Ok None
  end.
