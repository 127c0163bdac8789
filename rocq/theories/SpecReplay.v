(** A provider that remembers the requests it has served (RFC 5849 sections 3.2 and 3.3). *)
From Coq Require Import String.
From Verif Require Import Bytes Crypto Spec SpecServer2.

(** A request as it reaches the provider: method, URI, the value of the Authorization header, if any, and the body. *)
Record message := Message { ms_method : bytes; ms_uri : bytes; ms_header : option bytes; ms_body : bytes }.

(** Who makes a request, when, and with which nonce: "The nonce value MUST be unique across all requests with the same
    timestamp, client credentials, and token combinations." *)
Record use := Use { us_client : bytes; us_token : option bytes; us_timestamp : bytes; us_nonce : bytes }.
Definition use_eq_dec (x y : use) : {x = y} + {x <> y}.
Proof. decide equality; try apply (list_eq_dec Byte.byte_eq_dec). decide equality. apply (list_eq_dec Byte.byte_eq_dec). Defined.

(** Each of these parameters must be there once; only the token may be missing. *)
Definition use_of (params : list pair) : option use :=
  match lookup (lit "oauth_consumer_key") params, lookup (lit "oauth_token") params,
        lookup (lit "oauth_timestamp") params, lookup (lit "oauth_nonce") params with
  | [c], [], [t], [n] => Some (Use c None t n)
  | [c], [k], [t], [n] => Some (Use c (Some k) t n)
  | _, _, _, _ => None
  end.

(** All parameters of a request, if it can be read. *)
Definition params_in (m : message) : option (list pair) :=
  match (match ms_header m with Some h => parse_header h | None => Some [] end), parse_uri (ms_uri m), parse_form (ms_body m) with
  | Some h, Some (_, q), Some b => Some (all_params h q b)
  | _, _, _ => None
  end.

(** What the provider knows about a client and a token: how to check its signatures ([hmac_check] with the secrets or
    [rsa_check] with the public key). *)
Definition accounts := bytes -> option bytes -> option (bytes -> bytes -> bytes -> bool).

(** One request: it is served if client and token are known, the signature is right, and it is the first with its client,
    token, timestamp and nonce. *)
Definition serve (a : accounts) (seen : list use) (m : message) : list use * option (list pair) :=
  match params_in m with
  | None => (seen, None)
  | Some params =>
      match use_of params with
      | None => (seen, None)
      | Some u =>
          match a (us_client u) (us_token u) with
          | None => (seen, None)
          | Some check =>
              match server_check check (ms_method m) (ms_uri m) (ms_header m) (ms_body m) with
              | None => (seen, None)
              | Some out => if in_dec use_eq_dec u seen then (seen, None) else (u :: seen, Some out)
              end
          end
      end
  end.

(** A sequence of requests: for each the parameters if it is served. *)
Fixpoint serve_all (a : accounts) (seen : list use) (ms : list message) : list (option (list pair)) :=
  match ms with
  | [] => []
  | m :: ms' => let '(seen', answer) := serve a seen m in answer :: serve_all a seen' ms'
  end.
