(** The examples of RFC 5849, with erratum 2550, and of OAuth Core 1.0a, run on the specification alone: the server of
    the specification accepts the requests that are printed there. *)
From Coq Require Import String.
From Verif Require Import Bytes Crypto Spec SpecServer2.

Definition names (r : option (list pair)) : option (list bytes) := option_map (map fst) r.

(** RFC 5849 section 3.4.1.1. *)
Definition rfc_3_4_1_params : list pair :=
  [(lit "b5", lit "=%3D"); (lit "a3", lit "a"); (lit "c@", []); (lit "a2", lit "r b");
   (lit "oauth_consumer_key", lit "9djdj82h48djs9d2"); (lit "oauth_token", lit "kkk9d7dh3k39sjv7");
   (lit "oauth_signature_method", lit "HMAC-SHA1"); (lit "oauth_timestamp", lit "137131201");
   (lit "oauth_nonce", lit "7d8f3e4a"); (lit "c2", []); (lit "a3", lit "2 q")].
Example rfc_3_4_1_1 : base_string (lit "POST") (lit "http://example.com/request") rfc_3_4_1_params
  = lit "POST&http%3A%2F%2Fexample.com%2Frequest&a2%3Dr%2520b%26a3%3D2%2520q%26a3%3Da%26b5%3D%253D%25253D%26c%2540%3D%26c2%3D%26oauth_consumer_key%3D9djdj82h48djs9d2%26oauth_nonce%3D7d8f3e4a%26oauth_signature_method%3DHMAC-SHA1%26oauth_timestamp%3D137131201%26oauth_token%3Dkkk9d7dh3k39sjv7".
Proof. vm_compute. reflexivity. Qed.

(** Section 3.4.1.3.2. *)
Example rfc_3_4_1_3_2 : normalize rfc_3_4_1_params
  = lit "a2=r%20b&a3=2%20q&a3=a&b5=%3D%253D&c%40=&c2=&oauth_consumer_key=9djdj82h48djs9d2&oauth_nonce=7d8f3e4a&oauth_signature_method=HMAC-SHA1&oauth_timestamp=137131201&oauth_token=kkk9d7dh3k39sjv7".
Proof. vm_compute. reflexivity. Qed.

(** The whole request, with the signature of the erratum; the realm is not signed. *)
Example rfc_3_4_1_request :
  names (server_check (hmac_check (lit "j49sk3j29djd") (Some (lit "dh893hdasih9"))) (lit "POST")
    (lit "http://example.com/request?b5=%3D%253D&a3=a&c%40=&a2=r%20b")
    (Some (lit "OAuth realm=""Example"", oauth_consumer_key=""9djdj82h48djs9d2"", oauth_token=""kkk9d7dh3k39sjv7"", oauth_signature_method=""HMAC-SHA1"", oauth_timestamp=""137131201"", oauth_nonce=""7d8f3e4a"", oauth_signature=""r6%2FTJjbCOr97%2F%2BUU0NsvSne7s5g%3D"""))
    (lit "c2&a3=2+q"))
  = Some (map lit ["oauth_consumer_key"; "oauth_token"; "oauth_signature_method"; "oauth_timestamp"; "oauth_nonce"; "oauth_signature";
                   "b5"; "a3"; "c@"; "a2"; "c2"; "a3"]%string).
Proof. vm_compute. reflexivity. Qed.

(** Section 3.4.1.2. *)
Example rfc_3_4_1_2 :
  base_uri (lit "http://EXAMPLE.COM:80/r%20v/X?id=123") = lit "http://example.com/r%20v/X"
  /\ base_uri (lit "https://www.example.net:8080/?q=1") = lit "https://www.example.net:8080/".
Proof. vm_compute. split; reflexivity. Qed.

(** Section 1.2: the request for token credentials, and the request with them. *)
Example rfc_1_2_token :
  names (server_check (hmac_check (lit "kd94hf93k423kf44") (Some (lit "hdhd0244k9j7ao03"))) (lit "POST")
    (lit "https://photos.example.net/token")
    (Some (lit "OAuth realm=""Photos"", oauth_consumer_key=""dpf43f3p2l4k3l03"", oauth_token=""hh5s93j4hdidpola"", oauth_signature_method=""HMAC-SHA1"", oauth_timestamp=""137131201"", oauth_nonce=""walatlh"", oauth_verifier=""hfdp7dh39dks9884"", oauth_signature=""gKgrFCywp7rO0OXSjdot%2FIHF7IU%3D"""))
    [])
  = Some (map lit ["oauth_consumer_key"; "oauth_token"; "oauth_signature_method"; "oauth_timestamp"; "oauth_nonce"; "oauth_verifier"; "oauth_signature"]%string).
Proof. vm_compute. reflexivity. Qed.
Example rfc_1_2_photo :
  names (server_check (hmac_check (lit "kd94hf93k423kf44") (Some (lit "pfkkdhi9sl3r4s00"))) (lit "GET")
    (lit "http://photos.example.net/photos?file=vacation.jpg&size=original")
    (Some (lit "OAuth realm=""Photos"", oauth_consumer_key=""dpf43f3p2l4k3l03"", oauth_token=""nnch734d00sl2jdk"", oauth_signature_method=""HMAC-SHA1"", oauth_timestamp=""137131202"", oauth_nonce=""chapoH"", oauth_signature=""MdpQcU8iPSUjWoN%2FUDMsK2sui9I%3D"""))
    [])
  = Some (map lit ["oauth_consumer_key"; "oauth_token"; "oauth_signature_method"; "oauth_timestamp"; "oauth_nonce"; "oauth_signature"; "file"; "size"]%string).
Proof. vm_compute. reflexivity. Qed.

(** OAuth Core 1.0a, appendix A.5: the parameters in the query. *)
Example core_a_5 :
  names (server_check (hmac_check (lit "kd94hf93k423kf44") (Some (lit "pfkkdhi9sl3r4s00"))) (lit "GET")
    (lit "http://photos.example.net/photos?file=vacation.jpg&size=original&oauth_consumer_key=dpf43f3p2l4k3l03&oauth_token=nnch734d00sl2jdk&oauth_signature_method=HMAC-SHA1&oauth_signature=tR3%2BTy81lMeYAr%2FFid0kMTYa%2FWM%3D&oauth_timestamp=1191242096&oauth_nonce=kllo9940pd9333jh&oauth_version=1.0")
    None [])
  = Some (map lit ["file"; "size"; "oauth_consumer_key"; "oauth_token"; "oauth_signature_method"; "oauth_signature"; "oauth_timestamp"; "oauth_nonce"; "oauth_version"]%string).
Proof. vm_compute. reflexivity. Qed.

(** Another secret, method, parameter or host, and the request is not accepted. *)
Example core_a_5_wrong :
  let url host extra := lit "http://" ++ host ++ lit "/photos?file=vacation.jpg&size=original&oauth_consumer_key=dpf43f3p2l4k3l03&oauth_token=nnch734d00sl2jdk&oauth_signature_method=HMAC-SHA1&oauth_signature=tR3%2BTy81lMeYAr%2FFid0kMTYa%2FWM%3D&oauth_timestamp=1191242096&oauth_nonce=kllo9940pd9333jh&oauth_version=1.0" ++ extra in
  let check := hmac_check (lit "kd94hf93k423kf44") (Some (lit "pfkkdhi9sl3r4s00")) in
  (server_check check (lit "get") (url (lit "PHOTOS.example.net:80") []) None [] <> None)
  /\ server_check (hmac_check (lit "kd94hf93k423kf44") None) (lit "GET") (url (lit "photos.example.net") []) None [] = None
  /\ server_check check (lit "POST") (url (lit "photos.example.net") []) None [] = None
  /\ server_check check (lit "GET") (url (lit "photos.example.net") (lit "&x")) None [] = None
  /\ server_check check (lit "GET") (url (lit "photos.example.org") []) None [] = None.
Proof. vm_compute. repeat split. discriminate. Qed.
