{
 "claims": [
  {
   "property": "C01",
   "status": "proved",
   "theorems": [
    "C01_header_values",
    "C01_percent_encode",
    "C01_percent_encode_any_writer",
    "C01_chunking_irrelevant",
    "C01_form_value",
    "C01_query_value"
   ],
   "note": ""
  },
  {
   "property": "C02",
   "status": "proved",
   "theorems": [
    "C02_decode",
    "C02_injective",
    "C02_alphabet",
    "C02_fixed_points"
   ],
   "note": ""
  },
  {
   "property": "C03",
   "status": "proved",
   "theorems": [
    "C03_double_encode",
    "C03_twice",
    "C03_double_encode_any_writer",
    "C03_table",
    "C03_bit_map",
    "C03_signed"
   ],
   "note": ""
  },
  {
   "property": "C04",
   "status": "proved",
   "theorems": [
    "C04_no_panic",
    "C04_no_panic_run",
    "C04_ascii"
   ],
   "note": ""
  },
  {
   "property": "C05",
   "status": "proved",
   "theorems": [
    "C05_derived",
    "C05_calls",
    "C05_calls_unique",
    "C05_protocol_calls",
    "C05_all_protocol_parameters",
    "C05_alphabetical"
   ],
   "note": ""
  },
  {
   "property": "C06",
   "status": "proved",
   "theorems": [
    "C06_derived",
    "C06_parameter_list",
    "C06_ascending",
    "C06_ascending_only_if"
   ],
   "note": ""
  },
  {
   "property": "C07",
   "status": "proved",
   "theorems": [
    "C07_parameters",
    "C07_nothing_else"
   ],
   "note": ""
  },
  {
   "property": "C08",
   "status": "proved",
   "theorems": [
    "C08_unit",
    "C08_unit_list",
    "C08_none",
    "C08_some",
    "C08_ref",
    "C08_mut",
    "C08_build_irrelevant"
   ],
   "note": ""
  },
  {
   "property": "C09",
   "status": "proved",
   "theorems": [
    "C09_total_order",
    "C09_sorted",
    "C09_views",
    "C09_sort_exists"
   ],
   "note": ""
  },
  {
   "property": "C10",
   "status": "proved",
   "theorems": [
    "C10_from_sorted",
    "C10_rejects",
    "C10_short"
   ],
   "note": ""
  },
  {
   "property": "C11",
   "status": "proved",
   "theorems": [
    "C11_texts",
    "C11_form",
    "C11_query",
    "C11_authorize",
    "C11_every_serializer"
   ],
   "note": "Equality is up to the displayed text of the values (values that display the same text may change places)."
  },
  {
   "property": "C12",
   "status": "partial",
   "theorems": [
    "C12_exact_partial",
    "C12_refuted",
    "C12_rejected_refuted",
    "C12_distinct_keys_partial",
    "C12_safe_values_partial"
   ],
   "note": "False of the code (finding F3): ParameterList orders repeated keys by raw value, RFC 5849 by encoded value; C12_rejected_refuted shows a conforming server rejecting such a request. The two partial theorems give the lists for which the order is right: distinct keys, or values of repeated keys that need no encoding. C12_exact_partial is exact: the order is right iff no two values of one key diverge at an unreserved byte in one and a smaller-sorting reserved byte in the other."
  },
  {
   "property": "C13",
   "status": "proved",
   "theorems": [
    "C13_every_request",
    "C13_exact",
    "C13_parse",
    "C13_parse_every_request"
   ],
   "note": ""
  },
  {
   "property": "C14",
   "status": "proved",
   "theorems": [
    "C14_every_request",
    "C14_exact",
    "C14_parse"
   ],
   "note": ""
  },
  {
   "property": "C15",
   "status": "proved",
   "theorems": [
    "C15_protocol_calls_ignored",
    "C15_form",
    "C15_query"
   ],
   "note": ""
  },
  {
   "property": "C16",
   "status": "proved",
   "theorems": [
    "C16_header",
    "C16_any_method",
    "C16_request_not_in_header"
   ],
   "note": ""
  },
  {
   "property": "C17",
   "status": "proved",
   "theorems": [
    "C17_header",
    "C17_read_back",
    "C17_form",
    "C17_query",
    "C17_returns",
    "C17_order_exact"
   ],
   "note": "The hypothesis that keys need no encoding is exact, see C63; the one on the order is exact, see C17_order_exact."
  },
  {
   "property": "C18",
   "status": "proved",
   "theorems": [
    "C18_form",
    "C18_query",
    "C18_crate_requests",
    "C18_parameter_list"
   ],
   "note": "honest/normal_method/normal_uri are met by every crate request with encodable keys (C18_crate_requests, C18_parameter_list)."
  },
  {
   "property": "C19",
   "status": "proved",
   "theorems": [
    "C19_hmac",
    "C19_rsa",
    "C19_signed_text",
    "C19_observable",
    "C19_base_string"
   ],
   "note": ""
  },
  {
   "property": "C20",
   "status": "proved",
   "theorems": [
    "C20_signing_key",
    "C20_hmac_key",
    "C20_plaintext_key"
   ],
   "note": ""
  },
  {
   "property": "C21",
   "status": "proved",
   "theorems": [
    "C21_chunks",
    "C21_split_irrelevant",
    "C21_method"
   ],
   "note": "SHA-1 and HMAC are executable definitions checked against published vectors in CryptoTests.v."
  },
  {
   "property": "C22",
   "status": "partial",
   "theorems": [
    "C22_refuted",
    "C22_ambiguous_refuted",
    "C22_form_refuted",
    "C22_header_partial"
   ],
   "note": "False of the code (F2): the PLAINTEXT signature is written without the percent-encoding that every other value gets. C22_form_refuted holds for every pair of secrets. C22_header_partial says exactly what is emitted and exactly when a header reader recovers it."
  },
  {
   "property": "C23",
   "status": "proved",
   "theorems": [
    "C23_signature",
    "C23_secrets_unused",
    "C23_owned_borrowed"
   ],
   "note": "The RSA primitive (PKCS#1 v1.5 signing of a digest) is an arbitrary partial function."
  },
  {
   "property": "C24",
   "status": "partial",
   "theorems": [
    "C24_left_exact",
    "C24_right_exact",
    "C24_partial",
    "C24_builtin_partial",
    "C24_refuted"
   ],
   "note": "False of the code (F4): Either does not delegate Sign::consumer_key. C24_left_exact and C24_right_exact determine the behaviour for all methods; C24_partial gives the claim for every method that does not override consumer_key, C24_builtin_partial for the crate's own."
  },
  {
   "property": "C25",
   "status": "partial",
   "theorems": [
    "C25_refuted",
    "C25_appended_partial"
   ],
   "note": "False of the code (F1): for every request the form or query contains only protocol parameters. C25_appended_partial: appending to_form of the request gives what is documented."
  },
  {
   "property": "C26",
   "status": "proved",
   "theorems": [
    "C26_form_as_header",
    "C26_query_as_form",
    "C26_shapes",
    "C26_parse"
   ],
   "note": ""
  },
  {
   "property": "C27",
   "status": "proved",
   "theorems": [
    "C27_alphabet",
    "C27_no_injection"
   ],
   "note": ""
  },
  {
   "property": "C28",
   "status": "proved",
   "theorems": [
    "C28_authorize",
    "C28_to_form",
    "C28_urlencoder"
   ],
   "note": ""
  },
  {
   "property": "C29",
   "status": "proved",
   "theorems": [
    "C29_header_shorthands",
    "C29_form_shorthands",
    "C29_query_shorthands",
    "C29_consuming",
    "C29_free"
   ],
   "note": ""
  },
  {
   "property": "C30",
   "status": "proved",
   "theorems": [
    "C30_last_write_wins",
    "C30_last_set",
    "C30_commute",
    "C30_overwrite",
    "C30_unset",
    "C30_start",
    "C30_calls_independent"
   ],
   "note": ""
  },
  {
   "property": "C31",
   "status": "partial",
   "theorems": [
    "C31_never_panics",
    "C31_injective",
    "C31_in_header",
    "C31_refuted",
    "C31_nonempty_partial"
   ],
   "note": "All parts hold except non-emptiness (F5): the nonce is empty exactly for the all-zero draw (C31_nonempty_partial)."
  },
  {
   "property": "C32",
   "status": "proved",
   "theorems": [
    "C32_header",
    "C32_any_method",
    "C32_all_signed"
   ],
   "note": ""
  },
  {
   "property": "C33",
   "status": "proved",
   "theorems": [
    "C33_panics",
    "C33_otherwise_no_effect",
    "C33_exact"
   ],
   "note": ""
  },
  {
   "property": "C34",
   "status": "proved",
   "theorems": [
    "C34_derived",
    "C34_in_order",
    "C34_out_of_order",
    "C34_crate_keys",
    "C34_parameter_list",
    "C34_assert_sorted"
   ],
   "note": ""
  },
  {
   "property": "C35",
   "status": "proved",
   "theorems": [
    "C35_derived",
    "C35_derived_rsa",
    "C35_derived_form_query",
    "C35_returns",
    "C35_parameter_list",
    "C35_rsa",
    "C35_form_query"
   ],
   "note": ""
  },
  {
   "property": "C36",
   "status": "proved",
   "theorems": [
    "C36_complete",
    "C36_urlencoder",
    "C36_too_small"
   ],
   "note": ""
  },
  {
   "property": "C37",
   "status": "proved",
   "theorems": [
    "C37_records",
    "C37_records_distinguish",
    "C37_eq_spec",
    "C37_eq_equivalence",
    "C37_oauth_parameters",
    "C37_replay_form",
    "C37_replay_query",
    "C37_replay_authorize",
    "C37_replay_record",
    "C37_replay_any"
   ],
   "note": "C37_replay_any covers every serializer that looks only at the text of a value, not at which method of Display produced it."
  },
  {
   "property": "C38",
   "status": "proved",
   "theorems": [
    "C38_credentials_hidden",
    "C38_token_hidden",
    "C38_builder_hidden",
    "C38_credentials_shown",
    "C38_token_shown",
    "C38_builder_shown",
    "C38_credentials_text",
    "C38_token_text",
    "C38_builder_text",
    "C38_builder_pretty"
   ],
   "note": ""
  },
  {
   "property": "C39",
   "status": "proved",
   "theorems": [
    "C39_projections",
    "C39_map",
    "C39_token_map",
    "C39_map_client",
    "C39_map_token",
    "C39_calls",
    "C39_identity",
    "C39_composition"
   ],
   "note": ""
  },
  {
   "property": "C40",
   "status": "proved",
   "theorems": [
    "C40_accepts",
    "C40_order",
    "C40_duplicate",
    "C40_missing",
    "C40_errors",
    "C40_round_trip",
    "C40_response"
   ],
   "note": ""
  },
  {
   "property": "C41",
   "status": "proved",
   "theorems": [
    "C41_emitted",
    "C41_when",
    "C41_determined",
    "C41_defined",
    "C41_compiled"
   ],
   "note": ""
  },
  {
   "property": "C42",
   "status": "proved",
   "theorems": [
    "C42_order",
    "C42_errors",
    "C42_sorted",
    "C42_compiled"
   ],
   "note": ""
  },
  {
   "property": "C43",
   "status": "partial",
   "theorems": [
    "C43_rejects",
    "C43_count",
    "C43_accepts_partial",
    "C43_refuted",
    "C43_skipped_refuted",
    "C43_exact_partial"
   ],
   "note": "Rejection of conflicts and the number of error messages are proved. Acceptance is false for rename = \"\" and for skipped fields with the name of another field (F6); C43_accepts_partial proves it when no name is empty and all names, skipped fields included, are distinct. C43_exact_partial is an equivalence."
  },
  {
   "property": "C44",
   "status": "partial",
   "theorems": [
    "C44_renamed",
    "C44_ascii_partial",
    "C44_refuted",
    "C44_exact_partial"
   ],
   "note": "False for fields whose Rust identifier is not ASCII (F6). Proved for renamed fields (any) and for ASCII identifiers. C44_exact_partial is an equivalence."
  },
  {
   "property": "C45",
   "status": "proved",
   "theorems": [
    "C45_reported",
    "C45_accepted",
    "C45_returns",
    "C45_named_fields",
    "C45_other_tools",
    "C45_parse",
    "C45_parse_exact",
    "C45_no_arguments"
   ],
   "note": ""
  },
  {
   "property": "C46",
   "status": "partial",
   "theorems": [
    "C46_refuted",
    "C46_more_refuted",
    "C46_exact_partial"
   ],
   "note": "False of the code (F7): method and URI enter as given. C46_exact_partial says exactly for which inputs the prefix is the one of RFC 5849."
  },
  {
   "property": "C47",
   "status": "proved",
   "theorems": [
    "C47_form",
    "C47_query",
    "C47_authorize",
    "C47_signed_form",
    "C47_signed_query"
   ],
   "note": ""
  },
  {
   "property": "C48",
   "status": "proved",
   "theorems": [
    "C48_timestamp",
    "C48_signed"
   ],
   "note": ""
  },
  {
   "property": "C49",
   "status": "proved",
   "theorems": [
    "C49_calls",
    "C49_delimiters",
    "C49_feeds",
    "C49_base_string"
   ],
   "note": ""
  },
  {
   "property": "C50",
   "status": "proved",
   "theorems": [
    "C50_headers_differ",
    "C50_signed_differ"
   ],
   "note": ""
  },
  {
   "property": "C51",
   "status": "partial",
   "theorems": [
    "C51_refuted",
    "C51_text_partial",
    "C51_authorizer_refuted",
    "C51_hmac_partial",
    "C51_rsa_partial"
   ],
   "note": "False of the code (F14) for the signing state of PLAINTEXT, for all secrets. Credentials, tokens and builders are covered by C38, which is proved. C51_authorizer_refuted: the serializer shows them during the whole serialization. C51_hmac_partial: with HMAC-SHA1 its text never depends on the secrets (the hmac crate's Debug prints no state); C51_rsa_partial: the same with RSA-SHA1, which keeps no secrets. C51_text_partial: the whole text a serializer shows around the signing object."
  },
  {
   "property": "C52",
   "status": "partial",
   "theorems": [
    "C52_refuted",
    "C52_partial",
    "C52_exact_partial"
   ],
   "note": "False of the code (F13): raw identifiers are accessed without r#. Proved for all other fields. Compilation is modelled as: every name, field access, pattern and call of the generated code has the required type (exec_body is defined). C52_exact_partial: it compiles iff no field that may be sent has a reserved word as its name."
  },
  {
   "property": "C53",
   "status": "partial",
   "theorems": [
    "C53_once_partial",
    "C53_refuted",
    "C53_exact_partial"
   ],
   "note": "False of the code (F6, F10): a field may have the name of a protocol parameter. Proved when none has. C53_exact_partial is an equivalence."
  },
  {
   "property": "C54",
   "status": "proved",
   "theorems": [
    "C54_honest",
    "C54_accepted",
    "C54_transports",
    "C54_example_server"
   ],
   "note": ""
  },
  {
   "property": "C55",
   "status": "proved",
   "theorems": [
    "C55_form",
    "C55_query",
    "C55_echo",
    "C55_crate_requests"
   ],
   "note": ""
  },
  {
   "property": "C56",
   "status": "proved",
   "theorems": [
    "C56_sound",
    "C56_complete",
    "C56_exact",
    "C56_signed_text",
    "C56_readable"
   ],
   "note": "The theorem has PLAINTEXT signatures accepted without comparison, as the server does (C57)."
  },
  {
   "property": "C57",
   "status": "partial",
   "theorems": [
    "C57_refuted",
    "C57_exact_partial"
   ],
   "note": "False of the example server (F8), for every signature text. C57_exact_partial: a PLAINTEXT request is served exactly if it has some signature and everything else is right."
  },
  {
   "property": "C58",
   "status": "partial",
   "theorems": [
    "C58_refuted",
    "C58_accepted_partial",
    "C58_keys_partial"
   ],
   "note": "False of the example server (F8). C58_accepted_partial: for any secrets on either side the server accepts exactly if its key gives the same HMAC as the key of RFC 5849, and answers 401 otherwise; C58_keys_partial: the keys are equal exactly if neither secret needs encoding."
  },
  {
   "property": "C59",
   "status": "partial",
   "theorems": [
    "C59_refuted",
    "C59_reasons_partial",
    "C59_exact_partial"
   ],
   "note": "False of the example server (F16) in debug builds. C59_reasons_partial lists all causes of a crash, C59_exact_partial says exactly which requests crash the handler."
  },
  {
   "property": "C60",
   "status": "partial",
   "theorems": [
    "C60_refuted",
    "C60_rejected_partial",
    "C60_read_partial",
    "C60_same_partial"
   ],
   "note": "False of the example server in two details (F8, F15). C60_rejected_partial, C60_read_partial and C60_same_partial: with these details it is exact: a header outside the grammar is a bad request, one inside it is read as the grammar says, and two headers with the same parameters get the same answer."
  },
  {
   "property": "C61",
   "status": "partial",
   "theorems": [
    "C61_refuted",
    "C61_again_refuted",
    "C61_expires_partial",
    "C61_exact_partial"
   ],
   "note": "False of the example server (F19): it keeps no state, so whatever was served is served again within the time window. C61_expires_partial: it is rejected after that. C61_exact_partial: it is served at another time if and only if its timestamp is in the window then."
  },
  {
   "property": "C62",
   "status": "proved",
   "theorems": [
    "C62_handshake",
    "C62_too_long",
    "C62_derived",
    "C62_client"
   ],
   "note": "http::Uri is an oracle with the contract uri_library; C62_too_long says what happens beyond its limit."
  },
  {
   "property": "C63",
   "status": "partial",
   "theorems": [
    "C63_refuted",
    "C63_form_partial",
    "C63_signed_partial"
   ],
   "note": "False of the code (F9): names are written as they are. The partial theorems say exactly when form and signed text are right: iff no name needs encoding."
  },
  {
   "property": "C64",
   "status": "partial",
   "theorems": [
    "C64_refuted",
    "C64_partial"
   ],
   "note": "False of the code (F11): Default does not sort, and the order check of debug builds then fires. C64_partial says exactly for which default containers it does not."
  },
  {
   "property": "C65",
   "status": "proved",
   "theorems": [
    "C65_header",
    "C65_form_query",
    "C65_hmac"
   ],
   "note": ""
  },
  {
   "property": "C66",
   "status": "proved",
   "theorems": [
    "C66_rsa",
    "C66_accepted"
   ],
   "note": "For an arbitrary pair of signing and verifying functions; C68 has real RSA keys."
  },
  {
   "property": "C67",
   "status": "proved",
   "theorems": [
    "C67_values",
    "C67_form"
   ],
   "note": ""
  },
  {
   "property": "C68",
   "status": "proved",
   "theorems": [
    "C68_accepted",
    "C68_only"
   ],
   "note": "The example is a key pair whose primes are proved prime (Pocklington); the vector of the repository is checked in RsaTests.v."
  },
  {
   "property": "C69",
   "status": "proved",
   "theorems": [
    "C69_short",
    "C69_long"
   ],
   "note": ""
  },
  {
   "property": "C70",
   "status": "proved",
   "theorems": [
    "C70_hmac",
    "C70_rsa"
   ],
   "note": "Collisions exist, so the alternative cannot be dropped; it is stated for the two texts at hand."
  },
  {
   "property": "C71",
   "status": "proved",
   "theorems": [
    "C71_exact",
    "C71_skipped",
    "C71_sound"
   ],
   "note": "Name resolution is C76; spans are outside the model; the cases of ui/typeck.rs and ui/resolve.rs are run on it."
  },
  {
   "property": "C72",
   "status": "partial",
   "theorems": [
    "C72_inside",
    "C72_exactly_partial",
    "C72_instances",
    "C72_refuted",
    "C72_displayed_partial"
   ],
   "note": "False of the code (F21): the macro adds a Display bound to every type parameter, even to those that only occur in skipped or custom-formatted fields. C72_exactly_partial says when the implementation applies, C72_displayed_partial that nothing is lost if every parameter is displayed."
  },
  {
   "property": "C73",
   "status": "proved",
   "theorems": [
    "C73_hmac",
    "C73_other_secrets",
    "C73_rsa"
   ],
   "note": "Collisions exist, so the alternative cannot be dropped; it is stated for the two pairs of key and text at hand."
  },
  {
   "property": "C74",
   "status": "partial",
   "theorems": [
    "C74_refuted",
    "C74_partial"
   ],
   "note": "False of the code (F22) when the clock is in the first second of 1970; C74_partial: only then."
  },
  {
   "property": "C75",
   "status": "partial",
   "theorems": [
    "C75_refuted",
    "C75_exact_partial",
    "C75_announced_partial"
   ],
   "note": "False of the code (F23): the Deserialize implementation reads maps with named fields only, so formats that write structs as sequences (bincode and the like) or fields as positions cannot read what Serialize wrote. C75_exact_partial: it works exactly for formats that write the names. C75_announced_partial: the struct is announced under the type's name with the number of fields that follow."
  },
  {
   "property": "C76",
   "status": "partial",
   "theorems": [
    "C76_exact_partial",
    "C76_functions_partial",
    "C76_refuted"
   ],
   "note": "False of the code (F24): a constant (or static, unit struct, tuple struct) called tmp, value, fmt, serializer, helper, f or t, a generic parameter _S, or a type called Copy, Fn, Sized or bool break the generated code, and a trait in scope with a method called like one of Serializer's, taking self or &self and implemented for every type, gets its calls. C76_exact_partial is the exact condition; functions may have any names (C76_functions_partial)."
  },
  {
   "property": "C77",
   "status": "partial",
   "theorems": [
    "C77_header_partial",
    "C77_own_partial",
    "C77_form_query_refuted",
    "C77_other_refuted"
   ],
   "note": "False of the code (F2): the key is written without percent encoding. In a header the request is accepted exactly if the two encoded secrets of the server make up the raw secrets of the client (C77_header_partial), which with equal secrets means that neither needs encoding (C77_own_partial); in a form or query it is never accepted (C77_form_query_refuted); and a client with wrong secrets can be accepted (C77_other_refuted)."
  },
  {
   "property": "C78",
   "status": "proved",
   "theorems": [
    "C78_exact",
    "C78_bound",
    "C78_years"
   ],
   "note": "Probability is the share of the outcomes; the years have 365.25 days (299.3 of them)."
  },
  {
   "property": "C79",
   "status": "proved",
   "theorems": [
    "C79_seconds",
    "C79_header",
    "C79_range"
   ],
   "note": "Floating point is the standard library's executable SpecFloat (binary64); no axioms are used."
  },
  {
   "property": "C80",
   "status": "proved",
   "theorems": [
    "C80_unknown",
    "C80_status",
    "C80_refused"
   ],
   "note": ""
  },
  {
   "property": "C81",
   "status": "proved",
   "theorems": [
    "C81_relaxed",
    "C81_same",
    "C81_crate",
    "C81_macro",
    "C81_derived",
    "C81_plain"
   ],
   "note": "C81_relaxed is the statement for a configuration and one with fewer checks; any two configurations have a common laxer one (C81_same)."
  },
  {
   "property": "C82",
   "status": "proved",
   "theorems": [
    "C82_requests",
    "C82_provider",
    "C82_client"
   ],
   "note": "The status of an answer is not looked at, only its body; the theorem says so."
  },
  {
   "property": "C83",
   "status": "proved",
   "theorems": [
    "C83_env",
    "C83_reproducible",
    "C83_crate",
    "C83_derived"
   ],
   "note": ""
  },
  {
   "property": "C84",
   "status": "proved",
   "theorems": [
    "C84_path",
    "C84_name",
    "C84_missing",
    "C84_panics"
   ],
   "note": ""
  },
  {
   "property": "C85",
   "status": "proved",
   "theorems": [
    "C85_hmac",
    "C85_plaintext",
    "C85_rsa",
    "C85_text_hmac",
    "C85_text_plaintext"
   ],
   "note": "C85_hmac and C85_plaintext cover every kind of output and buffer; C85_text_hmac and C85_text_plaintext say where in the text the signature stands. Timing and other side channels are outside the model."
  },
  {
   "property": "C86",
   "status": "proved",
   "theorems": [
    "C86_every_serializer",
    "C86_results",
    "C86_encoded"
   ],
   "note": ""
  },
  {
   "property": "C87",
   "status": "proved",
   "theorems": [
    "C87_hmac",
    "C87_short_keys",
    "C87_server",
    "C87_other_secrets"
   ],
   "note": ""
  },
  {
   "property": "C88",
   "status": "proved",
   "theorems": [
    "C88_sendable",
    "C88_session",
    "C88_all_served",
    "C88_same_use",
    "C88_one_client",
    "C88_once_hmac",
    "C88_once_rsa"
   ],
   "note": ""
  },
  {
   "property": "C89",
   "status": "proved",
   "theorems": [
    "C89_authorize",
    "C89_form",
    "C89_query",
    "C89_urlencoder",
    "C89_methods",
    "C89_capacity"
   ],
   "note": ""
  },
  {
   "property": "C90",
   "status": "proved",
   "theorems": [
    "C90_bound",
    "C90_rate",
    "C90_apart",
    "C90_exact",
    "C90_messages"
   ],
   "note": ""
  },
  {
   "property": "C91",
   "status": "proved",
   "theorems": [
    "C91_readers_agree",
    "C91_form",
    "C91_query",
    "C91_signed_form",
    "C91_signed_query",
    "C91_header"
   ],
   "note": ""
  },
  {
   "property": "C92",
   "status": "proved",
   "theorems": [
    "C92_form",
    "C92_query",
    "C92_header",
    "C92_signed_form",
    "C92_signed_query",
    "C92_hmac_header",
    "C92_hmac_form",
    "C92_hmac_query",
    "C92_rsa_header",
    "C92_rsa_key",
    "C92_plaintext_header",
    "C92_plaintext_form",
    "C92_room"
   ],
   "note": ""
  },
  {
   "property": "C93",
   "status": "proved",
   "theorems": [
    "C93_header",
    "C93_form",
    "C93_query",
    "C93_any",
    "C93_once",
    "C93_read",
    "C93_signed_is_sent",
    "C93_forgotten",
    "C93_repeated",
    "C93_base_string",
    "C93_server",
    "C93_fresh",
    "C93_any_method",
    "C93_authorizer"
   ],
   "note": ""
  },
  {
   "property": "C94",
   "status": "proved",
   "theorems": [
    "C94_resign",
    "C94_set_up",
    "C94_own"
   ],
   "note": ""
  },
  {
   "property": "C95",
   "status": "proved",
   "theorems": [
    "C95_hmac",
    "C95_hmac_only",
    "C95_any_encoder",
    "C95_rsa",
    "C95_rsa_only"
   ],
   "note": ""
  },
  {
   "property": "C96",
   "status": "proved",
   "theorems": [
    "C96_forgetting",
    "C96_session",
    "C96_all_served",
    "C96_once_hmac",
    "C96_once_rsa",
    "C96_expires_hmac",
    "C96_expires_rsa"
   ],
   "note": ""
  },
  {
   "property": "C97",
   "status": "partial",
   "theorems": [
    "C97_session",
    "C97_all_served",
    "C97_clock_partial",
    "C97_refuted",
    "C97_js_partial"
   ],
   "note": "False of the code in one case (F26): a clock that goes from before 1970 (timestamp 1) into its first second (timestamp 0). C97_clock_partial: for a clock that does not go back this is the only case; C97_js_partial: with the js feature there is none. C97_session and C97_all_served say for any clients and clocks exactly which requests are served."
  },
  {
   "property": "C98",
   "status": "proved",
   "theorems": [
    "C98_hmac",
    "C98_rsa",
    "C98_hmac_forged",
    "C98_rsa_forged"
   ],
   "note": ""
  },
  {
   "property": "C99",
   "status": "partial",
   "theorems": [
    "C99_reading",
    "C99_query_partial",
    "C99_signed_partial",
    "C99_refuted",
    "C99_wrong_hmac",
    "C99_wrong_rsa"
   ],
   "note": "The first part is false of the code for URIs with a fragment (F27): the parameters are put behind it, become part of it and are never sent. C99_query_partial and C99_signed_partial: without a fragment it holds, with one it never does (exact), for the request's parameters and for the signed protocol parameters; C99_reading: every text has exactly one reading. The second part is proved in full (C99_wrong_hmac, C99_wrong_rsa)."
  },
  {
   "property": "C100",
   "status": "partial",
   "theorems": [
    "C100_refuted",
    "C100_any_refuted",
    "C100_ignored_partial",
    "C100_version_partial",
    "C100_value_partial",
    "C100_sent_partial",
    "C100_crate_partial"
   ],
   "note": "False of the example server (F28): it does not look at the version, takes the smallest of repeated values, and merges the places. C100_any_refuted has any list of versions and additional tokens. C100_ignored_partial says all that it looks at; C100_value_partial: for parameters that are there once the smallest value is the value; C100_sent_partial: what a builder with HMAC-SHA1 or RSA-SHA1 writes is valid in header, form and query; C100_crate_partial: so is the request as the example server reads it (names of the request's own parameters aside, C53)."
  },
  {
   "property": "C101",
   "status": "partial",
   "theorems": [
    "C101_refuted",
    "C101_ignored_partial",
    "C101_counts_partial",
    "C101_exact_partial"
   ],
   "note": "False of the example server (F29): the content type is compared as it is. C101_ignored_partial: with any other text the answer is that for the request without its body; C101_exact_partial: when that is 200; C101_counts_partial: with exactly this text every body counts."
  }
 ]
}