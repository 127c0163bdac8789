{"id": "C01", "title": "Values are percent-encoded exactly as RFC 5849 section 3.6 says", "statement": "The encoding of a parameter value that appears in a form, query string or header is the concatenation, byte by byte, of the byte itself when it is one of A-Z a-z 0-9 - . _ ~ and of '%' plus two upper-case hex digits otherwise. It depends only on the text the value displays, not on how its Display implementation splits that text into writes.", "quantifier": "every byte string and every way of splitting it into write_str calls", "why_tests_cant": "Infinitely many strings and chunkings; the repo's tests only sweep single bytes.", "anchors": ["oauth1-request/src/util/percent_encoding.rs: PercentEncode, percent_encode, RESERVED"]}
{"id": "C02", "title": "Percent-encoding loses nothing", "statement": "A standard percent-decoder applied to the encoding of a value gives back exactly the bytes of the value, so two different values never have the same encoding, and the encoding consists only of unreserved characters and '%'.", "quantifier": "every byte string", "why_tests_cant": "Injectivity relates all pairs of inputs.", "anchors": ["oauth1-request/src/util/percent_encoding.rs: PercentEncode, percent_encode"]}
{"id": "C03", "title": "Signed values are encoded twice, identically to encoding the encoded text", "statement": "The value text fed to the signature for an un-encoded parameter equals the RFC 5849 encoding of the RFC 5849 encoding of the value, for every chunking of the value; the table-driven fast path agrees with the definition for all 256 byte values.", "quantifier": "every byte string and every chunking", "why_tests_cant": "The streaming loop's run detection has position-dependent cases no finite test list covers.", "anchors": ["oauth1-request/src/util/percent_encoding.rs: DoublePercentEncode, double_encode_byte, should_percent_encode, get_bit, ENCODE_MAP"]}
{"id": "C04", "title": "The unchecked UTF-8 conversions only ever see ASCII", "statement": "Every slice that the double encoder turns into a str without checking is in bounds and consists of bytes below 0x80 (hence valid UTF-8), so the debug assertions there never fire and no invalid str is created.", "quantifier": "every input byte string, valid UTF-8 or not, and every chunking", "why_tests_cant": "A memory-safety claim must hold for all inputs.", "anchors": ["oauth1-request/src/util/percent_encoding.rs: DoublePercentEncode (Adapter::write_str), double_encode_byte"]}
{"id": "C05", "title": "Every request feeds each protocol parameter exactly once", "statement": "Whatever the parameters of the request, serializing (), an Option, a reference, an AssertSorted, a ParameterList or a derived struct calls each of the eight serialize_oauth_* methods exactly once, in alphabetical order, and then end.", "quantifier": "every request value and every Serializer implementation", "why_tests_cant": "Quantifies over all parameter lists and all serializers.", "anchors": ["oauth1-request/src/request.rs: AssertSorted::serialize, Request for (), Option, &R", "oauth1-request/src/request/parameter_list.rs: ParameterList", "oauth1-request/src/util/oauth_parameter.rs", "oauth1-request-derive/src/method_body.rs: MethodBody"]}
{"id": "C06", "title": "Parameters are fed in ascending key order, protocol parameters interleaved", "statement": "When the keys given to AssertSorted are in ascending byte order (always, for a ParameterList or a derived struct), the keys of the whole call sequence, with each protocol parameter standing for its oauth_* key, are in ascending byte order, as the Serializer trait demands.", "quantifier": "every sorted key sequence, including keys that sort between, before, after or equal to oauth_* keys", "why_tests_cant": "Interleaving depends on the relation of arbitrary keys to the eight names.", "anchors": ["oauth1-request/src/request.rs: AssertSorted::serialize", "oauth1-request/src/util/oauth_parameter.rs: PartialOrd<str>, next", "oauth1-request-derive/src/method_body.rs"]}
{"id": "C07", "title": "No request parameter is lost, duplicated, reordered or altered", "statement": "The serialize_parameter calls made for an AssertSorted or ParameterList are exactly its pairs, in order, with key and value text unchanged; nothing else but the eight protocol calls happens.", "quantifier": "every list of pairs, sorted or not, any length", "why_tests_cant": "Needs all list lengths and contents.", "anchors": ["oauth1-request/src/request.rs: AssertSorted::serialize", "oauth1-request/src/request/parameter_list.rs: Request for ParameterList"]}
{"id": "C08", "title": "Empty and wrapped requests are transparent", "statement": "A unit request and a None request behave exactly like the empty parameter list; Some(r), &r and &mut r behave exactly like r, for every serializer.", "quantifier": "every request and every serializer", "why_tests_cant": "Holds for all generic instantiations.", "anchors": ["oauth1-request/src/request.rs: Request for (), Option<R>, &R, &mut R"]}
{"id": "C09", "title": "A ParameterList is sorted after any history of operations", "statement": "After any sequence of construction (new, From, from_iter, from_sorted, default of an empty container) and extend calls, the list is sorted by key and then by displayed value, and holds exactly the multiset of pairs supplied.", "quantifier": "every sequence of operations and every pair list; every sort implementation meeting the standard library contract", "why_tests_cant": "Invariant over unbounded operation histories.", "anchors": ["oauth1-request/src/request/parameter_list.rs: new, from_sorted, extend, from_iter, cmp, sort"]}
{"id": "C10", "title": "from_sorted accepts exactly the sorted lists", "statement": "from_sorted returns the list unchanged when it is sorted by key and then displayed value, and None otherwise; lists of length 0 and 1 are accepted.", "quantifier": "every pair list", "why_tests_cant": "An if-and-only-if over all lists.", "anchors": ["oauth1-request/src/request/parameter_list.rs: from_sorted, is_sorted_by, cmp"]}
{"id": "C11", "title": "A ParameterList does not depend on the order its pairs were supplied", "statement": "If two lists are permutations of each other, the ParameterLists made from them drive every serializer identically (same form, same query, same signature), even though the sort is unstable.", "quantifier": "every pair of permuted lists, every conforming sort, every serializer", "why_tests_cant": "All permutations of all lists.", "anchors": ["oauth1-request/src/request/parameter_list.rs: new, cmp; fmt_cmp::Cmp"]}
{"id": "C12", "title": "Repeated keys are signed in the order RFC 5849 requires", "statement": "Parameters with the same key are placed in the signature base string in ascending order of their encoded values (RFC 5849 section 3.4.1.3.2), for every ParameterList.", "quantifier": "every parameter list", "why_tests_cant": "Depends on how raw and encoded orders relate for all values.", "anchors": ["oauth1-request/src/request/parameter_list.rs: cmp", "oauth1-request/src/serializer/auth.rs: serialize_parameter"]}
{"id": "C13", "title": "to_form output is exact and parseable", "statement": "to_form(request) is key=encode(value) joined with '&' in request order; splitting it at '&' and '=' and percent-decoding gives back exactly the pairs, when the keys are URI-safe.", "quantifier": "every request", "why_tests_cant": "Round trip over all requests.", "anchors": ["oauth1-request/src/lib.rs: to_form", "oauth1-request/src/serializer/urlencode.rs: Urlencoder"]}
{"id": "C14", "title": "to_query appends a well-formed query", "statement": "to_query(uri, request) is uri unchanged when the request has no parameters, and otherwise uri, '?', and the form string; parsing after the first '?' gives back the pairs when uri has no '?'.", "quantifier": "every uri and request", "why_tests_cant": "All URIs and requests.", "anchors": ["oauth1-request/src/lib.rs: to_query", "oauth1-request/src/serializer/urlencode.rs: query, append_delim"]}
{"id": "C15", "title": "Plain form/query serialization never leaks protocol parameters", "statement": "The free functions to_form/to_query ignore every serialize_oauth_* call: the output is the same with those calls removed, wherever they are interleaved.", "quantifier": "every call sequence on a Urlencoder", "why_tests_cant": "All interleavings.", "anchors": ["oauth1-request/src/serializer.rs: skip_serialize_oauth_parameters", "oauth1-request/src/serializer/urlencode.rs"]}
{"id": "C16", "title": "The Authorization header has exactly the configured protocol parameters", "statement": "authorize returns 'OAuth ' followed by k=\"encode(v)\", for callback (if set), consumer key, nonce, signature method, timestamp, token (if set), verifier (if set), version (if enabled), in this order, and last oauth_signature=\"...\" with no trailing comma; request parameters do not appear in it.", "quantifier": "every builder configuration, credentials, method, URI, request and environment", "why_tests_cant": "All configurations and strings.", "anchors": ["oauth1-request/src/serializer/auth.rs: Authorizer", "oauth1-request/src/lib.rs: Builder::authorize"]}
{"id": "C17", "title": "The HMAC-SHA1 signature is the one RFC 5849 defines", "statement": "The oauth_signature value emitted with HMAC_SHA1 is encode(base64(HMAC-SHA1(key, base))) where base is the RFC 5849 section 3.4.1 signature base string of method, URI and the set of request and protocol parameters, and key is encode(client secret) '&' encode(token secret or empty), whenever the request's pairs are in RFC order, have keys that need no percent-encoding and do not reuse oauth_* keys.", "quantifier": "every credentials, options, method, URI, request", "why_tests_cant": "Test vectors fix a handful of requests; interoperability needs all.", "anchors": ["oauth1-request/src/serializer/auth.rs: Authorizer, make_sign", "oauth1-request/src/signature_method/hmac_sha1.rs", "oauth1-request/src/signature_method/digest_common.rs", "oauth1-request/src/signature_method.rs: write_signing_key"]}
{"id": "C18", "title": "A conforming server accepts what the client sends", "statement": "An independent RFC 5849 verifier that receives only the Authorization header produced by authorize, the method, the URI and the body from to_form (or the URI from to_query), and knows the shared secrets, recomputes the same signature and accepts; it recovers the exact protocol and request parameters.", "quantifier": "every credentials, options, method, query-free URI and request with URI-safe, non-oauth_ distinct keys", "why_tests_cant": "End-to-end over all inputs.", "anchors": ["oauth1-request/src/lib.rs: Builder::authorize, to_form, to_query", "examples/src/client/request.rs: send"]}
{"id": "C19", "title": "The signature covers everything: the base string determines the request", "statement": "Two signing runs produce the same signature base string only if method, URI and the full list of signed key/value pairs are the same, so no request can be confused with another by moving delimiters into values.", "quantifier": "every pair of requests whose keys are URI-safe and methods contain no '&'", "why_tests_cant": "Injectivity over all pairs.", "anchors": ["oauth1-request/src/signature_method/digest_common.rs: UpdateSign", "oauth1-request/src/serializer/auth.rs"]}
{"id": "C20", "title": "The signing key is unambiguous", "statement": "The HMAC key and PLAINTEXT signature are encode(client secret), '&', encode(token secret); they determine both secrets, except that a missing token secret and an empty one give the same key, as RFC 5849 prescribes.", "quantifier": "every pair of secrets", "why_tests_cant": "Injectivity over all secrets.", "anchors": ["oauth1-request/src/signature_method.rs: write_signing_key"]}
{"id": "C21", "title": "Incremental HMAC key handling equals HMAC with the whole key", "statement": "However the signing key is split into writes and however long it is (below, at or above 64 bytes), the resulting MAC of every message equals RFC 2104 HMAC-SHA1 under the complete key.", "quantifier": "every chunk sequence, every key length, every message", "why_tests_cant": "Boundary at 64 bytes interacts with all chunkings; the repo test feeds only single 0x01 bytes.", "anchors": ["oauth1-request/src/signature_method/hmac_sha1.rs: SigningKey::write, into_hmac"]}
{"id": "C22", "title": "PLAINTEXT emits the encoded signing key, correctly encoded for its transport", "statement": "With PLAINTEXT, the emitted oauth_signature value decodes (one percent-decoding, as for every other header or form value) to encode(client secret) '&' encode(token secret), and a form or header containing it parses back.", "quantifier": "every pair of secrets", "why_tests_cant": "All secrets, including those with reserved characters.", "anchors": ["oauth1-request/src/signature_method/plaintext.rs: PlaintextSign::end", "oauth1-request/src/serializer/auth.rs: end"]}
{"id": "C23", "title": "RSA-SHA1 signs the SHA-1 of the same base string and ignores secrets", "statement": "With RSA-SHA1 the emitted signature is encode(base64(RSASSA-PKCS1-v1_5 signature of the base string)); it does not depend on the client or token secret; owned and borrowed keys give the same result.", "quantifier": "every key, secrets, request", "why_tests_cant": "All keys and requests.", "anchors": ["oauth1-request/src/signature_method/rsa_sha1.rs"]}
{"id": "C24", "title": "Either behaves exactly like the chosen signature method", "statement": "Signing with Either::Left(l) produces the same output as signing with l, and Either::Right(r) the same as r, for every pair of signature methods including user-defined ones.", "quantifier": "every pair of SignatureMethod implementations and every request", "why_tests_cant": "Quantifies over all user implementations.", "anchors": ["oauth1-request/src/signature_method/either.rs"]}
{"id": "C25", "title": "Builder::to_form and to_query include the request parameters", "statement": "The form/URI returned by Builder::to_form, to_query and their variants contains the OAuth protocol parameters along with the other request parameters, as documented.", "quantifier": "every builder and request", "why_tests_cant": "A claim about every request parameter.", "anchors": ["oauth1-request/src/lib.rs: Builder::to_form, to_query", "oauth1-request/src/serializer/auth.rs: serialize_parameter"]}
{"id": "C26", "title": "Builder::to_form and to_query carry the protocol parameters and the same signature as the header", "statement": "The protocol parameters and signature written to a form or query are exactly those authorize would put in the header for the same inputs, encoded the same way, in the same order, separated by '&' (query: after '?').", "quantifier": "every builder configuration, request and environment", "why_tests_cant": "All inputs.", "anchors": ["oauth1-request/src/serializer/auth.rs: Data::Urlencode, end", "oauth1-request/src/lib.rs"]}
{"id": "C27", "title": "Header injection is impossible", "statement": "For the built-in signature methods, the Authorization header value contains only printable ASCII: unreserved characters, '%', '=', ',', double quote, space and (PLAINTEXT) '&'; credentials, callback, verifier and nonce cannot add a quote, comma, newline or control character.", "quantifier": "every credentials and option strings", "why_tests_cant": "Adversarial strings.", "anchors": ["oauth1-request/src/serializer/auth.rs: append_to_header"]}
{"id": "C28", "title": "*_with_buf variants append to the buffer", "statement": "authorize_with_buf, to_form_with_buf and the into_ variants return the given buffer's contents followed by exactly what the plain variant returns; existing contents are preserved.", "quantifier": "every initial buffer and request", "why_tests_cant": "All buffers.", "anchors": ["oauth1-request/src/lib.rs: authorize_with_buf, to_form_with_buf, into_*", "oauth1-request/src/serializer/auth.rs: authorization_with_buf, form_with_buf"]}
{"id": "C29", "title": "All entry points agree", "statement": "get/put/post/delete/options/head/connect/patch/trace (and _form/_query forms) equal the generic call with that upper-case method; consuming into_* equals the borrowing variant; the free functions equal a Builder made with_token and default options.", "quantifier": "every input", "why_tests_cant": "All inputs and entry points.", "anchors": ["oauth1-request/src/lib.rs: builder_*_shorthand, into_*, authorize, authorize_shorthand"]}
{"id": "C30", "title": "Builder configuration is last-write-wins and reusable", "statement": "After any sequence of setter calls the output depends only on the last value set for each of token, callback, verifier, nonce, timestamp, version; unsetting with None restores the default; setters of different options commute; authorizing does not change the builder, so any number of authorizations from one builder are independent.", "quantifier": "every history of setter and authorize calls", "why_tests_cant": "Unbounded histories.", "anchors": ["oauth1-request/src/lib.rs: Builder setters", "oauth1-request/src/util.rs: options!, impl_setters!"]}
{"id": "C31", "title": "Generated nonces are URL-safe, bounded and carry all the randomness", "statement": "The generated nonce has at most 12 characters, all from A-Z a-z 0-9 - _, so it needs no encoding; generation never panics; two different 9-byte random draws never give the same nonce (72 bits of entropy); it is never empty.", "quantifier": "every random draw", "why_tests_cant": "2^72 draws.", "anchors": ["oauth1-request/src/serializer/auth.rs: gen_nonce"]}
{"id": "C32", "title": "Which protocol parameters are sent depends only on the configuration", "statement": "oauth_callback, oauth_verifier, oauth_token, oauth_version appear iff configured; oauth_nonce and oauth_timestamp appear iff the signature method uses them, with the configured value if any and otherwise one from the environment; consumer key and signature method always appear; every parameter in the header is also signed, with the same value.", "quantifier": "every options value, custom signature method flags, environment", "why_tests_cant": "All configurations.", "anchors": ["oauth1-request/src/serializer/auth.rs: serialize_oauth_*", "oauth1-request/src/signature_method.rs: Sign::use_nonce, use_timestamp"]}
{"id": "C33", "title": "The query-in-URI check is exact", "statement": "In debug builds, starting an authorization panics if and only if the displayed URI contains '?', however it is chunked; in release builds it never panics for that reason.", "quantifier": "every URI and chunking", "why_tests_cant": "All URIs.", "anchors": ["oauth1-request/src/serializer/auth.rs: make_sign"]}
{"id": "C34", "title": "The ordering check is exact", "statement": "In debug builds with alloc, serializing a key sequence panics if and only if some key is smaller than the previous one (protocol keys included); in particular it never fires for a ParameterList or derived struct, and for AssertSorted it fires iff the keys are not sorted; in release builds it never fires.", "quantifier": "every sequence of calls", "why_tests_cant": "All call sequences.", "anchors": ["oauth1-request/src/serializer/auth.rs: check_dictionary_order"]}
{"id": "C35", "title": "Authorization does not panic on valid use", "statement": "With the std feature, a String buffer, infallible Display values, a '?'-free URI and a ParameterList or derived request, authorize/to_form/to_query always return for HMAC-SHA1 and PLAINTEXT, in debug and release builds; the internal 'called on None' panics are unreachable.", "quantifier": "every input satisfying the preconditions", "why_tests_cant": "Absence of panics on all paths.", "anchors": ["oauth1-request/src/serializer/auth.rs", "oauth1-request/src/util.rs: OAuthParameter::serialize", "oauth1-request/src/util/oauth_parameter.rs: next"]}
{"id": "C36", "title": "Output is never silently truncated", "statement": "If the output buffer's write_str fails at any point, or a value's Display reports an error that is consulted, the call panics; if it returns, the buffer received exactly the complete output.", "quantifier": "every failing point of every writer and every request", "why_tests_cant": "All crash points of the writer.", "anchors": ["oauth1-request/src/serializer/auth.rs: write!/unwrap", "oauth1-request/src/serializer/urlencode.rs"]}
{"id": "C37", "title": "Recorder records exactly the calls made", "statement": "The vector produced by a Recorder is exactly the sequence of calls in order with key and displayed value; comparing records is an equivalence relation that holds iff the kinds, keys and displayed values agree; replaying the records into any serializer reproduces the original effect.", "quantifier": "every call sequence", "why_tests_cant": "All sequences.", "anchors": ["oauth1-request/src/serializer/recorder.rs"]}
{"id": "C38", "title": "Debug output hides secrets", "statement": "Debug formatting (both {:?} and {:#?}) of Credentials and Token (and of a Builder) does not depend on the secrets at all and still shows the identifiers.", "quantifier": "every pair of secrets", "why_tests_cant": "Non-interference over all secrets.", "anchors": ["oauth-credentials/src/lib.rs: Debug for Credentials", "oauth1-request/src/lib.rs: Builder"]}
{"id": "C39", "title": "Credential conversions keep identifier and secret in place", "statement": "new, from_parts, as_ref, From, from_ref, client, token, map, map_client and map_token never swap or drop a part; map applies the function exactly once to each part, in the order client identifier, client secret, token identifier, token secret, and is compatible with composition and identity.", "quantifier": "every credentials value and every (stateful) mapping function", "why_tests_cant": "All stateful functions.", "anchors": ["oauth-credentials/src/lib.rs: Credentials, Token"]}
{"id": "C40", "title": "Deserializing credentials accepts exactly the unambiguous responses", "statement": "Deserialization from a key/value map succeeds iff oauth_token and oauth_token_secret each occur exactly once with readable values (and all other values can be skipped), whatever other keys and order; it returns those two values; otherwise the error reported is the first thing that is wrong; deserialize after serialize is the identity.", "quantifier": "every sequence of map entries", "why_tests_cant": "All entry sequences.", "anchors": ["oauth-credentials/src/serde_imp.rs"]}
{"id": "C41", "title": "Derived requests emit exactly the right fields", "statement": "For any struct, a field is emitted iff it is not marked skip, is not None when treated as optional, and skip_if is false on its (unwrapped) value; its key is the rename or the raw-prefix-stripped field name; its value is formatted by fmt or Display; encoded fields go through serialize_parameter_encoded.", "quantifier": "every struct declaration with named fields, every attribute combination and every value", "why_tests_cant": "All structs, attributes and values.", "anchors": ["oauth1-request-derive/src/method_body.rs", "oauth1-request-derive/src/field.rs"]}
{"id": "C42", "title": "Derived requests do not depend on field declaration order and are sorted", "statement": "Permuting the field declarations of an accepted struct does not change what is serialized; emitted keys are strictly ascending, with the protocol parameters interleaved at their places.", "quantifier": "every accepted struct and permutation", "why_tests_cant": "All permutations.", "anchors": ["oauth1-request-derive/src/lib.rs: expand_derive_oauth1_authorize", "oauth1-request-derive/src/method_body.rs"]}
{"id": "C43", "title": "The derive macro rejects exactly the structs with conflicting parameter names", "statement": "If two fields have the same final name the macro reports an error; if all names are distinct (and attributes are valid) it accepts.", "quantifier": "every list of fields", "why_tests_cant": "All field lists.", "anchors": ["oauth1-request-derive/src/lib.rs: fold over names"]}
{"id": "C44", "title": "Keys produced by the derive macro are URI-safe", "statement": "Every key emitted by an accepted derived struct consists only of unreserved characters, so it needs no percent-encoding.", "quantifier": "every accepted struct", "why_tests_cant": "All identifiers and rename strings.", "anchors": ["oauth1-request-derive/src/meta.rs: UriSafe", "oauth1-request-derive/src/field.rs: name"]}
{"id": "C45", "title": "Malformed derive attributes are always reported and never change others", "statement": "Every unknown, duplicated, ill-typed or unparsable oauth1 attribute contributes an error, all errors are reported together, attributes of other tools are ignored, and a struct is accepted only if there is no error at all.", "quantifier": "every list of attributes on every field", "why_tests_cant": "All attribute lists.", "anchors": ["oauth1-request-derive/src/meta.rs: def_meta, add_meta_impl", "oauth1-request-derive/src/ctxt.rs"]}
{"id": "C46", "title": "Method and URI enter the base string in RFC 5849 normal form", "statement": "The base string starts with the upper-cased, encoded request method and the encoded base string URI of RFC 5849 section 3.4.1.2 (lower-case scheme and host, no default port, no fragment) for every method and URI passed.", "quantifier": "every method and URI", "why_tests_cant": "All methods and URIs.", "anchors": ["oauth1-request/src/signature_method/digest_common.rs: request_method, uri", "oauth1-request/src/serializer/auth.rs: make_sign"]}
{"id": "C47", "title": "Pre-encoded parameters are signed and sent consistently", "statement": "If the text passed to serialize_parameter_encoded (or an encoded field) is the RFC encoding of some value, then form output, query output and signature are identical to passing that value to serialize_parameter.", "quantifier": "every value and position", "why_tests_cant": "All values.", "anchors": ["oauth1-request/src/serializer/auth.rs: serialize_parameter_encoded", "oauth1-request/src/serializer/urlencode.rs"]}
{"id": "C48", "title": "Timestamps are rendered as canonical decimals", "statement": "The oauth_timestamp value, in header and signature alike, is the decimal representation without leading zeros of the configured value, or of the current Unix time in seconds, or of 1 if the clock is before the epoch; it decodes to that number and needs no encoding.", "quantifier": "every 64-bit value and clock reading", "why_tests_cant": "2^64 values.", "anchors": ["oauth1-request/src/serializer/auth.rs: serialize_oauth_timestamp, get_current_timestamp"]}
{"id": "C49", "title": "Custom signature methods see the documented call protocol", "statement": "For any Sign implementation, the Authorizer calls sign_with once with the secrets, then request_method, uri, then for each signed parameter in order its own feed method, with exactly one delimiter call between two consecutive parameters and none before the first or after the last, then end; the documented reconstruction of these calls is the RFC base string.", "quantifier": "every Sign implementation and request", "why_tests_cant": "All user implementations.", "anchors": ["oauth1-request/src/signature_method.rs: Sign", "oauth1-request/src/serializer/auth.rs: sign_delimiter, append_to_header"]}
{"id": "C50", "title": "Different requests get different nonces whenever the random source differs", "statement": "For two authorizations from one builder without a fixed nonce, the headers and the signed base strings differ whenever the two random draws differ.", "quantifier": "every pair of draws", "why_tests_cant": "All pairs of draws.", "anchors": ["oauth1-request/src/serializer/auth.rs: serialize_oauth_nonce, gen_nonce"]}
{"id": "C51", "title": "Debug output of signing objects hides secrets", "statement": "The Debug output of every object that holds secrets (builders, credentials, signature methods and their signing state) does not depend on the secrets.", "quantifier": "every object and every secret", "why_tests_cant": "All secrets.", "anchors": ["oauth1-request/src/signature_method/plaintext.rs: PlaintextSign", "oauth1-request/src/serializer/auth.rs: Authorizer", "oauth-credentials/src/lib.rs: Credentials"]}
{"id": "C52", "title": "Code generated for an accepted struct compiles", "statement": "If the derive macro accepts a struct whose fields, fmt and skip_if functions have suitable types, the generated implementation compiles.", "quantifier": "every accepted struct, including raw identifiers", "why_tests_cant": "All structs.", "anchors": ["oauth1-request-derive/src/field.rs: Field::new", "oauth1-request-derive/src/method_body.rs"]}
{"id": "C53", "title": "A derived request sends each parameter name once", "statement": "The calls that a derived request makes, protocol parameters included, have pairwise distinct keys.", "quantifier": "every accepted struct and value", "why_tests_cant": "All structs.", "anchors": ["oauth1-request-derive/src/lib.rs: expand_derive_oauth1_authorize", "oauth1-request-derive/src/method_body.rs"]}
{"id": "C54", "title": "Derived requests are accepted by a conforming server", "statement": "A derived request whose keys need no encoding and are not protocol parameters, signed with HMAC-SHA1 and sent as a form, passes RFC 5849 verification, and the server reads the values of exactly the emitted fields.", "quantifier": "every accepted struct and value, credentials, options, method and normalized URI", "why_tests_cant": "All structs and values.", "anchors": ["oauth1-request-derive/src/method_body.rs", "oauth1-request/src/lib.rs: Builder::authorize, to_form"]}
{"id": "C55", "title": "The example server accepts what the crate signs", "statement": "A request authorized with HMAC-SHA1 by the builder, with parameters in ascending (key, value) order and keys that need no encoding, sent as form or query to the example server with the same credentials and within the time window, is accepted, and the handler receives exactly the sent parameters.", "quantifier": "every builder, request, method, path and values (any UTF-8 text), clocks and library implementations within their contracts", "why_tests_cant": "All values through two independent implementations of the base string.", "anchors": ["examples/src/server/handler.rs: verify_and_then", "oauth1-request/src/lib.rs: Builder::authorize, to_form, to_query"]}
{"id": "C56", "title": "The example server serves exactly the authentic requests", "statement": "The server answers 200 if and only if the request has the route's method and path and carries the required protocol parameters, of these credentials, within the time window, with an HMAC-SHA1 signature that verifies over all its parameters (PLAINTEXT signatures are not compared, see C57); any change of method, path or parameters changes the signed text.", "quantifier": "every HTTP request, world and time", "why_tests_cant": "Rejection has to hold of every possible request.", "anchors": ["examples/src/server/handler.rs: verify_and_then, collect_params, collect_auth_params, collect_oauth_params, create_base_string", "examples/src/server/main.rs"]}
{"id": "C57", "title": "The example server rejects wrong PLAINTEXT signatures", "statement": "A PLAINTEXT request whose signature is not the key of the credentials is rejected.", "quantifier": "every signature text", "why_tests_cant": "All wrong signatures.", "anchors": ["examples/src/server/handler.rs: verify_and_then"]}
{"id": "C58", "title": "The example server verifies with the key of RFC 5849", "statement": "For every pair of secrets, the example server's HMAC key is the one the crate (and RFC 5849) uses, so requests signed with the right secrets are accepted.", "quantifier": "every pair of secrets", "why_tests_cant": "All secrets, including those that need encoding.", "anchors": ["examples/src/server/handler.rs: verify_and_then", "oauth1-request/src/signature_method/hmac_sha1.rs"]}
{"id": "C59", "title": "No request makes the example server panic", "statement": "Whatever a client sends, the handler returns a response.", "quantifier": "every HTTP request", "why_tests_cant": "All requests.", "anchors": ["examples/src/server/handler.rs: verify_and_then"]}
{"id": "C60", "title": "The example server reads the documented header grammar", "statement": "An Authorization header that follows the grammar documented in the server (OAuth scheme, spaces, comma-separated parameters, quoted or bare values) is read as that grammar says; any other header with the OAuth scheme is answered with 400.", "quantifier": "every header text", "why_tests_cant": "All headers, including unusual white space and quoting.", "anchors": ["examples/src/server/authorization.rs: auth_scheme, auth_param, hash", "examples/src/server/handler.rs: collect_auth_params"]}
{"id": "C61", "title": "The example server accepts a request only once", "statement": "A signed request that has been served is not served again, and expires.", "quantifier": "every request and time", "why_tests_cant": "All later times.", "anchors": ["examples/src/server/handler.rs: verify_and_then"]}
{"id": "C62", "title": "The example client and server complete the three-legged handshake", "statement": "With clocks in step and working libraries, the example client obtains temporary credentials and a token from the example server and both echo requests return the parameters that were sent, for any text in their fields as long as the URI of the GET request has at most 65534 bytes (the limit of http::Uri); beyond that the client panics before it sends that request.", "quantifier": "every field text, nonces, timestamps and clocks within 30 seconds", "why_tests_cant": "All texts, nonces and timestamps.", "anchors": ["examples/src/client/main.rs: main", "examples/src/client/auth.rs", "examples/src/client/request.rs: send", "examples/src/server/main.rs", "oauth1-request-derive/src/method_body.rs"]}
{"id": "C63", "title": "Parameter names are percent-encoded like values", "statement": "Form bodies, query strings and the signed text contain the percent-encoded name of every parameter, for every name.", "quantifier": "every list of parameters with any names", "why_tests_cant": "All names, including ones with reserved characters or non-ASCII text.", "anchors": ["oauth1-request/src/serializer/urlencode.rs", "oauth1-request/src/serializer/auth.rs: serialize_parameter", "oauth1-request/src/serializer.rs: Serializer"]}
{"id": "C64", "title": "The default ParameterList is sorted", "statement": "ParameterList::default() is a sorted list like any other ParameterList, so using it never violates the order that serializers rely on.", "quantifier": "every container type with a default", "why_tests_cant": "Default containers are a type parameter.", "anchors": ["oauth1-request/src/request/parameter_list.rs: Default"]}
{"id": "C65", "title": "A conforming server accepts every transport of the protocol parameters", "statement": "A server that follows RFC 5849 section 3.5 accepts the authorization header with the request parameters in body or query, the signed form joined with the request parameters, and the signed query with the request parameters in body or query; it sees exactly the parameters of the request.", "quantifier": "every builder with HMAC-SHA1 or RSA-SHA1, honest request, method, URI and value", "why_tests_cant": "All values through encoding, transport, decoding and verification, for every way to send them.", "anchors": ["oauth1-request/src/lib.rs: Builder::authorize, to_form, to_query", "oauth1-request/src/request.rs: to_form, to_query"]}
{"id": "C66", "title": "RSA-SHA1 signed requests are accepted by a server with the public key", "statement": "If the public key accepts what the private key signs, a server that follows RFC 5849 section 3.4.3 accepts every request authorized with RSA-SHA1.", "quantifier": "every key pair, builder, honest request, method and URI", "why_tests_cant": "All keys and messages.", "anchors": ["oauth1-request/src/signature_method/rsa_sha1.rs: RsaSha1"]}
{"id": "C67", "title": "Output sizes are bounded by the input sizes", "statement": "Percent encoding at most triples the length of a value and double encoding multiplies it by at most five; a form is exactly as long as its names, encoded values and delimiters.", "quantifier": "every value and every request", "why_tests_cant": "All lengths.", "anchors": ["oauth1-request/src/util/percent_encoding.rs: PercentEncode, DoublePercentEncode", "oauth1-request/src/request.rs: to_form"]}
{"id": "C68", "title": "RSA-SHA1 works with real keys", "statement": "For every RSA key pair whose modulus has at least 46 bytes, a server that follows RFC 5849 section 3.4.3 and RFC 8017 accepts every request authorized with the private key, and for each signed text it accepts one signature only, the one the private key makes.", "quantifier": "every pair of distinct primes, pair of inverse exponents, builder, honest request, method, URI", "why_tests_cant": "All keys and messages; the argument is number theory.", "anchors": ["oauth1-request/src/signature_method/rsa_sha1.rs: RsaSha1, RsaSha1Sign"]}
{"id": "C69", "title": "Which RSA keys can be used", "statement": "With a private key whose modulus has fewer than 46 bytes no authorization returns (it panics); with a longer one every valid use returns.", "quantifier": "every key, entry point, buffer, request and method", "why_tests_cant": "All keys and requests.", "anchors": ["oauth1-request/src/signature_method/rsa_sha1.rs: RsaSha1Sign::end"]}
{"id": "C70", "title": "A signed header is good for one request only", "statement": "If a conforming server accepts an Authorization header made by the builder together with any method, URI and body, then method, base URI and set of parameters are those that were signed, unless the two different signed texts have the same HMAC or SHA-1 digest.", "quantifier": "every builder with HMAC-SHA1 or RSA-SHA1, honest request, and every method, URI and body presented to the server", "why_tests_cant": "All ways to tamper with a request.", "anchors": ["oauth1-request/src/lib.rs: Builder::authorize", "oauth1-request/src/signature_method/hmac_sha1.rs: HmacSha1Sign", "oauth1-request/src/signature_method/rsa_sha1.rs: RsaSha1Sign"]}
{"id": "C71", "title": "Exactly the documented field types compile", "statement": "Code generated for an accepted struct type-checks if and only if every field that is not skipped is as documented: its value type (the field's type, or the inner type if it is treated as an option, which must then be an Option) implements Display or is accepted by the fmt function, and is accepted by the skip_if function; and it is not called like a reserved word. Skipped fields may have any type. Code that type-checks runs for all values, type arguments and serializers.", "quantifier": "every accepted struct, assignment of types to its fields, set of Display implementations and functions in scope", "why_tests_cant": "All structs and type environments; compile-fail tests cover a few types.", "anchors": ["oauth1-request-derive/src/method_body.rs: MethodBody", "oauth1-request-derive/src/method_body/helper.rs: FmtHelper, SkipIfHelper", "oauth1-request-derive/src/lib.rs: add_trait_bounds", "oauth1-request/src/lib.rs: documentation of the derive macro"]}
{"id": "C72", "title": "A derived generic struct is a request for all type arguments that its fields allow", "statement": "If the derived implementation compiles, then for all type arguments that meet the struct's own bounds, and with which every field that is not skipped is as documented, the struct implements Request.", "quantifier": "every accepted generic struct, type arguments, bounds, field types", "why_tests_cant": "All instantiations of generic code.", "anchors": ["oauth1-request-derive/src/lib.rs: add_trait_bounds, expand_derive_oauth1_authorize"]}
{"id": "C73", "title": "A signature is of no use with other secrets or for another request, in any transport", "statement": "If a conforming HMAC-SHA1 server accepts any request that contains a signature made by the builder (for a header, form or query), then the server knows the same secrets and the request has the signed method, base URI and parameters, or two different pairs of key and text have the same HMAC; a server with other secrets rejects what the builder sends unless the HMACs of the signed text under the two different keys agree.", "quantifier": "every builder with HMAC-SHA1, honest request, transport, and every request and pair of secrets on the server's side", "why_tests_cant": "All ways to tamper with a request and all secrets.", "anchors": ["oauth1-request/src/lib.rs: Builder", "oauth1-request/src/signature_method/hmac_sha1.rs: HmacSha1Sign"]}
{"id": "C74", "title": "Timestamps are positive", "statement": "The oauth_timestamp value is a positive integer, as RFC 5849 section 3.3 demands.", "quantifier": "every builder, clock, request", "why_tests_cant": "All clocks.", "anchors": ["oauth1-request/src/serializer/auth.rs: get_current_timestamp"]}
{"id": "C75", "title": "Credentials survive any serde data format", "statement": "Credentials written with a serde data format are read back unchanged by the same format.", "quantifier": "all credentials and ways in which a format writes a struct: with names as text or bytes, with positions, or values only", "why_tests_cant": "All data formats and credentials.", "anchors": ["oauth-credentials/src/serde_imp.rs: Serialize, Deserialize for Credentials"]}
{"id": "C76", "title": "Derived code does not interfere with the names of the program", "statement": "The code generated for an accepted struct refers to what it is meant to, and the paths in attributes to what they refer to where the struct is, whatever constants, functions, types, generic parameters and traits there are in the surrounding program.", "quantifier": "every accepted struct and surrounding program (names of constants, types, generic parameters, functions in attributes, and methods of traits in scope)", "why_tests_cant": "All programs; the repository has one struct whose functions are called like the generated bindings.", "anchors": ["oauth1-request-derive/src/method_body.rs: MethodBody::to_tokens", "oauth1-request-derive/src/method_body/helper.rs: FmtHelper, SkipIfHelper", "oauth1-request-derive/src/lib.rs: expand_derive_oauth1_authorize"]}
{"id": "C77", "title": "A conforming server accepts PLAINTEXT requests", "statement": "A server that follows RFC 5849 section 3.4.4 accepts a request authorized with PLAINTEXT, in the header, form or query, if and only if it has the secrets of the client.", "quantifier": "all secrets of the client and of the server, requests, methods, URIs, clocks and random numbers", "why_tests_cant": "The answer depends on which bytes the secrets contain; the repository's tests compare the output with strings of the same code.", "anchors": ["oauth1-request/src/signature_method/plaintext.rs: PLAINTEXT, PlaintextSign", "oauth1-request/src/signature_method.rs: write_signing_key", "oauth1-request/src/lib.rs: Builder::authorize, Builder::to_form, Builder::to_query"]}
{"id": "C78", "title": "Nonce collisions are as rare as documented", "statement": "If every outcome of the random source is equally likely, n requests without a fixed nonce get n different nonces with probability N(N-1)...(N-n+1)/N^n for N = 2^72; with a million requests per second the expected time until two of one second have the same nonce is 299 years, as the source says.", "quantifier": "every builder without a fixed nonce, list of requests that can be authorized, and outcome of the random source for each", "why_tests_cant": "A statement about all 2^(72 n) outcomes.", "anchors": ["oauth1-request/src/serializer/auth.rs: gen_nonce, NONCE_LEN, Authorizer::serialize_oauth_nonce"]}
{"id": "C79", "title": "The JavaScript clock is truncated to whole seconds exactly", "statement": "With the js feature the timestamp is the number of whole seconds since 1970 for every time value of JavaScript from 1970 on, and 0 for earlier ones: neither the division in floating point nor the conversion to an integer is ever off.", "quantifier": "every ECMAScript time value (17.28 * 10^15 milliseconds)", "why_tests_cant": "All time values; rounding of a floating point division.", "anchors": ["oauth1-request/src/serializer/auth.rs: get_current_timestamp"]}
{"id": "C80", "title": "The status of the example server tells what is wrong", "statement": "The example server answers 404 exactly for unknown routes; at an endpoint it answers 400 if the parameters cannot be read, otherwise the status of the first problem in a fixed order (missing parameters, timestamp, token, verifier, signature, credentials), and 200 if there is none. Refusals have empty bodies.", "quantifier": "every HTTP request, time and library behaviour within the contracts", "why_tests_cant": "All requests; the repository has no test of the server.", "anchors": ["examples/src/server/handler.rs: verify_and_then, collect_oauth_params, echo, post_request_temp_credentials, post_request_token", "examples/src/server/main.rs: main"]}
{"id": "C81", "title": "The build configuration only decides which panics there are", "statement": "Debug assertions, the alloc feature and the std feature never change what is produced: whatever is authorized under two configurations is the same under both, for any request, and a panic that another configuration does not have is one of the documented checks (query in the URI, URI that cannot be displayed, order of the parameters) or the missing clock. The derive macro generates the same code in every configuration.", "quantifier": "every pair of configurations, builder, signature method, transport, method, URI, request, clock and random source", "why_tests_cant": "All pairs of builds; a test runs in one.", "anchors": ["oauth1-request/src/serializer/auth.rs: Authorizer, check_dictionary_order, get_current_timestamp", "oauth1-request/src/lib.rs: Builder", "oauth1-request/src/request.rs: AssertSorted", "oauth1-request-derive/src/method_body.rs: MethodBody::to_tokens"]}
{"id": "C82", "title": "The example client works with any conforming provider", "statement": "Whatever the server is, the example client asks for temporary credentials, then for token credentials with the temporary ones it was given, then sends its two requests with the token credentials it was given, and nothing else; a server that follows RFC 5849 and knows these credentials (which may contain any characters) verifies each of the requests and sees the client, token, callback, verifier and parameters; and the client succeeds exactly if all four are answered, the first two with one pair of credentials and the last two with text, and the URI of the GET request has at most 65534 bytes (the limit of http::Uri).", "quantifier": "every server (any function of the number of the request and the request), clock and random source, all values of the fields of the two requests", "why_tests_cant": "All servers and all credentials they hand out; the repository has one server with one set of credentials.", "anchors": ["examples/src/client/auth.rs: temporary_credentials, token_credentials, send_request", "examples/src/client/request.rs: send, SendRequest", "examples/src/client/main.rs: main, GetEcho, PostEcho"]}
{"id": "C83", "title": "Output is reproducible: clock and random source are used only where needed", "statement": "An authorization draws random bytes at most once and reads the clock at most once, and not at all if the nonce or the timestamp is configured: two runs of the same call that agree on the first draw and the first reading, as far as they are not configured, have the same result, panic or output. With a configured nonce and timestamp the output does not depend on when and where it is computed.", "quantifier": "every configuration, builder, signature method (also user-defined), transport, method, URI and request of the crate or the derive macro, and every pair of clocks and random sources; for user-defined requests, as many draws and readings as they ask for", "why_tests_cant": "All pairs of environments.", "anchors": ["oauth1-request/src/serializer/auth.rs: serialize_oauth_nonce, serialize_oauth_timestamp, gen_nonce, get_current_timestamp", "oauth1-request/src/lib.rs: Builder::nonce, Builder::timestamp"]}
{"id": "C84", "title": "Derived code refers to the right crate", "statement": "The derived implementation refers to the path given with #[oauth1(crate = path)] if there is one, whatever Cargo.toml says; otherwise to the name under which Cargo.toml lists oauth1-request (also a renamed one), and to oauth1_request where there is no Cargo.  An error about a missing crate is reported exactly if there is no such attribute and the lookup fails, and the macro panics only inside the crate oauth1-request itself, without the attribute and without the variable CARGO_CRATE_NAME.", "quantifier": "every struct, list of attributes, result of the lookup and environment", "why_tests_cant": "Tests run with one Cargo.toml.", "anchors": ["oauth1-request-derive/src/lib.rs: expand_derive_oauth1_authorize", "oauth1-request-derive/src/container.rs: ContainerMeta"]}
{"id": "C85", "title": "Secrets influence nothing but the signature", "statement": "Change the secrets of client and token in a builder and leave everything else as it is: with HMAC-SHA1 the output changes in one place only, the value of oauth_signature, and there only through the HMAC, under the key made from the secrets, of a text that does not depend on them; with PLAINTEXT that one place holds the key; with RSA-SHA1 nothing changes. Whether the call panics, and how, does not depend on the secrets.", "quantifier": "every configuration, environment, builder, transport, buffer, method, URI and request, and all secrets", "why_tests_cant": "Noninterference is a statement about all pairs of runs.", "anchors": ["oauth1-request/src/lib.rs: Builder::authorize, Builder::to_form, Builder::to_query", "oauth1-request/src/signature_method/hmac_sha1.rs: HmacSha1", "oauth1-request/src/signature_method/plaintext.rs: Plaintext", "oauth1-request/src/signature_method/rsa_sha1.rs: RsaSha1", "oauth1-request/src/serializer/auth.rs: Authorizer"]}
{"id": "C86", "title": "A derived struct is the parameter list of its fields", "statement": "A value of a struct with #[derive(Request)] behaves exactly like the ParameterList of the names and values of the fields that are not left out, in whatever order and way that list was made: for every serializer, hence with the same output or the same panic from every function of the crate. An encoded field counts as the value that its text is the percent encoding of: then the same calls succeed, with the same output.", "quantifier": "every struct the macro accepts and rustc compiles, every value of it, every serializer, builder, entry point and buffer (with encoded fields: the built-in signature methods and String buffers)", "why_tests_cant": "All structs and all values; the tests compare a few structs with literal texts.", "anchors": ["oauth1-request-derive/src/method_body.rs: MethodBody::to_tokens", "oauth1-request/src/request.rs: AssertSorted", "oauth1-request/src/request/parameter_list.rs: ParameterList"]}
{"id": "C87", "title": "HMAC signatures agree by accident only through SHA-1 collisions", "statement": "The HMAC-SHA1 signatures of two texts under two pairs of secrets agree exactly if HMAC does not tell the keys apart and the texts are the same or collide under SHA-1 behind the key block, or the outer texts of RFC 2104 collide. HMAC tells the keys of different secrets apart unless both are longer than 64 bytes and collide, or one is and its digest is itself the other key; keys of at most 64 bytes are always told apart. Hence a signature by the builder that passes at a conforming server with other secrets or for another request exhibits one of these collisions of SHA-1.", "quantifier": "all pairs of secrets and texts; every builder with HMAC-SHA1, honest request, transport, and every request and pair of secrets on the server's side", "why_tests_cant": "The zero padding and hashing of keys make different keys equivalent in general (k and k with a zero byte appended); that the crate never produces such keys is a statement about all secrets.", "anchors": ["oauth1-request/src/signature_method/hmac_sha1.rs: HmacSha1, SigningKey", "oauth1-request/src/signature_method.rs: write_signing_key", "oauth1-request/src/lib.rs: Builder::authorize, Builder::to_form, Builder::to_query"]}
{"id": "C88", "title": "Requests survive replay protection, replays do not", "statement": "At a provider that serves only the first request with a given client, token, timestamp and nonce (RFC 5849 section 3.3), any sequence of requests made with the crate, by any clients and in any transports, has exactly those served that differ from all before them in client, token, time or nonce; for one builder without a fixed nonce all are served exactly if no two have the same time and the same nine random bytes. Whoever makes up the requests, at most one with a given signature is served, unless one of the two has another signed text with the same HMAC or digest.", "quantifier": "all sequences of honest requests with HMAC-SHA1 or RSA-SHA1, accounts and memories of the provider; and all sequences of arbitrary messages", "why_tests_cant": "Sequences of any length from several clients, and arbitrary messages of an attacker.", "anchors": ["oauth1-request/src/lib.rs: Builder::authorize, Builder::to_form, Builder::to_query", "oauth1-request/src/serializer/auth.rs: Authorizer, gen_nonce, get_current_timestamp"]}
{"id": "C89", "title": "A buffer of limited capacity gets the whole output or the call panics", "statement": "With a buffer that accepts a piece exactly if everything stored so far together with it fits, authorize_with_buf, to_form_with_buf, to_query and the Urlencoder return exactly if the same call into a String returns a text that fits, and the buffer then holds this text; if the text does not fit the call panics because a write failed. This holds whatever the buffer does with a piece that does not fit (refuse it or store a part) and wherever in the output the limit is reached.", "quantifier": "every such buffer (every capacity), builder, request and signature method with well-behaved signatures; for the methods of the crate in particular", "why_tests_cant": "The limit may be reached in the middle of any of the writes, which depend on all the inputs.", "anchors": ["oauth1-request/src/lib.rs: Builder::authorize_with_buf, Builder::to_form_with_buf, Builder::to_query", "oauth1-request/src/serializer/urlencode.rs: Urlencoder", "oauth1-request/src/serializer/auth.rs: Authorizer"]}
{"id": "C90", "title": "Generated nonces lose requests to replay protection with negligible probability only", "statement": "If no nonce is fixed and every outcome of the random source is equally likely, the probability that a provider that remembers client, token, timestamp and nonce refuses any of a sequence of requests, by any clients and in any transports, is at most the number of pairs of requests with the same client, token and second, divided by 2^72; so at most n(m-1)/2^73 for n requests of which at most m are by the same client and token in a second. If no two have client, token and second in common all are served; if all have, the probability that all are served is N(N-1)...(N-n+1)/N^n for N = 2^72.", "quantifier": "all sequences of honest requests with HMAC-SHA1 or RSA-SHA1, clocks, accounts of the provider and choices of transport", "why_tests_cant": "A statement about the number of all outcomes of the random source for sequences of any length.", "anchors": ["oauth1-request/src/serializer/auth.rs: gen_nonce, get_current_timestamp", "oauth1-request/src/lib.rs: Builder::authorize, Builder::to_form, Builder::to_query"]}
{"id": "C91", "title": "Every standard reader reads the same", "statement": "What the crate writes does not depend on which standard a server reads it by. A form or query read by the WHATWG's form parser (\"+\" is a space, broken escapes stay, broken UTF-8 is replaced, empty fields are dropped) gives exactly the parameters, as RFC 5849's rules do; so does a signed form or query, also when the form is appended to the buffer behind another form. The header read by the grammar of RFC 7235 has exactly one reading, however many spaces are allowed after the scheme, and percent-decoded it is the protocol parameters and the signature that RFC 5849's rules give.", "quantifier": "every request whose names need no encoding and whose values are text; every builder whose strings are text, signature methods of the crate (for forms and queries those other than PLAINTEXT), buffers, methods and URIs", "why_tests_cant": "Agreement of different grammars on all outputs.", "anchors": ["oauth1-request/src/lib.rs: to_form, to_query, Builder::authorize, Builder::to_form_with_buf, Builder::to_query", "oauth1-request/src/serializer/urlencode.rs: Urlencoder", "oauth1-request/src/serializer/auth.rs: Authorizer", "oauth1-request/src/util/percent_encoding.rs: PercentEncode"]}
{"id": "C92", "title": "The room a signed request needs is known beforehand", "statement": "The length of a signed header, form or query is exactly that of the names, the values with three bytes for each byte that is encoded, and the punctuation (and so is that of a query without signature; C67 has the form). With HMAC-SHA1 a header is at most 302 bytes longer than three times the bytes the user supplied (consumer key, token, callback, verifier and nonce), a form at most 278, a query at most 279 plus the URI; with RSA-SHA1 and a key of k bytes a header is at most 217 + 12 * ceil(k/3) bytes longer; with PLAINTEXT a header is at most 218 and a form at most 194 bytes longer, plus the encoded secrets and their '&'; the request makes no difference. A buffer with that much room left never makes the call panic.", "quantifier": "every request, every builder (timestamps below 2^64), method, URI, environment and capacity", "why_tests_cant": "A bound over all inputs, of which the worst case is not obvious.", "anchors": ["oauth1-request/src/lib.rs: to_form, to_query, Builder::authorize, Builder::authorize_with_buf, Builder::to_form, Builder::to_query", "oauth1-request/src/serializer/auth.rs: Authorizer, gen_nonce", "oauth1-request/src/serializer/urlencode.rs: Urlencoder", "oauth1-request/src/signature_method/hmac_sha1.rs: HmacSha1"]}
{"id": "C93", "title": "What a hand-written request does is what is sent and signed", "statement": "A request that drives the serializer itself may forget, repeat or reorder calls. For every sequence of calls, authorize, to_form and to_query return under exactly stated conditions (a timestamp is needed only if asked for; debug builds check the order), one protocol parameter is sent per call that has a value and none without a call, repeated calls for a nonce or timestamp get fresh ones, header, form and query say the same, and exactly what is sent is signed. The signed text is the signature base string of what is sent if and only if the calls are in RFC 5849's order; a verifying server then accepts if and only if the signature method was asked for exactly once, whatever else was forgotten or repeated.", "quantifier": "all finite sequences of calls, builders with a signature method of the crate (for the header, any method whose answers about nonce, timestamp and name do not change), build configurations, buffers, methods and URIs", "why_tests_cant": "The sequences of calls are unbounded, and each call's effect depends on the ones before it.", "anchors": ["oauth1-request/src/serializer.rs: Serializer, SerializerExt::serialize_oauth_parameters", "oauth1-request/src/serializer/auth.rs: Authorizer", "oauth1-request/src/lib.rs: Builder::authorize, Builder::to_form_with_buf, Builder::to_query"]}
{"id": "C94", "title": "A server can verify a request by signing it again", "statement": "A server that has only this crate configures a builder with the identifiers, nonce, timestamp, callback, verifier and version it received, gives the parameters of query and body to a ParameterList, calls authorize and compares the signatures. For HMAC-SHA1 this decides exactly like a server that follows RFC 5849, and does not panic, for every header, URI and body that can be read, if the parameter names need no encoding and are not protocol parameters and no two values of a name are ones that the crate orders differently (C12). What the crate itself has signed is accepted without these conditions, and a builder can be configured from each such header.", "quantifier": "all headers, URIs and bodies, authentic or not, methods in upper case, secrets, build configurations, environments and sorts", "why_tests_cant": "An equivalence between two decision procedures over all messages, forged ones included.", "anchors": ["oauth1-request/src/lib.rs: Builder::authorize, Builder::nonce, Builder::timestamp, Builder::callback, Builder::verifier, Builder::version", "oauth1-request/src/request/parameter_list.rs: ParameterList::new", "oauth1-request/src/serializer/auth.rs: Authorizer"]}
{"id": "C95", "title": "Where and how the parameters are sent does not matter", "statement": "The builder signs a request once, as a header, a form or a query. However these protocol parameters and the parameters of the request are then sent - in header, query or body, in any order, written by any encoder ('+' for a space, digits in lower case, escapes that are not needed), with a realm, with method and host in other letter case or with the default port - a conforming server accepts the message and sees exactly these parameters. Of the messages with this signature it accepts no others, unless two different signed texts have the same HMAC or SHA-1 digest.", "quantifier": "every builder with HMAC-SHA1 or RSA-SHA1, honest request and form of output; all messages", "why_tests_cant": "All messages equivalent to a given one, by encoders that are not part of the crate.", "anchors": ["oauth1-request/src/lib.rs: Builder::authorize, Builder::to_form, Builder::to_query", "oauth1-request/src/serializer/auth.rs: Authorizer"]}
{"id": "C96", "title": "Requests are good for the provider's time window, and once", "statement": "A provider may refuse requests whose timestamp is further from its clock than a window, and forget the nonces that are older (RFC 5849 section 3.3). Of any sequence of requests made with the crate, by any clients and in any transports, it serves exactly those that arrive while the builder's time (the fixed timestamp or the clock) is within the window and that differ in client, token, time or nonce from all that arrived so before. Forgetting never changes an answer, whatever messages arrive: it serves no signature twice and none when its time is over, unless another signed text has the same HMAC or digest.", "quantifier": "all sequences of honest requests with HMAC-SHA1 or RSA-SHA1, arrival times that do not go back, windows, accounts and ways to forget; and all sequences of arbitrary messages", "why_tests_cant": "Sequences of any length from several clients at any times, and arbitrary messages of an attacker.", "anchors": ["oauth1-request/src/lib.rs: Builder::authorize, Builder::to_form, Builder::to_query, Builder::timestamp", "oauth1-request/src/serializer/auth.rs: Authorizer, get_current_timestamp, gen_nonce"]}
{"id": "C97", "title": "Timestamps do not go back unless the clock does", "statement": "A provider may refuse a request whose timestamp is smaller than that of an earlier one by the same client and token (OAuth Core 1.0a section 8). A client whose clock does not go back, and whose requests differ in second or random bytes, has all of its requests served there.", "quantifier": "all sequences of honest requests with HMAC-SHA1 or RSA-SHA1, in any transports, all clocks and accounts of the provider", "why_tests_cant": "Sequences of any length at any times; the tests fix the timestamp.", "anchors": ["oauth1-request/src/serializer/auth.rs: get_current_timestamp", "oauth1-request/src/lib.rs: Builder::authorize, Builder::to_form, Builder::to_query, Builder::timestamp"]}
{"id": "C98", "title": "A signature is of no use for another signature method", "statement": "At a provider that takes requests signed with any of HMAC-SHA1, RSA-SHA1 and PLAINTEXT and knows secrets and a public key for the client, a signature made by a builder with HMAC-SHA1 is accepted only as an HMAC-SHA1 signature and one made with RSA-SHA1 only as an RSA-SHA1 signature, whatever the message around it claims and whatever secrets and keys there are. So offering the other methods does not help anyone who reuses it: what is accepted is the signed request, or a collision of HMAC or SHA-1.", "quantifier": "every builder with HMAC-SHA1 or RSA-SHA1, honest request and transport; all secrets, public keys and messages", "why_tests_cant": "All messages an attacker may build around a signature, and all keys.", "anchors": ["oauth1-request/src/signature_method/hmac_sha1.rs: HmacSha1", "oauth1-request/src/signature_method/rsa_sha1.rs: RsaSha1", "oauth1-request/src/lib.rs: Builder::authorize, Builder::to_form, Builder::to_query"]}
{"id": "C99", "title": "A URI with parameters is one for every reader of URIs", "statement": "Given a URI without a query, to_query and Builder::to_query return a URI that RFC 3986 reads as the same URI with a query: scheme, authority, path and fragment are those of the URI given, the query follows the syntax of RFC 3986 and carries the parameters. What is signed for a URI that has a query or a fragment is accepted by no conforming server, whatever is sent, unless a collision is found.", "quantifier": "every URI text, honest request, builder and signature method; for the second part all messages, HMAC-SHA1 and RSA-SHA1", "why_tests_cant": "All URIs and, for the signatures, all messages.", "anchors": ["oauth1-request/src/lib.rs: to_query, Builder::to_query", "oauth1-request/src/serializer/urlencode.rs: Urlencoder::query", "oauth1-request/src/serializer/auth.rs: Authorizer"]}
{"id": "C100", "title": "The example server refuses requests that RFC 5849 does not allow", "statement": "Whatever request the example server serves, its protocol parameters are as RFC 5849 wants them: each at most once, all in one of header, form and query, and the version, if there is one, 1.0. What this crate sends is always like that.", "quantifier": "every HTTP request, time and library behaviour within the contracts; for the second part every builder and honest request, in form and query", "why_tests_cant": "All requests anyone may send, with any repeated or misplaced parameters.", "anchors": ["examples/src/server/handler.rs: collect_params, collect_oauth_params, verify_and_then", "oauth1-request/src/lib.rs: Builder::authorize, to_form, to_query"]}
{"id": "C101", "title": "The example server takes a body for a form however its content type is spelled", "statement": "The parameters in the body of a request count, for the signature and for the answer, whenever the content type says that it is a form: application/x-www-form-urlencoded in any case, with or without parameters such as charset. With any other content type the body has no influence.", "quantifier": "every HTTP request, content type, body, time and library behaviour within the contracts", "why_tests_cant": "All content types and bodies, and all answers.", "anchors": ["examples/src/server/handler.rs: verify_and_then", "examples/src/server/main.rs: main"]}
