# Formal model of oauth1-request-rs

What is modelled, how each property of `properties.jsonl` is stated and proved, what the proofs
found, and what has to be trusted.

## 1. Method

* Each Rust function is a total Gallina function.  Every definition of the model cites the
  file and lines it models.  Panics are values (`Panic reason`), `&mut` arguments are returned.
* The specification (`Spec.v` and the other `Spec*.v`) is written from RFC 5849, RFC 3986, RFC 2104,
  RFC 4648, RFC 3174, RFC 8017 and the crate's documentation.  `Spec.v` does not mention the model; it has its
  own encoder, decoders, parsers, base string and verifying server.
* Properties are theorems that relate the model to the specification, for all inputs.
  `theories/Props*.v` hold them (`Theorem C##_...`), each with a `Print Assumptions` and with
  `Example`s that meet the hypotheses.
* A claim that is false of the code is stated as `..._refuted` with a witness (where possible, for a
  whole class of inputs).  Beside it stands the strongest true variant, `..._partial`, usually
  as an equivalence that says exactly when the claim holds.

### Files

| files | content |
|---|---|
| `Bytes`, `Crypto`, `CryptoTests` | byte strings and their order; SHA-1, HMAC, base 64, decimals; published vectors |
| `Spec` | RFC 5849: encoding, base string, keys, header and form parsers, verifying server |
| `SpecTests` | the examples printed in RFC 5849 (with erratum 2550) and OAuth Core 1.0a, accepted by the specification's server |
| `SpecFmt`, `SpecCalls`, `SpecCalls2`, `SpecAuth`, `SpecBuild`, `SpecBuilder`, `SpecForm`, `SpecPanic`, `SpecParams`, `SpecServer`, `SpecServer2`, `SpecReplay`, `SpecWindow`, `SpecOrder`, `SpecUri`, `SpecValid`, `SpecLimit`, `SpecManual`, `SpecResign`, `SpecSign`, `SpecDerive`, `SpecHttp`, `SpecExample` | small vocabularies for the statements: call sequences, what is sent and signed, histories, documented behaviour of the derive macro, grammar of the header, what the example server has to do |
| `MFmt`, `MPercent`, `MSerializer`, `MSign`, `MRequest`, `MAuth`, `MBuilder`, `MDebug`, `MCredentials`, `MSerde`, `MDerive`, `MTypes`, `MHygiene`, `MHttp`, `MServer`, `MClient`, `MJs` | the model |
| `Rsa` | RSASSA-PKCS1-v1_5 with SHA-1, key pairs |
| `ModelTests`, `ModelTests2`, `RsaTests`, `DeriveTests` | all of the repository's own tests run on the model: documentation examples, Twitter vectors, RSA vector, every error of the derive crate's UI tests, every expansion of its `pass.rs` |
| `L*` | lemmas |
| `Props*` | the property theorems |

## 2. How Rust is represented

* `str`/`String`/`[u8]` are byte lists (`list Byte.byte`).  A `str` is a byte list that happens to be UTF-8;
  theorems quantify over all byte lists unless stated.
* A `Display` value is the sequence of `write_str` calls it makes, and whether it finally
  reports an error, stops early or panics (`MFmt.v`).  Two values with the same concatenated text may chunk
  differently.
* A `fmt::Write` is a state and a `write_str` that returns the new state and whether it succeeded,
  or panics.
* Traits `Serializer`, `Sign`, `SignatureMethod` are records of functions, so a
  theorem quantified over the record quantifies over user implementations.
* `Request` values are functions that drive any `Serializer`.
* cfg switches (`debug_assertions`, features `alloc`, `std`) are fields of a `cfg` record.
* The environment (clock, random bytes) is an explicit argument.
* Loops over `OAuthParameter` use fuel with an explicit error that is proved unreachable.
* `sort_unstable_by` is any function that meets the standard library's contract; insertion
  sort shows the contract is satisfiable.
* The derive macro is a function from the parsed struct (after `syn`) to a list of errors or to
  generated statements (before `quote` renders them); an interpreter runs the statements on any serializer.
* serde's data formats are sequences of entries that the visitor consumes.
* The example server is a function from an HTTP request and a `world` (clock, build mode, library behaviours) to a
  response or a crash; the example client is a program against any function from requests to responses.

## 3. Plan per property

| id | model | proof |
|---|---|---|
| C01 | `PercentEncode`, `percent_encode`, ASCII set `RESERVED` | 256-case sweep for the set, induction over chunks |
| C02 | RFC encoder/decoder of `Spec.v` | induction; decode after encode is identity |
| C03 | `DoublePercentEncode` write loop, bit map, 1280-byte table | loop invariant, 256-case sweep for table |
| C04 | the slices passed to `from_utf8_unchecked` are explicit and checked; out-of-range or non-ASCII is a panic value | unreachability of the panic value |
| C05-C07 | `AssertSorted::serialize`, `OAuthParameter` | trace theorem: every run is a fold over one call sequence; induction on list |
| C08 | the `Request` impls | extensional equality for all serializers |
| C09-C11 | `ParameterList` operations as an op language | invariant over op histories; sorted permutations are equal up to displayed text |
| C12 | the same, plus base string | refuted with a witness; sufficient conditions and an exact one (`PropsExact.v`) |
| C13-C15 | `Urlencoder` | exact output by induction on the calls; parser of `Spec.v` inverts |
| C16, C26, C32, C49 | `Authorizer` over an arbitrary `Sign` record | exact output/sign-call theorem by induction on the calls |
| C17 | `HmacSha1Sign`, `UpdateSign` | composition of C03, C16, C21 with RFC sorting |
| C18 | whole pipeline, independent verifier in `Spec.v` | header/form parser inverts output; sorted permutation uniqueness |
| C19, C20 | base string / key functions | injectivity by splitting at reserved delimiters |
| C21 | `SigningKey` streaming state machine, SHA-1 as a byte-accumulating digest | invariant over chunks |
| C22 | `PlaintextSign` | exact value; refutation of transport encoding |
| C23 | `RsaSha1Sign` over an arbitrary PKCS#1 signer | exact value; non-interference |
| C24 | `Either` over arbitrary `Sign` records | simulation; refutation for overridden `consumer_key` |
| C25 | `Builder::to_form`/`to_query` | refuted: output carries no request parameter |
| C27 | header | alphabet invariant |
| C28-C30 | `Builder` and free functions | equalities, induction on setter histories |
| C31, C50 | `gen_nonce`, base64 | base64 injectivity; leading-zero trimming; refutation of non-emptiness |
| C33-C36 | panic paths of `make_sign`, `check_dictionary_order`, writers | iff theorems, soundness for every partial writer |
| C37 | `Recorder`, `Record::eq` | induction on calls |
| C38, C39, C51 | `oauth-credentials`, `Debug` impls | non-interference; state-passing map; `PlaintextSign` refuted; erasure simulation for HMAC |
| C40, C75 | serde visitor | induction on entries; computation |
| C41-C45, C52-C54 | derive macro: attributes, `Field`, `MethodBody`, interpreter of the generated code | induction on attributes and fields; permutation invariance; composition with C18 |
| C46 | method/URI feed | refuted with witnesses; exact condition |
| C47 | encoded parameters | equality of runs |
| C48, C74 | timestamps | decimal printer/reader round trip |
| C55, C56, C60 | example server: header grammar, parameter collection, base string, verification | parser = declarative grammar; percent-decoding, replacement of invalid UTF-8 and form parsing = declarative relations (`SpecHttp`); server accepts iff declarative `authentic` |
| C57-C59, C61 | the same | refuted; exact conditions |
| C62 | example client, derive macro, crate and example server together; `http::Uri` as oracle with a contract (`uri_library`) | composition of C41, C55 |
| C63, C67 | forms, signed text | exact lengths |
| C64 | `ParameterList::default` | refuted; exact condition |
| C65, C66 | all transports, RSA | parsers invert each transport; permutation invariance of the base string |
| C68, C69 | RSASSA-PKCS1-v1_5 | Fermat's little theorem by permutation of residues; big-endian round trips; size bounds |
| C70, C73 | everything against the verifying server | injectivity of the base string (C19), of base 64 and of the padding |
| C71, C72 | type checker for the generated statements, generic parameters and their bounds | case analysis of the statement of a field; type soundness by induction on statements |
| C76 | generated code with identifiers and spans, name resolution in a scope, choice of the method in method calls | symbolic evaluation of the generated code per field; equivalence with the absence of clashes |
| C77 | the header, form and query of PLAINTEXT at the server of `SpecServer2.v` | refuted with witnesses; exact condition in the header, never accepted in form and query (`PropsPlain.v`) |
| C78 | nonces in the headers of a list of requests, for every outcome of the random source | counting of lists without repetitions; Bonferroni bounds (`PropsNonce.v`) |
| C79 | `get_current_timestamp` with `js` (`MJs.v`), binary64 of the standard library | rounding error of one division below half a unit, which is less than 1/1000 (`LJs.v`) |
| C80 | `service` and `verify_and_then` of the example server | a list of problems and statuses; the first that applies (`PropsStatus.v`) |
| C81 | builders, authorizer, requests and derive macro under two configurations | simulation up to the key remembered by the ordering check (`PropsConfig.v`) |
| C82 | the example client with an arbitrary function as server | composition of C40 and C65; the outcome depends on the requests made only (`PropsClient.v`) |
| C83 | builders and authorizer with two environments | invariant: the counters of draws and readings are bounded by the calls made (`PropsEnv.v`) |
| C84 | crate lookup and `crate` attribute in the expansion | case analysis (`PropsCrate.v`) |
| C85 | builders with two pairs of secrets | simulation of signature states: replacing the key commutes with all calls (`LSim.v`, `PropsSecret.v`) |
| C86 | derived structs against `ParameterList` | both run as the same merge with the protocol parameters (`derived_merge` in `LDerive.v`, `PropsStruct.v`) |
| C87 | HMAC-SHA1 over the crate's signing keys | RFC 2104's blocks are injective on keys without zero bytes (`PropsCollide.v`); what remains are named collisions of SHA-1 |
| C88 | everything against a provider with a memory (`SpecReplay.v`) | induction on the sequence of requests; composition of C65, C68, C31 and C73 (`PropsReplay.v`) |
| C89 | writers of limited capacity (`SpecLimit.v`) | simulation of every entry point by the same call into a `String` (`LBound.v`, `PropsLimit.v`) |
| C90 | C88 with a random source | counting of the outcomes by induction on the sequence; C88 says which are refused (`PropsChance.v`) |
| C91 | one reading, whatever the standard | the executable readers are the relations of `SpecHttp` (C60); the outputs' exact shapes are in both languages (`PropsReaders.v`) |
| C92 | sizes of signed outputs | from the exact texts (C13, C14, C16), sizes by induction; room by C89 (`PropsSize.v`) |
| C93 | requests written by hand, any calls | induction over the calls as in C16 without assuming that each protocol method is called once (`PropsManual.v`, vocabulary in `SpecManual.v`) |
| C94 | verification by signing again | the received header is, up to order, the protocol parameters of the builder set up from it; C17 and C12 (`PropsResign.v`, vocabulary in `SpecResign.v`) |
| C95 | where and how parameters are sent | the base string depends on the decoded parameters up to order (`PropsMove.v`); C19 for the converse |
| C96 | a provider with a time window (`SpecWindow.v`) | invariant relating the memory of a provider that forgets to one that does not (`PropsWindow.v`); C88, C73 |
| C97 | a provider that wants nondecreasing times (`SpecOrder.v`) | invariant: what was refused is dominated by something served (`PropsOrder.v`); refuted for one case of clock readings, exact condition |
| C98 | a provider with all three signature methods | sizes and alphabets of the signatures: 20 bytes, at least 46 bytes, a text with "&" (`PropsConfuse.v`); C73 |
| C99 | URIs as RFC 3986 reads them (`SpecUri.v`) | unique reading; exact condition (no fragment), refuted otherwise; base string URIs have neither query nor fragment, so C73 gives the rest (`PropsUri.v`) |
| C100 | validity of the protocol parameters by RFC 5849 sections 3.1, 3.2 and 3.5 (`SpecValid.v`) | refuted with a request of this crate and for all versions and additional tokens; what the server looks at; the crate sends valid parameters (`PropsValid.v`) |
| C101 | content types that say that the body is a form (`SpecValid.v`) | refuted with a request of this crate; with any other text the answer is that without the body (`PropsMedia.v`) |

## 4. Trusted base

* Coq 8.16.1's kernel (including `vm_compute`).
* Axioms: none.  `Print Assumptions` says "Closed under the global context" under every property
  theorem.  (`coqchk -o` and vcheck also list seven constants of `Coq.ssr.ssrunder`; they are fields of a module type in
  the standard library's ssreflect files, loaded through the standard library; no theorem depends on them.)
* The hand translation from Rust to Gallina.
* Contracts of third-party code that stand for its source (`Crypto.v`, `MFmt.v`, `MHttp.v`, cited where used):
  `percent-encoding` (AsciiSet, iterator of chunks), `base64`, `sha1`, `hmac`, `rand` (an arbitrary stream of bytes),
  `rsa` (an arbitrary partial signing function; in C68-C70 RFC 8017's, `Rsa.v`), `fmt-cmp` (comparison of displayed text), `core::fmt` (adapters,
  `Debug` builders), slice sorting, `js_sys::Date::now` (any number; a time value of ECMA-262 in C79), `serde` data formats, `syn` parse results, `proc-macro-crate`, and for the
  examples `nom` 6, `hyper`, `form_urlencoded`, `std` number parsing, binary search and UTF-8.

### Modelled

* `oauth1-request/src`: `lib.rs` (Builder, Options, setters, all entry points and free functions), `request.rs`,
  `request/parameter_list.rs`, `serializer.rs` (provided methods included), `serializer/auth.rs`,
  `serializer/urlencode.rs`, `serializer/recorder.rs`, `signature_method.rs`,
  `signature_method/{digest_common, hmac_sha1, plaintext, rsa_sha1, rsa_sha1_06, rsa_sha1_09, either}.rs`, `util.rs`, `util/*`.
* `oauth-credentials/src`: `lib.rs`, `serde_imp.rs`.
* `oauth1-request-derive/src`: `lib.rs`, `container.rs`, `ctxt.rs`, `field.rs`, `meta.rs`, `method_body.rs`, `method_body/helper.rs`, `util.rs`: from parsed struct to
  generated statements, with all errors.
* `examples/src`: server (routing, header grammar, parameter collection, verification) and client.

### Not modelled

* Parsing of Rust by `syn`, rendering by `quote`, spans other than call site/mixed site (types of the generated code are
  checked in `MTypes.v`, where functions are described by the types they accept; names and methods are resolved in `MHygiene.v`).
* A `fmt::Write` that overrides `write_char` or `write_fmt`.
* Type-level plumbing: lifetimes, `PhantomData`, `Clone`/`Copy` derives.
* Interior mutability: a `Display` value shows the same writes whenever it is formatted.
* Memory safety other than C04; integer overflow of lengths (`usize`).
* Internals of the cryptographic primitives other than SHA-1/HMAC/base 64/RSA signatures, which are executable definitions (no blinding, no key parsing).
* Network, async scheduling, TLS in the examples.

## 5. Results

All 101 properties are settled: 74 proved, 27 refuted in full generality with exact or strongest positive variants
(`MANIFEST.json` has the theorem names and a note for each).

### Findings (witnesses are in the `_refuted` theorems)

| | finding | property |
|---|---|---|
| F1 | `Builder::to_form`/`to_query` are documented to include the request's parameters and never do | C25 |
| F2 | the PLAINTEXT signature is not percent-encoded in header, form or query; in a form its "&" always cuts the signature in two | C22, C77 |
| F3 | `ParameterList` sorts repeated keys by raw value, RFC 5849 by encoded value: conforming servers reject the request | C12 |
| F4 | `Either` does not delegate `Sign::consumer_key` | C24 |
| F5 | the generated nonce is empty for the all-zero draw | C31 |
| F6 | derive: `rename = ""` is rejected as a duplicate; skipped fields take part in the duplicate check; non-ASCII identifiers give keys that are not URI-safe; clashes with `oauth_*` are not detected | C43, C44, C53 |
| F7 | method is neither upper-cased nor encoded, the URI is not normalised | C46 |
| F8 | example server: a wrong PLAINTEXT signature is logged and accepted; HMAC key uses unencoded secrets; empty quoted values do not parse | C57, C58, C60 |
| F9 | parameter names are never percent-encoded, neither in forms nor in the signed text; different requests can have the same form | C63 |
| F10 | user parameters named like protocol parameters are sent in addition to them | C53 |
| F11 | `ParameterList::default` does not sort | C64 |
| F12 | documentation of `#[oauth1(crate = "name")]`: the string literal shown there is rejected, a path is required | (C45) |
| F13 | derive: a raw identifier `r#type` is accessed as `self.type`, which does not compile | C52 |
| F14 | `PlaintextSign` and with it `Authorizer` derive `Debug` and show the signing key | C51 |
| F15 | example server: only one space is skipped after the scheme although its grammar says `1*SP` | C60 |
| F16 | example server: `t + 30` overflows for timestamps near 2^64: a panic in debug builds, reachable without credentials; in release builds it wraps | C59 |
| F17 | example server: `realm` is included in the base string; parameters are sorted by raw value | C55, C56 |
| F18 | example server: the scheme name is compared case-sensitively | C60 |
| F19 | example server: nonces are not remembered, future timestamps are accepted | C61 |
| F20 | an RSA key with a modulus of fewer than 46 bytes is accepted by the constructors and then panics in every authorization | C69 |
| F21 | derive: every type parameter gets a `Display` bound, even if it only occurs in skipped or custom-formatted fields | C72 |
| F22 | in the first second of 1970 the timestamp sent is 0, which RFC 5849 does not allow (earlier clocks are mapped to 1; with the `js` feature they are mapped to 0 as well) | C74, C79 |
| F23 | serde: `Deserialize` of credentials has no `visit_seq`/`visit_u64`, so formats that write structs as sequences or fields as positions cannot read back what `Serialize` wrote | C75 |
| F24 | derive: generated code resolves items at the call site, so constants, statics and unit or tuple structs called `tmp`, `value`, `fmt`, `serializer`, `helper`, `f` or `t`, a generic parameter `_S`, anything called `_oauth1_request`, and types called `Copy`, `Fn`, `Sized` or `bool` break it; a trait in scope that is implemented for all types and has a method called like one of `Serializer`'s that takes `self` or `&self` gets the calls (the impl that accompanies error messages has the same problem with a parameter `S`) | C76 |
| F25 | the example client panics (`unwrap` of `http::Error`) when the parameters of a GET request make its URI longer than the 65534 bytes that `http::Uri` takes | C62, C82 |
| F26 | a clock that goes from before 1970 into its first second makes the timestamps go back from 1 to 0 (not with the `js` feature) | C97 |
| F27 | `to_query` and `Builder::to_query` put the parameters behind the fragment of a URI that has one, where no server gets them; the check in debug builds only looks for a query | C99 |
| F28 | example server: `oauth_version` is not looked at, repeated protocol parameters are accepted (the smallest value counts), and they may be spread over header, form and query | C100 |
| F29 | example server: a form whose content type has a parameter (`; charset=utf-8`) or other case is not read, so the signature does not match | C101 |

### Seeded bugs

`seeded/LOG.jsonl` lists edits of the model (in a scratch copy) in the manner of realistic bugs, the claim each
breaks and the theorems that failed.  `seeded/AUTO.jsonl` lists small edits made at random by a script (operators, literals,
swapped arguments, dropped cases) with the first proof that fails, or why none does.  A theorem in the first list counts as failed if its proof, with the proofs of broken lemmas
replaced by `Admitted`, fails or depends on one of them.
