# Formal model of dfinity/response-verification in Rocq (Coq 8.16.1)

(Generated by `tools/gen_design.py` from `tools/design_text.md`, `properties.jsonl` and `MANIFEST.json`.)

## 1. Approach

* `rocq/theories/*.v` models the code function by function, as total, computable
  Gallina functions over `list byte` (`Coq.Init.Byte.byte`; Rust and JavaScript
  strings are their UTF-8 bytes). Every definition of the model carries a comment
  with the file and lines it models and the simplifications it makes.
* Panics, failed `unwrap`s and arithmetic overflows in checked builds are explicit
  values (`OPanic`, `None`), so "never panics" is a theorem, not an assumption.
  The overflow mode is a parameter `checked`, the width of `usize` a parameter `umod`.
* Loops are structural recursion or folds. Where the Rust loop is not
  structural, recursion on explicit fuel is used; fuel exhaustion has its own
  value (`OFuel`, `RFuel`) and is proved unreachable (C22, C34, C71).
* SHA-256 is a parameter `H : list byte -> list byte` of the model. Theorems
  quantify over every `H` (with `length (H x) = 32` where needed). "Barring a
  collision" is never expressed as "or some collision exists" (true of every
  hash by the pigeonhole principle): the conclusion names two *different*
  messages that *these two computations* hashed and that have equal hashes.
  A concrete SHA-256 (`Sha256.v`) is checked on test vectors, so that
  examples can be compared with the repository's expected values. Concrete
  cases that only have to meet a theorem's hypotheses use a cheap hash with
  32-byte results (`Toy.v`), because coqchk re-evaluates them without the VM.
* Specifications stand in their own files `*Spec.v` (relations and finite maps,
  not the model's helpers). Theorem files are `Props_*.v`; each property theorem
  is followed by `Print Assumptions`, and by `Example`s that meet its hypotheses.
* A property that is false of the code keeps its English statement. The part that
  holds is proved (`..._partial` where a hypothesis had to be added), and a theorem
  `..._refuted` proves, on the model, that the full statement fails. Its manifest status is
  "partial".
* `seeded/LOG.jsonl` records wrong programs (hand-written edits and automatic
  mutations of the model) and the theorems that then fail.
  `tools/seed.py` and `tools/mutate.py` reproduce them.

## 2. Properties, what is modelled, how proved

@@TABLE@@

No property was found inexpressible. Where a library outside /repo decides, it is a
parameter of the model (section 4) and the theorem holds for every value of it.

## 3. Trusted base

* Coq's kernel (8.16.1), its VM (used by `vm_compute` in examples and in a few
  finite case checks over the 256 bytes) and the OCaml runtime; `coqchk` rechecks
  everything without the VM.
* `Print Assumptions` is printed under each property theorem, and says "Closed under
  the global context" for every one of them: no axioms are used. `coqchk` lists, for
  the loaded libraries as a whole, the seven fields of the standard library's
  module `Coq.ssr.ssrunder.Under_rel` (`Under_rel`, `Under_rel_from_rel`,
  `Under_relE`, `Over_rel`, `over_rel`, `over_rel_done`, `under_rel_done`). They come
  with `Setoid`, which every standard-library arithmetic file loads; no theorem here depends on them.
* The reading of the Rust and TypeScript code into Gallina: the code is not executed
  here. Where the semantics of the Rust standard library or of a crate outside /repo is
  modelled rather than left as a parameter (`str::trim`, `split`, `parse::<u8>`, UTF-8,
  `HashMap::with_capacity`, nom combinators, base64, urlencoding, `cached::SizedCache`,
  serde's data model), it is from their published behaviour, as said in the comments.
* Evidence that the reading is right: the repository's own unit tests and fixed vectors
  (hash trees, red-black trees, CBOR, certificates with a real mainnet delegation,
  representation-independent hashes, request and response hashes, CEL, certificate headers,
  wildcard paths, v1 and v2 validation, nested trees, the signature cache, the HTTP
  certification tree, the asset router) are transcribed in `Conform_Core.v`, `Conform_Http.v`,
  `Conform_Nested.v`, `Conform_Tree.v`, `Conform_Assets.v` and are kernel-checked examples
  on the model; all of them hold. Large loops (map model test, iteration, LRU, long assets) are run at a
  smaller size, some with a cheap hash function; glob patterns are not modelled. They are tests: no claim rests on them.
* The English of properties.jsonl and the specification files.

## 4. Parameters (oracles) of the model

| Parameter | Stands for |
|--|--|
| `H` | SHA-256 |
| `vs pk sig msg` | BLS12-381 `core_verify` |
| `ple` | the order of `Principal` |
| `uri_path`, `uri_query` | `http::Uri` parsing |
| `gunzip`, `inflate` | flate2 decoders |
| `glob` | globset matching |
| `order` | `HashMap` iteration order |
| `sort` | `sort_unstable` (any sorting permutation) |
| `method_ok` | `http::Method::from_str` |
| `arrange`, `pub`, `sign`, `canister_of`, `subnet_of`, `parse_id` | IC crates used by the test certificate builder |
| `create`, `decode`, `reconstruct`, `leb` | @dfinity/agent and @dfinity/candid |

Theorems about genuine certificates state unforgeability as a hypothesis
(`unforgeable`: every message with a valid signature under the root or a delegated key
is the root hash of a well-formed state tree), shown satisfiable by an example.

## 5. What is modelled and what is not

Modelled: ic-certification (hash trees, `RbTree`, `NestedTree`, merging, `Certificate`,
`Delegation`, serde implementations at data-model level), ic-cbor, ic-representation-independent-hash,
ic-certificate-verification (with the signature cache and its locking),
ic-http-certification (requests, responses, builders, CEL expressions, hashing,
certifications, paths, wildcard paths, the certification tree, skip certification, response headers),
ic-response-verification (header parsing, CEL parsing, v1 and v2 validation, the verification
entry point, errors), ic-asset-certification (router, configuration, chunks, range requests, encodings,
fallbacks, redirects, asset map), ic-certification-testing (certificate builder),
ic-response-verification-test-utils (v1 asset trees, v2 fixtures), ic-certification-testing-wasm, ic-response-verification-wasm
and certificate-verification-js; the example canisters certified-counter, json-api, assets,
custom-assets, skip-certification and upgrade-to-update-call; candid types and values of requests
and responses; texts of labels and of the verifier's errors (Messages.v).

Not modelled: `Debug`/`Display` output of other types than labels, hash trees, requests and responses, the values of the two readers and the errors, logging,
candid's binary encoding, memory and stack limits (C126 counts the open calls of the readers; other deep recursion on nested trees can exhaust
the stack, too; the model has no stack), timing (other than the calls counted in C124 and C125), the examples' frontends and tests, build scripts, and the
internals of the libraries in section 4.

## 6. What the proofs found

Each is a theorem (`..._refuted`, or the theorem named).

* Lookups on trees with `Empty` nodes under forks are unsound/incomplete against the interface specification (C05).
* A CBOR map header announcing 2^64-1 entries panics the decoder (C22); negative integers are decoded with the
  wrong value above half their width (C23); maps may hold fewer entries than announced (C24). A
  26-byte certificate header panics the verifier for every request and key (C71).
* Header names with token characters outside `[A-Za-z0-9-]` cannot be verified, although the builder prints them (C31);
  expressions with both response lists or duplicate properties are accepted (C33).
* Request paths ending in a reserved segment, or equal to a directory wildcard without its slash, escape the most-specific rule (C35, C36);
  a first segment `http_expr` makes the tree's witness lack an absence proof (C51).
* An offset larger than the current time panics or rejects a current certificate (C39).
* A v1 witness that prunes the requested entry makes `/index.html` pass for it (C50).
* Asset router: deleting `/a//b` takes away `/a/b`'s certification (C56); chunks stay certified after deletion (C57), old content after
  re-certification (C58), and old chunks stay in the asset map (C78); requests with a query, another method, a Range header, or for
  a fallback scope itself get responses the verifier refuses (C59, C62); quality values are ignored (C65);
  two assets with one url depend on `HashMap` order (C68).
* Equal `RbTree`s may have different root hashes (C73); equal `HttpResponse`s with two certificate headers may get
  different verdicts (C76); pruned trees do not deserialize from streams or textual formats, human-readable labels do not round trip (C75).
* The test builder's nested delegations are never accepted and its time is truncated to 64 bits (C79).
* The JavaScript time check allows up to a millisecond more than the Rust one (C81); the wasm entry point traps on objects
  with a missing or invalid method or status (C82).
* `MissingCertificateExpression` is never reported; `ExactExpressionPathMismatch` reports the request path as concatenated segments, and
  `WildcardExpressionPathMismatch` the path without its terminator (C83).
* ic-cbor reads a null, a boolean or a float as a tag of the next item: `f6 07` is 7, and `f6` alone is an error (C117).
* A map of canister ranges or certificates given as longer arrays, and a delegation given as a sequence, are accepted or dropped silently by ic-cbor (C75).
* A certified path may contain the segments `<$>` and `<*>`. A response-only entry at `/a/<$>/` followed by the hash of a white-space variant of the skip
  expression makes the verifier accept every response for `/a` (C94).
* `delete_all_assets` of a router built with `with_tree` clears the whole shared tree, so endpoints other code certified in it no longer verify (C98).
* The assets example answers requests with a query string, range requests and slash variants such as //metrics with responses that do not verify (C100).
* The custom-assets example answers slash variants of certified paths such as //uncertified with index.html, which is then rejected (C102); it looks for encodings as substrings, so `Accept-Encoding: br;q=0` gets Brotli.
* Reading CBOR can take exponential time: ic-cbor closes a map at the first entry it cannot read and goes on from before that entry, so `82 a1` repeated n times and `80` (2n+1 bytes, accepted) take 3*2^n-2 parser calls. As elements after the parts of a hash tree node are ignored, anyone on the path can add such an element to the tree field of a valid IC-Certificate header: it still verifies, but 40 levels (about 110 characters) take 10^12 calls, before any signature is checked (C124).
* The readers of CBOR and of certification expressions recurse without a limit on the depth; one byte per level is enough (C126).
* In certification expressions white space is allowed before a closing quote, names may be empty, characters are compared by their low eight bits only, and text after the expression is ignored (C122).
* Base64 fields: the unused bits of the last character are ignored, so several header texts carry the same bytes (C121). The time in a certificate may have leading zero digits and further bytes (C123).
* Names in a policy are copied into the expression unescaped: a name with a double quote gives the text and hash of another policy, a name with a line break puts the line break into the IC-CertificateExpression header (C128, C129).
* Decompressing the body of a version 1 response has no limit on the decoded size (C130).
* Names of encodings in Accept-Encoding are compared exactly when looking a variant up (though not when ranking it): a client writing GZIP gets the uncompressed file (C132).
* The certified-counter example has no upgrade hook: after an upgrade its own response is rejected until the next
  increment, and a response from before the upgrade is still accepted if the platform keeps the certified data (C136).
* `MalformedUrl` shows the url unescaped: a request url with a line break yields an error text of several lines (C139).
* Errors about certification expressions: two documented errors are never reported, a missing `response_certification`
  is blamed on `RequestCertification`, and for a list element of the wrong type the list is shown (C142); ic-cbor never
  reports `UnexpectedEndOfInput` (C144).
* `TimeDecodingFailed` is built after the LEB128 reader has moved on: its `timestamp` never is the time that could not be
  read but what follows it, usually nothing (C149). Texts about wildcard paths do not escape quotes and are ambiguous (C148).
* Chunks of a variant that became small and then was deleted are still served to Range requests, also in the middle of
  the download of another variant with a different content (C150).
* If a canister's tree has entries of version 1 and version 2 for the same body, a boundary node can send the body with a version 1 header and any status and headers; callers that accept version 1 get it (`C155_downgrade_of_trees_with_both_parts_refuted`). A canister with version 2 entries only is safe whatever minimum is asked for.
* `to_usize` cuts 64-bit CBOR lengths off on 32-bit targets, so the WebAssembly verifier accepts certificates (with a length of 2^32 + 3 for a string of 3 bytes) that native ones reject (`C156_wide_build_accepts_what_narrow_build_does_refuted`); the converse cannot happen. `usize::try_from` would fix it.
* The json-api example serves responses that do not verify for query strings, bodies and `//todos`, and traps on `GET /` and `PATCH /todos` (C90).
