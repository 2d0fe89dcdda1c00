# Formal model of dfinity/response-verification in Rocq (Coq 8.16.1)

(Generated by `tools/gen_design.py` from `tools/design_text.md`, `properties.jsonl` and `MANIFEST.json`.)

## 1. Approach

* `rocq/theories/*.v` models the code function by function, as total, computable
  Gallina functions over `list byte` (`Coq.Init.Byte.byte`; Rust and JavaScript
  strings are their UTF-8 bytes). Every definition of the model carries a comment
  with the file and lines it models and the simplifications it makes.
* Panics, failed `unwrap`s and arithmetic overflows in checked builds are explicit
  values (`OPanic`, `None`), so "never panics" is a theorem, not an assumption.
  The overflow mode is a parameter `checked`, the width of `usize` a parameter `umod`.
* Loops are structural recursion or folds. Where the Rust loop is not
  structural, recursion on explicit fuel is used; fuel exhaustion has its own
  value (`OFuel`, `RFuel`) and is proved unreachable (C22, C34, C71).
* SHA-256 is a parameter `H : list byte -> list byte` of the model. Theorems
  quantify over every `H` (with `length (H x) = 32` where needed). "Barring a
  collision" is never expressed as "or some collision exists" (true of every
  hash by the pigeonhole principle): the conclusion names two *different*
  messages that *these two computations* hashed and that have equal hashes.
  A concrete SHA-256 (`Sha256.v`) is checked on test vectors, so that
  examples can be compared with the repository's expected values. Concrete
  cases that only have to meet a theorem's hypotheses use a cheap hash with
  32-byte results (`Toy.v`), because coqchk re-evaluates them without the VM.
* Specifications stand in their own files `*Spec.v` (relations and finite maps,
  not the model's helpers). Theorem files are `Props_*.v`; each property theorem
  is followed by `Print Assumptions`, and by `Example`s that meet its hypotheses.
* A property that is false of the code keeps its English statement. The part that
  holds is proved (`..._partial` where a hypothesis had to be added), and a theorem
  `..._refuted` proves, on the model, that the full statement fails. Its manifest status is
  "partial".
* `seeded/LOG.jsonl` records wrong programs (hand-written edits and automatic
  mutations of the model) and the theorems that then fail.
  `tools/seed.py` and `tools/mutate.py` reproduce them.

## 2. Properties, what is modelled, how proved

| Id | Property | Model and specification | Method | Theorems in | Status |
|--|--|--|--|--|--|
| C01 | Pruning preserves the root hash | HashTree.v; spec HashTreeSpec.v | structural induction over trees and paths; hash collisions extracted from domain-separated encodings | Props_HashTree.v | proved |
| C02 | Equal root hash means consistent content (hash tree binding) | HashTree.v; spec HashTreeSpec.v | structural induction over trees and paths; hash collisions extracted from domain-separated encodings | Props_HashTree.v | proved |
| C03 | A found value in a witness is the value in the full tree | HashTree.v; spec HashTreeSpec.v | structural induction over trees and paths; hash collisions extracted from domain-separated encodings | Props_HashTree.v | proved |
| C04 | An absence answer in a witness is never a lie | HashTree.v; spec HashTreeSpec.v | structural induction over trees and paths; hash collisions extracted from domain-separated encodings | Props_HashTree.v | proved |
| C05 | Lookup agrees with the interface specification on every tree, including forks with empty branches | HashTree.v; spec HashTreeSpec.v | structural induction over trees and paths; hash collisions extracted from domain-separated encodings | Props_HashTree.v | partial |
| C06 | Value lookup and subtree lookup agree | HashTree.v; spec HashTreeSpec.v | structural induction over trees and paths; hash collisions extracted from domain-separated encodings | Props_HashTree.v | proved |
| C07 | list_paths is complete for lookups | HashTree.v; spec HashTreeSpec.v | structural induction over trees and paths; hash collisions extracted from domain-separated encodings | Props_HashTree.v | proved |
| C08 | RbTree behaves like a map for every history | RbTree.v; spec RbSpec.v | left-leaning red-black invariants; refinement to a finite map over all operation histories; pruning relation for witnesses | Props_RbTree.v | proved |
| C09 | RbTree operations never panic and keep the tree balanced | RbTree.v; spec RbSpec.v | left-leaning red-black invariants; refinement to a finite map over all operation histories; pruning relation for witnesses | Props_RbTree.v | proved |
| C10 | RbTree lookup depth is logarithmic | RbTree.v; spec RbSpec.v | left-leaning red-black invariants; refinement to a finite map over all operation histories; pruning relation for witnesses | Props_RbTree.v | proved |
| C11 | root_hash always equals the digest of the full hash tree | RbTree.v; spec RbSpec.v | left-leaning red-black invariants; refinement to a finite map over all operation histories; pruning relation for witnesses | Props_Nested.v, Props_RbTree.v | proved |
| C12 | Every witness has the tree's root hash | RbTree.v; spec RbSpec.v | left-leaning red-black invariants; refinement to a finite map over all operation histories; pruning relation for witnesses | Props_RbTree.v | proved |
| C13 | A key witness answers presence and absence correctly | RbTree.v; spec RbSpec.v | left-leaning red-black invariants; refinement to a finite map over all operation histories; pruning relation for witnesses | Props_RbTree.v | proved |
| C14 | Range witnesses prove exactly the range | RbTree.v; spec RbSpec.v | left-leaning red-black invariants; refinement to a finite map over all operation histories; pruning relation for witnesses | Props_RbMore.v, Props_RbTree.v | proved |
| C15 | Iteration is in key order and complete | RbTree.v; spec RbSpec.v | left-leaning red-black invariants; refinement to a finite map over all operation histories; pruning relation for witnesses | Props_RbMore.v, Props_RbTree.v | proved |
| C16 | NestedTree behaves like a map of paths | Nested.v; spec NestedSpec.v | refinement to a partial map on paths over all histories; merge of prunings of one tree | Props_Nested.v | proved |
| C17 | Deleting leaves no empty subtrees behind | Nested.v; spec NestedSpec.v | refinement to a partial map on paths over all histories; merge of prunings of one tree | Props_Nested.v | proved |
| C18 | Nested witness has the root hash and reveals the path | Nested.v; spec NestedSpec.v | refinement to a partial map on paths over all histories; merge of prunings of one tree | Props_Nested.v | proved |
| C19 | Merging two witnesses of the same tree never panics, keeps the root hash and reveals both | Nested.v; spec NestedSpec.v | refinement to a partial map on paths over all histories; merge of prunings of one tree | Props_Nested.v | proved |
| C20 | Hash tree CBOR round trip | Cbor.v; spec CborSpec.v | byte-level induction on encodings and fuel; counterexamples for the refuted ones | Props_Cbor.v | proved |
| C21 | Certificate CBOR round trip | Cbor.v; spec CborSpec.v | byte-level induction on encodings and fuel; counterexamples for the refuted ones | Props_Cbor.v | proved |
| C22 | CBOR decoding is total and rejects trailing bytes | Cbor.v; spec CborSpec.v | byte-level induction on encodings and fuel; counterexamples for the refuted ones | Props_Cbor.v | partial |
| C23 | CBOR integers are decoded to their RFC 8949 value | Cbor.v; spec CborSpec.v | byte-level induction on encodings and fuel; counterexamples for the refuted ones | Props_Cbor.v | partial |
| C24 | CBOR maps contain the announced number of entries | Cbor.v; spec CborSpec.v | byte-level induction on encodings and fuel; counterexamples for the refuted ones | Props_Cbor.v | partial |
| C25 | Representation independent hash ignores order | RiHash.v, HttpHash.v; spec HttpSpec.v | sorting/permutation lemmas; collision extraction; filter lemmas | Props_Hash.v | proved |
| C26 | Representation independent hash is binding | RiHash.v, HttpHash.v; spec HttpSpec.v | sorting/permutation lemmas; collision extraction; filter lemmas | Props_Hash.v | proved |
| C27 | The response hash covers status, certified headers and body | RiHash.v, HttpHash.v; spec HttpSpec.v | sorting/permutation lemmas; collision extraction; filter lemmas | Props_Hash.v | proved |
| C28 | The request hash covers method, certified headers, certified query and body | RiHash.v, HttpHash.v; spec HttpSpec.v | sorting/permutation lemmas; collision extraction; filter lemmas | Props_Hash.v | proved |
| C29 | Header filtering is exact and case-insensitive | RiHash.v, HttpHash.v; spec HttpSpec.v | sorting/permutation lemmas; collision extraction; filter lemmas | Props_Hash.v | proved |
| C30 | CEL expressions survive printing and parsing | Cel.v | parser/printer induction | Props_Cel.v | proved |
| C31 | Every CEL expression the builder accepts can be parsed by the verifier | Cel.v | parser/printer induction | Props_Cel.v | partial |
| C32 | CEL whitespace is insignificant | Cel.v | parser/printer induction | Props_Cel.v | proved |
| C33 | An accepted CEL expression says exactly one thing | Cel.v | parser/printer induction | Props_Cel.v | partial |
| C34 | more_specific_wildcards_for terminates | Wildcard.v, V2.v; spec WildcardSpec.v | induction on path length; list membership characterisation | Props_Wildcard.v | proved |
| C35 | more_specific_wildcards_for lists exactly the more specific wildcards | Wildcard.v, V2.v; spec WildcardSpec.v | induction on path length; list membership characterisation | Props_Wildcard.v | proved |
| C36 | Accepted expression path is the most specific one in the certified tree | Wildcard.v, V2.v; spec WildcardSpec.v | induction on path length; list membership characterisation | Props_Wildcard.v | partial |
| C37 | Exact path acceptance is iff | Wildcard.v, V2.v; spec WildcardSpec.v | induction on path length; list membership characterisation | Props_Wildcard.v | proved |
| C38 | Certificate time window | CertVerify.v, Leb128.v, SigCache.v; spec CertSpec.v | decision lemmas; transition system with arbitrary interleavings for the cache | Props_Cert.v | proved |
| C39 | Time check is total | CertVerify.v, Leb128.v, SigCache.v; spec CertSpec.v | decision lemmas; transition system with arbitrary interleavings for the cache | Props_Cert.v | partial |
| C40 | Delegation is checked against the root key, at most one level, and within canister ranges | CertVerify.v, Leb128.v, SigCache.v; spec CertSpec.v | decision lemmas; transition system with arbitrary interleavings for the cache | Props_Cert.v | proved |
| C41 | The signature cache never changes a verdict | CertVerify.v, Leb128.v, SigCache.v; spec CertSpec.v | decision lemmas; transition system with arbitrary interleavings for the cache | Props_Cert.v | proved |
| C42 | The signature cache stays within its capacity | CertVerify.v, Leb128.v, SigCache.v; spec CertSpec.v | decision lemmas; transition system with arbitrary interleavings for the cache | Props_Cert.v | proved |
| C43 | Base64 round trip, padding-indifferent | Base64.v, Header.v; spec HeaderSpec.v | round trips by induction; first-field characterisation | Props_Header.v | proved |
| C44 | Certificate header round trip | Base64.v, Header.v; spec HeaderSpec.v | round trips by induction; first-field characterisation | Props_Header.v | proved |
| C45 | Certificate header: first field wins, unknown fields are ignored | Base64.v, Header.v; spec HeaderSpec.v | round trips by induction; first-field characterisation | Props_Header.v | proved |
| C46 | No success below the requested version | Verify.v; spec VerifySpec.v | acceptance characterised exactly, composed with C03/C04/C36/C40 | Props_Verify.v | proved |
| C47 | v2 soundness | Verify.v; spec VerifySpec.v | acceptance characterised exactly, composed with C03/C04/C36/C40 | Props_Verify.v | proved |
| C48 | v2 returns only certified data | Verify.v; spec VerifySpec.v | acceptance characterised exactly, composed with C03/C04/C36/C40 | Props_Verify.v | proved |
| C49 | v1 soundness | Verify.v; spec VerifySpec.v | acceptance characterised exactly, composed with C03/C04/C36/C40 | Props_Verify.v | proved |
| C50 | v1 index fallback only if the path is absent | Verify.v; spec VerifySpec.v | acceptance characterised exactly, composed with C03/C04/C36/C40 | Props_Verify.v | partial |
| C51 | Everything certified verifies (completeness) | HttpTree.v; spec HttpTreeSpec.v | C18, C19, C36 composed over all histories of the certification tree | Props_HttpTree.v | proved |
| C52 | HttpCertificationTree.witness never panics | HttpTree.v; spec HttpTreeSpec.v | C18, C19, C36 composed over all histories of the certification tree | Props_HttpTree.v | proved |
| C53 | Certification path and verifier path agree | HttpTree.v; spec HttpTreeSpec.v | C18, C19, C36 composed over all histories of the certification tree | Props_HttpTree.v | proved |
| C54 | Certification requires the exact CEL header | HttpTree.v; spec HttpTreeSpec.v | C18, C19, C36 composed over all histories of the certification tree | Props_HttpTree.v | proved |
| C55 | Skip certification verifies for every request | HttpTree.v; spec HttpTreeSpec.v | C18, C19, C36 composed over all histories of the certification tree | Props_HttpTree.v | proved |
| C56 | Asset router serves what it certified | AssetRouter.v; spec AssetSpec.v | state machine over certify/delete histories, invariant linking stored responses and certified entries | Props_Backed.v, Props_Config.v | partial |
| C57 | Deleting an asset removes all its certifications | AssetRouter.v; spec AssetSpec.v | state machine over certify/delete histories, invariant linking stored responses and certified entries | Props_Revoke.v | partial |
| C58 | Re-certifying an asset revokes the old content | AssetRouter.v; spec AssetSpec.v | state machine over certify/delete histories, invariant linking stored responses and certified entries | Props_Revoke.v | partial |
| C59 | Served responses verify for the request they were served for | AssetRouter.v, Verify.v; spec ServeSpec.v | C56, C51, C47 composed; the served response runs through the modelled verifier | Props_Accept.v, Props_Roundtrip.v, Props_Trip.v | partial |
| C60 | Chunks of a large asset partition its content | AssetRouter.v; spec RangeSpec.v, ServeSpec.v | induction over chunk lists, strings and path segments | Props_Chunks.v | proved |
| C61 | Range header parsing is exact | AssetRouter.v; spec RangeSpec.v, ServeSpec.v | induction over chunk lists, strings and path segments | Props_Range.v | proved |
| C62 | Fallback scope lookup returns the longest matching scope | AssetRouter.v; spec RangeSpec.v, ServeSpec.v | induction over chunk lists, strings and path segments | Props_Roundtrip.v, Props_Serve.v | partial |
| C63 | Request paths are percent-decoded exactly | Verify.v, Utf8.v; spec VerifySpec.v, Utf8Spec.v | relational percent decoding; UTF-8 characterised as encodings of scalar values | Props_Utf8.v, Props_Verify.v | proved |
| C64 | Accepted responses were certified (end-to-end soundness) | HttpTree.v, Verify.v | soundness of verification against the history of certifications | Props_HttpTree.v | proved |
| C65 | Encoding negotiation honours the client | AssetRouter.v; spec ServeSpec.v | list search over encodings | Props_Encoding.v | partial |
| C66 | Asset router calls never panic | AssetRouter.v; spec AssetSpec.v | invariants over all call histories; exact effect of one call | Props_Router.v, Props_Serve.v | proved |
| C67 | certify_assets stores and certifies the configured responses | AssetRouter.v; spec AssetSpec.v | invariants over all call histories; exact effect of one call | Props_Router.v | proved |
| C68 | The result does not depend on hash map iteration order | AssetRouter.v; spec AssetSpec.v | invariants over all call histories; exact effect of one call | Props_Router.v | partial |
| C69 | Certification tree operations are exact | HttpTree.v | state refinement | Props_HttpTree.v | proved |
| C70 | Only responses the asset router certified are accepted | AssetRouter.v, Verify.v, Cbor.v | composition (C70), panic reasons by case analysis (C71), two-run comparison (C72) | Props_Only.v | proved |
| C71 | The verifier panics only for known reasons | AssetRouter.v, Verify.v, Cbor.v | composition (C70), panic reasons by case analysis (C71), two-run comparison (C72) | Props_Panic.v | partial |
| C72 | The verdict depends only on what is covered | AssetRouter.v, Verify.v, Cbor.v | composition (C70), panic reasons by case analysis (C71), two-run comparison (C72) | Props_Irrelevant.v | proved |
| C73 | Comparing trees compares their entries | RbCompare.v, RbTree.v, Nested.v, HttpTree.v | orders on sorted lists; fixpoints of redundant operations | Props_Compare.v | partial |
| C74 | Redundant operations leave a tree as it was | RbCompare.v, RbTree.v, Nested.v, HttpTree.v | orders on sorted lists; fixpoints of redundant operations | Props_Idempotent.v | proved |
| C75 | Serialized trees and certificates: exact shapes, round trip, agreement with ic-cbor | Serde.v; spec SerdeSpec.v | induction on serde data-model values | Props_Serde.v | partial |
| C76 | Comparing responses ignores header order only | HttpBuild.v | permutation equality; builder call histories | Props_Build.v | partial |
| C77 | Builders build what was last set | HttpBuild.v | permutation equality; builder call histories | Props_Build.v | proved |
| C78 | Asset maps list exactly what the router stores | AssetMap.v | C60/C67 composed | Props_AssetMap.v | partial |
| C79 | Test certificates verify exactly as asked for | CertBuilder.v; spec CertBuilderSpec.v | composition with C40 | Props_Builder.v | proved |
| C80 | Version 1 certified assets verify | V1Assets.v | C12/C13/C19/C49 composed | Props_V1.v | proved |
| C81 | The JavaScript certificate check accepts exactly valid certifications | JsBindings.v | case analysis; object entries as permutations | Props_Js.v | proved |
| C82 | The WebAssembly entry point gives the verdict of the Rust verifier | JsBindings.v | case analysis; object entries as permutations | Props_Js.v | partial |
| C83 | A refused response is refused with the error that says what is wrong | Errors.v; spec ErrorSpec.v | error-valued model proved equal to the verdict model; iff with an inductive list of faults | Props_Errors.v | partial |
| C84 | A refused certificate is refused with the error that says what is wrong | Errors.v; spec ErrorSpec.v | error-valued model proved equal to the verdict model; iff with an inductive list of faults | Props_Errors.v | proved |
| C85 | Merging any two hash trees overlays them, and fails exactly on a contradiction | Nested.v; spec MergeSpec.v | induction on two trees; positions | Props_Merge.v | proved |
| C86 | Witnesses with the same root hash can always be merged | Nested.v; spec MergeSpec.v | induction on two trees; positions | Props_Merge.v | proved |
| C87 | The json-api example serves the current todo list, and it verifies | JsonApi.v (examples/http-certification/json-api), HttpTree.v, Verify.v; spec JsonSpec.v | state invariant over histories: tree operations, response map and item map in step; refinement to an abstract todo list; C51 and C64 | JsonText.v, Props_Json.v | proved |
| C88 | The json-api example: nothing but current, correct responses verifies | JsonApi.v (examples/http-certification/json-api), HttpTree.v, Verify.v; spec JsonSpec.v | state invariant over histories: tree operations, response map and item map in step; refinement to an abstract todo list; C51 and C64 | Props_Json.v | proved |
| C89 | The json-api example: refusals and not-found responses verify | JsonApi.v (examples/http-certification/json-api), HttpTree.v, Verify.v; spec JsonSpec.v | state invariant over histories: tree operations, response map and item map in step; refinement to an abstract todo list; C51 and C64 | Props_Json.v | proved |
| C90 | The json-api example: every query it answers verifies | JsonApi.v (examples/http-certification/json-api), HttpTree.v, Verify.v; spec JsonSpec.v | state invariant over histories: tree operations, response map and item map in step; refinement to an abstract todo list; C51 and C64 | Props_JsonEx.v | partial |
| C91 | The json-api example: update calls report what they did | JsonApi.v (examples/http-certification/json-api), HttpTree.v, Verify.v; spec JsonSpec.v | state invariant over histories: tree operations, response map and item map in step; refinement to an abstract todo list; C51 and C64 | Props_Json.v | proved |
| C92 | The certified counter example: the page shows the count | Counter.v (examples/certification/certified-counter), RbTree.v, JsBindings.v | invariant over the number of increments; C81; preimages of two equal digests | Props_Counter.v | proved |
| C93 | The certified counter example: a shown count is the current one | Counter.v (examples/certification/certified-counter), RbTree.v, JsBindings.v | invariant over the number of increments; C81; preimages of two equal digests | Props_Counter.v | proved |
| C94 | Responses pass uncertified only where skipping was certified | HttpTree.v, AssetRouter.v, Verify.v; spec HttpTreeSpec.v, VerifySpec.v | C47/C48 on the canister's full tree; the terminator segment is unique in an entry's path; counterexample by search for a hash that is UTF-8 text, then vm_compute | Props_Skip.v, Props_SkipEx.v | partial |
| C95 | An asset router on a shared tree: stored responses stay certified | Shared.v (AssetRouter::with_tree), AssetRouter.v, HttpTree.v; spec Shared.v, ServeSpec.v, AssetSpec.v | run of events simulated by the router's step relation; invariants of C56-C59, C70, C94 carried over to mixed histories | Props_Shared.v | proved |
| C96 | An asset router on a shared tree: what it serves is accepted | Shared.v (AssetRouter::with_tree), AssetRouter.v, HttpTree.v; spec Shared.v, ServeSpec.v, AssetSpec.v | run of events simulated by the router's step relation; invariants of C56-C59, C70, C94 carried over to mixed histories | Props_Shared.v, Props_SharedGet.v | partial |
| C97 | An asset router on a shared tree: only certified responses are accepted | Shared.v (AssetRouter::with_tree), AssetRouter.v, HttpTree.v; spec Shared.v, ServeSpec.v, AssetSpec.v | run of events simulated by the router's step relation; invariants of C56-C59, C70, C94 carried over to mixed histories | Props_Shared.v | proved |
| C98 | Router calls leave the other entries of a shared tree alone | Shared.v (AssetRouter::with_tree), AssetRouter.v, HttpTree.v; spec Shared.v, ServeSpec.v, AssetSpec.v | run of events simulated by the router's step relation; invariants of C56-C59, C70, C94 carried over to mixed histories | Props_Shared.v | partial |
| C99 | The assets example starts and its metrics endpoint verifies | SiteExample.v (examples/http-certification/assets), Shared.v, AssetRouter.v, Verify.v; spec SiteExample.v | instances of C67, C96-C98 for the example's configuration; which configuration and file a stored response comes from | Props_Site.v | proved |
| C100 | The assets example: pages verify | SiteExample.v (examples/http-certification/assets), Shared.v, AssetRouter.v, Verify.v; spec SiteExample.v | instances of C67, C96-C98 for the example's configuration; which configuration and file a stored response comes from | Props_Site.v, Props_SiteEx.v | partial |
| C101 | The assets example: nothing else verifies | SiteExample.v (examples/http-certification/assets), Shared.v, AssetRouter.v, Verify.v; spec SiteExample.v | instances of C67, C96-C98 for the example's configuration; which configuration and file a stored response comes from | Props_Site.v | proved |
| C102 | The custom-assets example: answers verify | CustomAssets.v (examples/http-certification/custom-assets), HttpTree.v, Verify.v; spec CustomSpec.v | invariant relating the two response maps, the tree's history and the directory; then C51, C52 and the path rules of C36, C37 on that history | Props_Custom.v, Props_CustomEx.v | partial |
| C103 | The custom-assets example: only the site's files verify | CustomAssets.v (examples/http-certification/custom-assets), HttpTree.v, Verify.v; spec CustomSpec.v | invariant relating the two response maps, the tree's history and the directory; then C51, C52 and the path rules of C36, C37 on that history | Props_Custom.v | proved |
| C104 | The custom-assets example: certification is skipped at /uncertified only | CustomAssets.v (examples/http-certification/custom-assets), HttpTree.v, Verify.v; spec CustomSpec.v | invariant relating the two response maps, the tree's history and the directory; then C51, C52 and the path rules of C36, C37 on that history | Props_Custom.v | proved |
| C105 | The skip-certification example | SmallExamples.v (examples skip-certification, upgrade-to-update-call), HttpBuild.v, Verify.v; spec CustomSpec.v | instances of C55; no certificate header, so C46 excludes success | Props_Small.v | proved |
| C106 | The upgrade-to-update-call example | SmallExamples.v (examples skip-certification, upgrade-to-update-call), HttpBuild.v, Verify.v; spec CustomSpec.v | instances of C55; no certificate header, so C46 excludes success | Props_Small.v | proved |
| C107 | Texts of labels and hashes | Labels.v (Label's Display and Debug, pruned_from_hex); spec Props_Labels.v | inverse function on the text; induction on pairs of digits | Props_Labels.v | proved |
| C108 | JavaScript callers see what is wrong | JsErrors.v, Errors.v, JsBindings.v; spec ErrorSpec.v, Props_JsErrors.v | C83 composed with the table of codes | Props_JsErrors.v | proved |
| C109 | Requests and responses in Candid | Candid.v (derived and hand-written CandidType and Deserialize); spec Props_Candid.v | case analysis over field lookups; induction on header lists | Props_Candid.v | proved |
| C110 | Headers of the assets example | SiteExample.v; spec Props_SiteHeaders.v (security_headers, file_headers) | C99's case analysis of answers, with what is certified for every file | Props_SiteHeaders.v | proved |
| C111 | Ranges the wrong way round | RbTree.v, Props_RbMore.v (release_key_range, release_value_range: the same without debug assertions) | induction on the tree over the three range functions; key_bound lemmas of RbBounds.v | Props_RbMore.v | proved |
| C112 | Witnesses are logarithmic | RbTree.v, Nested.v, HttpTree.v; sizes in Props_Size.v | induction on the tree with the red-black height bound (C09); induction on the path; C34 bounds the number of wildcards | Props_Size.v | proved |
| C113 | Witnesses of nested trees are small | RbTree.v, Nested.v, HttpTree.v; sizes in Props_Size.v | induction on the tree with the red-black height bound (C09); induction on the path; C34 bounds the number of wildcards | Props_Size.v | proved |
| C114 | HTTP witnesses are small | RbTree.v, Nested.v, HttpTree.v; sizes in Props_Size.v | induction on the tree with the red-black height bound (C09); induction on the path; C34 bounds the number of wildcards | Props_SizeHttp.v | proved |
| C115 | Fixtures for tests verify | Fixtures.v, CertBuilder.v, JsBindings.v; spec CertBuilderSpec.v, Props_Fixtures.v (entry_for, is_range) | composition of C51 and C79; induction on the chain of calls | Props_Fixtures.v | proved |
| C116 | Certificates built in JavaScript | Fixtures.v, CertBuilder.v, JsBindings.v; spec CertBuilderSpec.v, Props_Fixtures.v (entry_for, is_range) | composition of C51 and C79; induction on the chain of calls | Props_Fixtures.v | proved |
| C117 | The language ic-cbor reads | Cbor.v; spec CborGrammar.v (item, item_bytes, item_value, well_formed) | induction on the length of the input and on the fuel of the parser | Props_CborGrammar.v | proved |
| C118 | Which byte strings decode to trees, certificates, ranges and lists | Cbor.v; spec CborGrammar.v, CborDocs.v (is_tree, is_certificate, is_ranges, is_strings) | C117 and inversion of the decoded value; last-entry lemma for maps by induction from the right | Props_CborDocs.v | proved |
| C119 | The two decoders agree | Cbor.v, Serde.v; spec CborGrammar.v, CborDocs.v, Props_Agree.v (serde_view, no_simple) | C118 and induction on the tree and on the entries of the map | Props_Agree.v | proved |
| C120 | When v2 verification succeeds, exactly | Verify.v, V2.v, Wildcard.v; spec VerifySpec.v, WildcardSpec.v, Props_V2Iff.v (shown_expression_path, returned), Props_Verify.v (shown_entry) | inversion of the verifier; C35 for the list of wildcards, and the same for the wildcard with a slash | Props_V2Iff.v | proved |
| C121 | Which strings the verifier's base64 engine decodes | Base64.v; spec Props_Base64.v (is_base64, written, padding) | induction on groups of four characters, arithmetic of the written numbers | Props_Base64.v | proved |
| C122 | The certification expressions the verifier accepts, exactly | Cel.v; spec CelGrammar.v (expr, items, fields, means) | soundness by induction on fuel, completeness by mutual induction on the grammar, UTF-8 scalar by scalar | Props_CelGrammar.v | proved |
| C123 | The time of a certificate, byte for byte | Leb128.v, CertVerify.v; spec Props_Leb.v (leb128) | induction on the bytes read, with the shift as invariant | Props_Leb.v | proved |
| C124 | The work of reading CBOR | CborCost.v (instrumented copy of Cbor.v and Header.v); spec CborCost.v (slow, padded_tree, item_count), CborGrammar.v | erasure of the counter; induction on n; potential (length + 1) * 2^maps for the general bound | Props_Cost.v | partial |
| C125 | The work of reading certification expressions | CelCost.v (instrumented copy of Cel.v) | erasure of the counter; amortised count: separators pay for calls | Props_CelCost.v | proved |
| C126 | The recursion depth of the readers | Cbor.v, Cel.v, Header.v; spec CborCost.v (deep, padded_tree), Props_Depth.v (brackets) | the readers are monotone in their fuel; induction on the depth | Props_Depth.v | partial |
| C127 | The length of the certificate header | HttpTree.v, Header.v, Cbor.v, Base64.v; spec as C114 | length of each encoded node by induction on the tree; strings of the witness are segments of inserted entries | Props_HeaderSize.v | proved |
| C128 | An expression stands for one policy | Cel.v (print_cel), Header.v; spec Props_ExprText.v (no_quote, line_text), CelSpec.v | unique splitting at quotes; explicit counterexamples | Props_ExprText.v | partial |
| C129 | The headers the library writes are one line of printable characters | Cel.v (print_cel), Header.v; spec Props_ExprText.v (no_quote, line_text), CelSpec.v | unique splitting at quotes; explicit counterexamples | Props_ExprText.v | partial |
| C130 | Decoding a compressed body does not depend on how the decoder cuts it | Body.v (decoder as a state machine); spec Props_Body.v (keeps_contract, hands_out) | induction on the sequence of reads; equal to decode_body of Verify.v | Props_Body.v | partial |
| C131 | The root hash is the one the interface specification defines | HashTree.v, RbTree.v, HttpTree.v, CertVerify.v; spec Props_RootHash.v (reconstructs) | induction on the tree and the derivation; witnesses through C11, C12, C52 | Props_RootHash.v | proved |
| C132 | Encoded variants are served to the clients that accept them | AssetRouter.v, Encodings.v; spec Props_Variants.v (http_name, preference, best_encoding), AssetSpec.v, ServeSpec.v | what is written (C67), which response is chosen (C62, C65), what serve_asset returns (C66) | Props_Variants.v | partial |
| C133 | What is accepted was certified recently | CertVerify.v, Verify.v, HttpTree.v, AssetRouter.v; spec Props_Fresh.v (state_time), HttpTreeSpec.v, ServeSpec.v | C38 and C40 on the same certificate give a state with the time and the data; then C47, C49 and the entry behind it (C64, C70) for the history published at that time | Props_Fresh.v | proved |
| C134 | What is accepted from an asset router was certified recently | CertVerify.v, Verify.v, HttpTree.v, AssetRouter.v; spec Props_Fresh.v (state_time), HttpTreeSpec.v, ServeSpec.v | C38 and C40 on the same certificate give a state with the time and the data; then C47, C49 and the entry behind it (C64, C70) for the history published at that time | Props_FreshRouter.v | proved |
| C135 | Changes to a tree do logarithmic work | RbCost.v (counting copies of RbTree.v) | the copies project to the originals; bounds by induction along the red-black shapes of RbShape.v, black height at most log2(n+1) | Props_RbCost.v | proved |
| C136 | The certified counter example across upgrades | Counter.v (counter_upgrade, counter_after) | the state after the last upgrade is that of the increments since (induction over the history), then C92, C93 | Props_CounterUpgrade.v | partial |
| C137 | What is accepted from the json-api example was its answer within the time window | JsonApi.v, Verify.v, CertVerify.v | C133 gives the recent state the certificate speaks for; its data is the root of the api's tree after a published history; then the core of C88 | Props_FreshJson.v | proved |
| C138 | The text of an error tells what is wrong | Messages.v | Debug of strings and of lists of strings is prefix-free (induction), so each text can be taken apart again; errors reported by the verifier only carry UTF-8 | Props_Messages.v | proved |
| C139 | The text of an error is one printable line | Messages.v | Debug of strings and of lists of strings is prefix-free (induction), so each text can be taken apart again; errors reported by the verifier only carry UTF-8 | Props_Messages.v, Props_MessagesEx.v | partial |
| C140 | The json-api example speaks JSON | JsonApi.v (json_escape, json_todo, json_ok, json_err), JsonGrammar.v | the bodies are derived in the grammar; the grammar is unambiguous by mutual induction (each production is prefix-free) | Props_JsonText.v | proved |
| C141 | A refused certification expression is refused with the error that says what is wrong | CelErrors.v, CelErrorSpec.v | the error of each function is characterised by an inductive relation; C122 for the syntax; a sweep over all functions shows which errors are never built | Props_CelErrors.v | proved |
| C142 | Errors about certification expressions name the right thing | CelErrors.v, CelErrorSpec.v | the error of each function is characterised by an inductive relation; C122 for the syntax; a sweep over all functions shows which errors are never built | Props_CelErrors.v | partial |
| C143 | A refused CBOR document is refused with the error that says what is wrong | CborErrors.v, CborErrorSpec.v | induction on values and on the derivation of a fault; forgetting the errors gives the functions of Cbor.v | Props_CborErrors.v | proved |
| C144 | CBOR that ends too early is reported as such | CborErrors.v, CborErrorSpec.v | induction on values and on the derivation of a fault; forgetting the errors gives the functions of Cbor.v | Props_CborErrors.v | partial |
| C145 | A canister whose certification is refused gets the error that says what is wrong | CanisterErrors.v, CanisterErrorSpec.v | the same functions with their error values, forgetting them gives HttpTree.v and AssetRouter.v; inversion and induction on headers, digits and the steps of a call | Props_CanisterErrors.v | proved |
| C146 | An asset canister gets the error that says what is wrong | CanisterErrors.v, CanisterErrorSpec.v | the same functions with their error values, forgetting them gives HttpTree.v and AssetRouter.v; inversion and induction on headers, digits and the steps of a call | Props_CanisterErrors.v | proved |
| C147 | The text of a certificate error tells what is wrong with the certificate | CanisterMessages.v | as C138: fixed texts clash or a prefix code is peeled off (lists of numbers, principals under a readability hypothesis); C84 and C146 say which errors occur; induction on the bytes read for C149 | Props_CanisterMessages.v | proved |
| C148 | The text of a certification error tells what is wrong | CanisterMessages.v | as C138: fixed texts clash or a prefix code is peeled off (lists of numbers, principals under a readability hypothesis); C84 and C146 say which errors occur; induction on the bytes read for C149 | Props_CanisterMessages.v | partial |
| C149 | A certificate whose time cannot be read is refused with an error that shows it | CanisterMessages.v | as C138: fixed texts clash or a prefix code is peeled off (lists of numbers, principals under a readability hypothesis); C84 and C146 say which errors occur; induction on the bytes read for C149 | Props_CanisterMessages.v | partial |
| C150 | A client can download an asset part by part | Download.v, Props_Download.v | the client as an inductive relation; C62, C66 and C67 say what each request is answered with; induction on the bytes still missing; the refutation is a history of four calls | Props_Download.v | partial |
| C151 | The debug text of a hash tree shows the tree | TreeText.v, Props_TreeText.v | an inductive relation of trees that look alike; the text is read back from the left, by induction on the tree | Props_TreeText.v | proved |
| C152 | A proof discloses only what was asked for | Props_Privacy.v | induction on the path of a proof with the shape of key witnesses; the bounds of a missing key have no key between; merged proofs show what either shows | Props_Privacy.v | proved |
| C153 | The texts of CBOR and CEL reader errors tell the error | ReaderMessages.v, Props_ReaderMessages.v | debug texts of values are prefix-free, by induction on the value; the order of maps is a permutation; what the readers find has UTF-8 strings (grammars of C117 and C122) | Props_ReaderMessages.v | proved |
| C154 | Repeated asset router calls change nothing | Props_Recertify.v | the steps of a call (C67) are insertions and deletions that leave the tree as it is (C74); answers depend on the tree and on what is stored under each key only | Props_Recertify.v | proved |
| C155 | The version a response is accepted with | Props_Downgrade.v | C46 for the minimum; C47 and C49 applied to the canister's tree; the refutation computes both verdicts for a tree with both parts | Props_Downgrade.v | partial |
| C156 | The WebAssembly and the native verifier agree | Width.v, Props_Width.v | induction over the reader with 64-bit lengths: when it reads items to the end of the input, every length is at most the rest of the input, so below the narrower width; sizes of all byte strings read are bounded by the input's, which carries this to the delegation's certificate and ranges; the refutation computes both verdicts | Props_Width.v | partial |
| C157 | The spelling of the certificate header does not matter | Props_Spelling.v | C45's characterisation of an accepted header, with 'first' dropped for consistent headers; lifted to the verifier by replacing the header in place | Props_Spelling.v | proved |
| C158 | The clock decides only when a response is accepted | Props_Moment.v | C38/C39 lifted to the verifier: its answer is the time check's followed by a result that does not depend on the clock; a computed counterexample for tolerances larger than the clock | Props_Moment.v | partial |
| C159 | A response says the same thing whoever verifies it | Props_Replay.v | once a response is accepted, the verifier's answer for any other settings is the certificate check and the comparison with the certified data followed by the same result; C40 and C02 for the canisters | Props_Replay.v | proved |
| C160 | A response is accepted for the canister that certified it only | Props_Replay.v | once a response is accepted, the verifier's answer for any other settings is the certificate check and the comparison with the certified data followed by the same result; C40 and C02 for the canisters | Props_Replay.v | proved |
| C161 | The json-api example asks for an update call exactly where one can act | Props_JsonUpgrade.v | case analysis of the two route tables; same requests as [asks] of JsonSpec.v | Props_JsonUpgrade.v | proved |
| C162 | The root hash determines what a tree holds | Props_Determine.v | C02 between the full hash trees of two histories, which are then equal; the contents are read off them (C11, C69) | Props_Determine.v | proved |
| C163 | The text of a response tells the response, and shows a bounded part of its body | HttpText.v, Props_HttpText.v | the parts of the texts are prefix-free, as in C138 and C147; the body's text is ASCII without quotes, so it is shown as it is | Props_HttpText.v | proved |

No property was found inexpressible. Where a library outside /repo decides, it is a
parameter of the model (section 4) and the theorem holds for every value of it.

## 3. Trusted base

* Coq's kernel (8.16.1), its VM (used by `vm_compute` in examples and in a few
  finite case checks over the 256 bytes) and the OCaml runtime; `coqchk` rechecks
  everything without the VM.
* `Print Assumptions` is printed under each property theorem, and says "Closed under
  the global context" for every one of them: no axioms are used. `coqchk` lists, for
  the loaded libraries as a whole, the seven fields of the standard library's
  module `Coq.ssr.ssrunder.Under_rel` (`Under_rel`, `Under_rel_from_rel`,
  `Under_relE`, `Over_rel`, `over_rel`, `over_rel_done`, `under_rel_done`). They come
  with `Setoid`, which every standard-library arithmetic file loads; no theorem here depends on them.
* The reading of the Rust and TypeScript code into Gallina: the code is not executed
  here. Where the semantics of the Rust standard library or of a crate outside /repo is
  modelled rather than left as a parameter (`str::trim`, `split`, `parse::<u8>`, UTF-8,
  `HashMap::with_capacity`, nom combinators, base64, urlencoding, `cached::SizedCache`,
  serde's data model), it is from their published behaviour, as said in the comments.
* Evidence that the reading is right: the repository's own unit tests and fixed vectors
  (hash trees, red-black trees, CBOR, certificates with a real mainnet delegation,
  representation-independent hashes, request and response hashes, CEL, certificate headers,
  wildcard paths, v1 and v2 validation, nested trees, the signature cache, the HTTP
  certification tree, the asset router) are transcribed in `Conform_Core.v`, `Conform_Http.v`,
  `Conform_Nested.v`, `Conform_Tree.v`, `Conform_Assets.v` and are kernel-checked examples
  on the model; all of them hold. Large loops (map model test, iteration, LRU, long assets) are run at a
  smaller size, some with a cheap hash function; glob patterns are not modelled. They are tests: no claim rests on them.
* The English of properties.jsonl and the specification files.

## 4. Parameters (oracles) of the model

| Parameter | Stands for |
|--|--|
| `H` | SHA-256 |
| `vs pk sig msg` | BLS12-381 `core_verify` |
| `ple` | the order of `Principal` |
| `uri_path`, `uri_query` | `http::Uri` parsing |
| `gunzip`, `inflate` | flate2 decoders |
| `glob` | globset matching |
| `order` | `HashMap` iteration order |
| `sort` | `sort_unstable` (any sorting permutation) |
| `method_ok` | `http::Method::from_str` |
| `arrange`, `pub`, `sign`, `canister_of`, `subnet_of`, `parse_id` | IC crates used by the test certificate builder |
| `create`, `decode`, `reconstruct`, `leb` | @dfinity/agent and @dfinity/candid |

Theorems about genuine certificates state unforgeability as a hypothesis
(`unforgeable`: every message with a valid signature under the root or a delegated key
is the root hash of a well-formed state tree), shown satisfiable by an example.

## 5. What is modelled and what is not

Modelled: ic-certification (hash trees, `RbTree`, `NestedTree`, merging, `Certificate`,
`Delegation`, serde implementations at data-model level), ic-cbor, ic-representation-independent-hash,
ic-certificate-verification (with the signature cache and its locking),
ic-http-certification (requests, responses, builders, CEL expressions, hashing,
certifications, paths, wildcard paths, the certification tree, skip certification, response headers),
ic-response-verification (header parsing, CEL parsing, v1 and v2 validation, the verification
entry point, errors), ic-asset-certification (router, configuration, chunks, range requests, encodings,
fallbacks, redirects, asset map), ic-certification-testing (certificate builder),
ic-response-verification-test-utils (v1 asset trees, v2 fixtures), ic-certification-testing-wasm, ic-response-verification-wasm
and certificate-verification-js; the example canisters certified-counter, json-api, assets,
custom-assets, skip-certification and upgrade-to-update-call; candid types and values of requests
and responses; texts of labels and of the verifier's errors (Messages.v).

Not modelled: `Debug`/`Display` output of other types than labels, hash trees, requests and responses, the values of the two readers and the errors, logging,
candid's binary encoding, memory and stack limits (C126 counts the open calls of the readers; other deep recursion on nested trees can exhaust
the stack, too; the model has no stack), timing (other than the calls counted in C124 and C125), the examples' frontends and tests, build scripts, and the
internals of the libraries in section 4.

## 6. What the proofs found

Each is a theorem (`..._refuted`, or the theorem named).

* Lookups on trees with `Empty` nodes under forks are unsound/incomplete against the interface specification (C05).
* A CBOR map header announcing 2^64-1 entries panics the decoder (C22); negative integers are decoded with the
  wrong value above half their width (C23); maps may hold fewer entries than announced (C24). A
  26-byte certificate header panics the verifier for every request and key (C71).
* Header names with token characters outside `[A-Za-z0-9-]` cannot be verified, although the builder prints them (C31);
  expressions with both response lists or duplicate properties are accepted (C33).
* Request paths ending in a reserved segment, or equal to a directory wildcard without its slash, escape the most-specific rule (C35, C36);
  a first segment `http_expr` makes the tree's witness lack an absence proof (C51).
* An offset larger than the current time panics or rejects a current certificate (C39).
* A v1 witness that prunes the requested entry makes `/index.html` pass for it (C50).
* Asset router: deleting `/a//b` takes away `/a/b`'s certification (C56); chunks stay certified after deletion (C57), old content after
  re-certification (C58), and old chunks stay in the asset map (C78); requests with a query, another method, a Range header, or for
  a fallback scope itself get responses the verifier refuses (C59, C62); quality values are ignored (C65);
  two assets with one url depend on `HashMap` order (C68).
* Equal `RbTree`s may have different root hashes (C73); equal `HttpResponse`s with two certificate headers may get
  different verdicts (C76); pruned trees do not deserialize from streams or textual formats, human-readable labels do not round trip (C75).
* The test builder's nested delegations are never accepted and its time is truncated to 64 bits (C79).
* The JavaScript time check allows up to a millisecond more than the Rust one (C81); the wasm entry point traps on objects
  with a missing or invalid method or status (C82).
* `MissingCertificateExpression` is never reported; `ExactExpressionPathMismatch` reports the request path as concatenated segments, and
  `WildcardExpressionPathMismatch` the path without its terminator (C83).
* ic-cbor reads a null, a boolean or a float as a tag of the next item: `f6 07` is 7, and `f6` alone is an error (C117).
* A map of canister ranges or certificates given as longer arrays, and a delegation given as a sequence, are accepted or dropped silently by ic-cbor (C75).
* A certified path may contain the segments `<$>` and `<*>`. A response-only entry at `/a/<$>/` followed by the hash of a white-space variant of the skip
  expression makes the verifier accept every response for `/a` (C94).
* `delete_all_assets` of a router built with `with_tree` clears the whole shared tree, so endpoints other code certified in it no longer verify (C98).
* The assets example answers requests with a query string, range requests and slash variants such as //metrics with responses that do not verify (C100).
* The custom-assets example answers slash variants of certified paths such as //uncertified with index.html, which is then rejected (C102); it looks for encodings as substrings, so `Accept-Encoding: br;q=0` gets Brotli.
* Reading CBOR can take exponential time: ic-cbor closes a map at the first entry it cannot read and goes on from before that entry, so `82 a1` repeated n times and `80` (2n+1 bytes, accepted) take 3*2^n-2 parser calls. As elements after the parts of a hash tree node are ignored, anyone on the path can add such an element to the tree field of a valid IC-Certificate header: it still verifies, but 40 levels (about 110 characters) take 10^12 calls, before any signature is checked (C124).
* The readers of CBOR and of certification expressions recurse without a limit on the depth; one byte per level is enough (C126).
* In certification expressions white space is allowed before a closing quote, names may be empty, characters are compared by their low eight bits only, and text after the expression is ignored (C122).
* Base64 fields: the unused bits of the last character are ignored, so several header texts carry the same bytes (C121). The time in a certificate may have leading zero digits and further bytes (C123).
* Names in a policy are copied into the expression unescaped: a name with a double quote gives the text and hash of another policy, a name with a line break puts the line break into the IC-CertificateExpression header (C128, C129).
* Decompressing the body of a version 1 response has no limit on the decoded size (C130).
* Names of encodings in Accept-Encoding are compared exactly when looking a variant up (though not when ranking it): a client writing GZIP gets the uncompressed file (C132).
* The certified-counter example has no upgrade hook: after an upgrade its own response is rejected until the next
  increment, and a response from before the upgrade is still accepted if the platform keeps the certified data (C136).
* `MalformedUrl` shows the url unescaped: a request url with a line break yields an error text of several lines (C139).
* Errors about certification expressions: two documented errors are never reported, a missing `response_certification`
  is blamed on `RequestCertification`, and for a list element of the wrong type the list is shown (C142); ic-cbor never
  reports `UnexpectedEndOfInput` (C144).
* `TimeDecodingFailed` is built after the LEB128 reader has moved on: its `timestamp` never is the time that could not be
  read but what follows it, usually nothing (C149). Texts about wildcard paths do not escape quotes and are ambiguous (C148).
* Chunks of a variant that became small and then was deleted are still served to Range requests, also in the middle of
  the download of another variant with a different content (C150).
* If a canister's tree has entries of version 1 and version 2 for the same body, a boundary node can send the body with a version 1 header and any status and headers; callers that accept version 1 get it (`C155_downgrade_of_trees_with_both_parts_refuted`). A canister with version 2 entries only is safe whatever minimum is asked for.
* `to_usize` cuts 64-bit CBOR lengths off on 32-bit targets, so the WebAssembly verifier accepts certificates (with a length of 2^32 + 3 for a string of 3 bytes) that native ones reject (`C156_wide_build_accepts_what_narrow_build_does_refuted`); the converse cannot happen. `usize::try_from` would fix it.
* The json-api example serves responses that do not verify for query strings, bodies and `//todos`, and traps on `GET /` and `PATCH /todos` (C90).
