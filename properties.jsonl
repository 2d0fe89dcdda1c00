{"id": "C01", "title": "Pruning preserves the root hash", "statement": "Replacing any subtrees of a hash tree by pruned nodes carrying those subtrees' digests yields a tree whose digest equals the digest of the original tree.", "quantifier": "every hash tree and every way of pruning it", "why_tests_cant": "tests prune a handful of hand-written trees; the claim is about every tree shape and every set of pruned positions", "anchors": ["packages/ic-certification/src/hash_tree/mod.rs: HashTreeNode::digest, pruned"]}
{"id": "C02", "title": "Equal root hash means consistent content (hash tree binding)", "statement": "If two hash trees have the same digest then, unless the two digest computations contain an explicit SHA-256 collision (two different hashed messages with the same hash), the trees agree wherever neither is pruned: same shape, labels and leaf contents.", "quantifier": "every pair of hash trees, every 32-byte hash function", "why_tests_cant": "no finite set of trees can show that no different tree has the same digest", "anchors": ["packages/ic-certification/src/hash_tree/mod.rs: HashTreeNode::digest, domain_sep, fork_hash, leaf_hash, labeled_hash"]}
{"id": "C03", "title": "A found value in a witness is the value in the full tree", "statement": "If a lookup in a pruned version of a (sorted, well-formed) full tree finds a value at a path, then the same lookup in the full tree finds exactly that value.", "quantifier": "every well-formed full tree, every pruning of it, every path", "why_tests_cant": "quantifies over all prunings chosen by an adversary", "anchors": ["packages/ic-certification/src/hash_tree/mod.rs: HashTree::lookup_path, lookup_label"]}
{"id": "C04", "title": "An absence answer in a witness is never a lie", "statement": "If a lookup (of a value or of a subtree) in a pruned version of a sorted, well-formed full tree answers Absent then the path is absent from the full tree.", "quantifier": "every well-formed full tree, every pruning of it, every path", "why_tests_cant": "an adversary chooses what to prune; tests cover a few prunings", "anchors": ["packages/ic-certification/src/hash_tree/mod.rs: HashTree::lookup_path, lookup_subtree, lookup_label, LookupResult::Absent"]}
{"id": "C05", "title": "Lookup agrees with the interface specification on every tree, including forks with empty branches", "statement": "lookup of a path returns what the Internet Computer interface specification's lookup (flatten forks, then find the label) returns. (The specification's own example tree has a fork whose right branch is empty.)", "quantifier": "every sorted hash tree without pruned nodes, and every path", "why_tests_cant": "the library's tests only check the digest of that tree, never a lookup to the right of an empty branch", "anchors": ["packages/ic-certification/src/hash_tree/mod.rs: lookup_label"]}
{"id": "C06", "title": "Value lookup and subtree lookup agree", "statement": "lookup_path finds value v at a path exactly when lookup_subtree finds a leaf with content v there; if one reports Unknown/Absent because of a label on the path, so does the other.", "quantifier": "every hash tree and every path", "why_tests_cant": "relation between two recursive functions over all trees and paths", "anchors": ["packages/ic-certification/src/hash_tree/mod.rs: lookup_path, lookup_subtree"]}
{"id": "C07", "title": "list_paths is complete for lookups", "statement": "In every sorted well-formed tree, the paths reported by list_paths are exactly the paths at which lookup_path finds a value, each listed once.", "quantifier": "every sorted well-formed hash tree", "why_tests_cant": "universally quantified equivalence over all paths", "anchors": ["packages/ic-certification/src/hash_tree/mod.rs: list_paths, lookup_path"]}
{"id": "C08", "title": "RbTree behaves like a map for every history", "statement": "After any sequence of insert, delete and modify calls starting from an empty RbTree, get(k) returns the value of the latest insert/modify of k not followed by a delete of k, for every key k.", "quantifier": "every finite sequence of operations, every key", "why_tests_cant": "histories are unbounded; rebalancing paths depend on the history", "anchors": ["packages/ic-certification/src/rb_tree/mod.rs: RbTree::insert, delete, modify, get"]}
{"id": "C09", "title": "RbTree operations never panic and keep the tree balanced", "statement": "For every history, insert/delete/modify never hit an unwrap on a missing child nor a failing debug assertion, and afterwards the tree is a left-leaning red-black tree: no red node has a red child, all root-to-leaf paths have the same number of black nodes.", "quantifier": "every finite sequence of operations", "why_tests_cant": "a rebalancing bug needs a specific history to surface", "anchors": ["packages/ic-certification/src/rb_tree/mod.rs: RbTree::insert, delete, balance, rotate_left, rotate_right, flip_colors, move_red_left, move_red_right, is_balanced"]}
{"id": "C10", "title": "RbTree lookup depth is logarithmic", "statement": "After any history, the number of nodes visited by a get is at most 2*log2(n+1) where n is the number of keys.", "quantifier": "every finite sequence of operations, every key", "why_tests_cant": "worst-case bound over all reachable trees", "anchors": ["packages/ic-certification/src/rb_tree/mod.rs: RbTree::get, insert, delete"]}
{"id": "C11", "title": "root_hash always equals the digest of the full hash tree", "statement": "For every history, root_hash() equals as_hash_tree().digest(); cached subtree hashes are never stale.", "quantifier": "every finite sequence of insert/delete/modify, also for nested trees", "why_tests_cant": "a stale cache entry after one particular rotation would invalidate every later certificate", "anchors": ["packages/ic-certification/src/rb_tree/mod.rs: AsHashTree::root_hash, as_hash_tree, update_subtree_hash", "packages/ic-certification/src/nested_rb_tree.rs: NestedTree::root_hash"]}
{"id": "C12", "title": "Every witness has the tree's root hash", "statement": "witness, nested_witness (with a hash-preserving continuation), keys, key_range, value_range and keys_with_prefix return hash trees whose digest is the map's root hash.", "quantifier": "every reachable RbTree, every key / key range / prefix", "why_tests_cant": "all trees x all keys", "anchors": ["packages/ic-certification/src/rb_tree/mod.rs: witness, nested_witness, keys, key_range, value_range, keys_with_prefix, three_way_fork"]}
{"id": "C13", "title": "A key witness answers presence and absence correctly", "statement": "Looking k up in witness(k) finds the hash tree of the stored value if k is present and answers Absent (never Unknown) if it is not.", "quantifier": "every reachable RbTree and every key", "why_tests_cant": "absence proofs depend on neighbouring keys for every position", "anchors": ["packages/ic-certification/src/rb_tree/mod.rs: witness, lookup_and_build_witness, lower_bound, upper_bound, witness_range_between, witness_range_above, witness_range_below"]}
{"id": "C14", "title": "Range witnesses prove exactly the range", "statement": "In key_range(a,b) and value_range(a,b) (a<=b) every key within [a,b] is found when stored and provably absent when not stored; the same holds for keys_with_prefix and every key with the prefix.", "quantifier": "every reachable RbTree, every pair of bounds / prefix, every key in the range", "why_tests_cant": "all trees x all bounds x all keys", "anchors": ["packages/ic-certification/src/rb_tree/mod.rs: key_range, value_range, keys_with_prefix, right_prefix_neighbor"]}
{"id": "C15", "title": "Iteration is in key order and complete", "statement": "iter() and for_each() enumerate exactly the stored entries in strictly increasing byte order of keys.", "quantifier": "every reachable RbTree", "why_tests_cant": "explicit-stack traversal must be right for all shapes", "anchors": ["packages/ic-certification/src/rb_tree/mod.rs: Iter::step, Iter::next, for_each, Node::visit"]}
{"id": "C16", "title": "NestedTree behaves like a map of paths", "statement": "After any history of inserts and deletes, get(p) returns the value of the latest insert at exactly p unless a later insert at a path that is a prefix or an extension of p, or a delete of a prefix of p, removed it. In particular inserts and deletes never disturb values at unrelated paths.", "quantifier": "every finite history and every path", "why_tests_cant": "histories and paths are unbounded", "anchors": ["packages/ic-certification/src/nested_rb_tree.rs: NestedTree::insert, delete, get, contains_leaf, contains_path"]}
{"id": "C17", "title": "Deleting leaves no empty subtrees behind", "statement": "If every inserted path is eventually deleted, the tree has the root hash of the empty tree; more generally after inserts and deletes no path leads to an empty subtree.", "quantifier": "every finite history", "why_tests_cant": "garbage would silently change the certified root hash", "anchors": ["packages/ic-certification/src/nested_rb_tree.rs: NestedTree::delete, clear, contains_path"]}
{"id": "C18", "title": "Nested witness has the root hash and reveals the path", "statement": "witness(path) of a nested tree has the tree's root hash, and looking the path up in the witness gives the stored value if present and Absent if no entry lies on, below or above the path.", "quantifier": "every reachable nested tree and every path", "why_tests_cant": "composition of witnesses at every level", "anchors": ["packages/ic-certification/src/nested_rb_tree.rs: NestedTree::witness", "packages/ic-certification/src/rb_tree/mod.rs: nested_witness"]}
{"id": "C19", "title": "Merging two witnesses of the same tree never panics, keeps the root hash and reveals both", "statement": "merge_hash_trees applied to two prunings of one tree never panics, returns a pruning of that tree with the same digest, and every path that was found (or provably absent) in either input is found with the same value (or provably absent) in the result.", "quantifier": "every hash tree and every two prunings of it", "why_tests_cant": "the panic branches are reachable only for particular pairs of shapes", "anchors": ["packages/ic-certification/src/nested_rb_tree.rs: merge_hash_trees"]}
{"id": "C20", "title": "Hash tree CBOR round trip", "statement": "Decoding the CBOR encoding (with or without the self-describe tag) that the library's Serialize implementation produces for a hash tree returns the same tree.", "quantifier": "every hash tree (byte strings shorter than 2^64)", "why_tests_cant": "all trees, all label/leaf lengths including the 23/24, 255/256, 65535/65536, 2^32 boundaries", "anchors": ["packages/ic-cbor/src/cbor_parse_hash_tree.rs: HashTree::from_cbor, parsed_cbor_to_tree", "packages/ic-cbor/src/cbor_parser.rs: parser, extract_cbor_value", "packages/ic-certification/src/hash_tree/mod.rs: Serialize for HashTreeNode"]}
{"id": "C21", "title": "Certificate CBOR round trip", "statement": "Decoding the CBOR encoding of a certificate (with or without delegation) returns the same certificate.", "quantifier": "every certificate", "why_tests_cant": "as above", "anchors": ["packages/ic-cbor/src/cbor_parse_certificate.rs: Certificate::from_cbor"]}
{"id": "C22", "title": "CBOR decoding is total and rejects trailing bytes", "statement": "parse_cbor terminates on every input with a value or an error, never reads past the input, and never accepts a proper extension of an input it accepts unless the bytes were consumed as content.", "quantifier": "every byte string", "why_tests_cant": "termination and bounds for all inputs", "anchors": ["packages/ic-cbor/src/cbor_parser.rs: parse_cbor, parser"]}
{"id": "C23", "title": "CBOR integers are decoded to their RFC 8949 value", "statement": "Unsigned and negative CBOR integers decode to the numeric value RFC 8949 assigns.", "quantifier": "every integer encoding", "why_tests_cant": "boundary values of each width", "anchors": ["packages/ic-cbor/src/cbor_parser.rs: extract_cbor_value, CborUnsignedInt::to_negative"]}
{"id": "C24", "title": "CBOR maps contain the announced number of entries", "statement": "A CBOR map whose header announces n entries is accepted only if n entries follow.", "quantifier": "every byte string", "why_tests_cant": "malformed inputs form an infinite class", "anchors": ["packages/ic-cbor/src/cbor_parser.rs: parser (major type 5), fold_many_m_n"]}
{"id": "C25", "title": "Representation independent hash ignores order", "statement": "representation_independent_hash of a list of key/value pairs is unchanged by any permutation of the pairs.", "quantifier": "every list of pairs and every permutation of it", "why_tests_cant": "factorially many permutations", "anchors": ["packages/ic-representation-independent-hash/src/representation_independent_hash.rs: representation_independent_hash"]}
{"id": "C26", "title": "Representation independent hash is binding", "statement": "If two maps whose values are strings/bytes/numbers have equal representation independent hashes then, unless an explicit SHA-256 collision occurs among the hashed messages, they contain the same pairs (keys and encoded values, with multiplicity).", "quantifier": "every two maps", "why_tests_cant": "no test can exclude an unforeseen second preimage created by the encoding itself", "anchors": ["packages/ic-representation-independent-hash/src/representation_independent_hash.rs: representation_independent_hash, hash_value, hash_array"]}
{"id": "C27", "title": "The response hash covers status, certified headers and body", "statement": "Two responses with the same response hash under the same response certification have (barring SHA-256 collisions, and with no header name starting with ':') the same status code, body and the same certified headers with multiplicity.", "quantifier": "every pair of responses and every response certification", "why_tests_cant": "universal over all adversarial responses", "anchors": ["packages/ic-http-certification/src/hash/response_hash.rs: response_hash, filter_response_headers, response_headers_hash"]}
{"id": "C28", "title": "The request hash covers method, certified headers, certified query and body", "statement": "Two requests with the same request hash under the same request certification have (barring collisions and ':'-prefixed header names) the same method, body, certified headers and certified query fragments in order.", "quantifier": "every pair of requests and every request certification", "why_tests_cant": "as above", "anchors": ["packages/ic-http-certification/src/hash/request_hash.rs: request_hash, get_filtered_headers, get_filtered_query"]}
{"id": "C29", "title": "Header filtering is exact and case-insensitive", "statement": "filter_response_headers returns, lower-cased and in order, exactly the certificate-expression header(s) plus the headers selected by the certification (listed, or not excluded), never the certificate header; changing the ASCII case of header names in the response or in the certification does not change the result.", "quantifier": "every response and certification", "why_tests_cant": "all header lists", "anchors": ["packages/ic-http-certification/src/hash/response_hash.rs: filter_response_headers"]}
{"id": "C30", "title": "CEL expressions survive printing and parsing", "statement": "Parsing the string produced for a CEL expression whose header and query parameter names consist of letters, digits and '-' yields the same expression.", "quantifier": "every such CEL expression (any number of names)", "why_tests_cant": "all lists of names", "anchors": ["packages/ic-http-certification/src/cel/create_cel_expr.rs: create_cel_expr", "packages/ic-response-verification/src/cel/parser.rs: parse_cel_expression", "packages/ic-response-verification/src/cel/ast_mapping.rs: map_cel_ast"]}
{"id": "C31", "title": "Every CEL expression the builder accepts can be parsed by the verifier", "statement": "For every header name that is a valid HTTP header name (RFC 9110 token), the printed CEL expression parses back.", "quantifier": "every valid header name", "why_tests_cant": "the parser's character class differs from HTTP's", "anchors": ["packages/ic-response-verification/src/cel/parser.rs: parse_str", "packages/ic-http-certification/src/cel/create_cel_expr.rs: create_cel_expr"]}
{"id": "C32", "title": "CEL whitespace is insignificant", "statement": "Inserting spaces, tabs or newlines between tokens of a printed CEL expression does not change the parsed expression.", "quantifier": "every expression and every insertion of whitespace at token boundaries", "why_tests_cant": "infinitely many layouts", "anchors": ["packages/ic-response-verification/src/cel/parser.rs: trim_whitespace, cel_value"]}
{"id": "C33", "title": "An accepted CEL expression says exactly one thing", "statement": "If map_cel_ast accepts, the expression named default_certification with ValidationArgs and contained exactly one of no_certification / certification; within certification exactly one of no_request_certification / request_certification and exactly one of certified_response_headers / response_header_exclusions.", "quantifier": "every parsed CEL value", "why_tests_cant": "all ASTs", "anchors": ["packages/ic-response-verification/src/cel/ast_mapping.rs: map_cel_ast, validate_request_certification, validate_response_certification"]}
{"id": "C34", "title": "more_specific_wildcards_for terminates", "statement": "more_specific_wildcards_for returns for every requested path and every responding path (including adversarial expression paths from a response header).", "quantifier": "every pair of paths", "why_tests_cant": "non-termination appears only for particular pairs", "anchors": ["packages/ic-http-certification/src/utils/wildcard_paths.rs: more_specific_wildcards_for"]}
{"id": "C35", "title": "more_specific_wildcards_for lists exactly the more specific wildcards", "statement": "For a request path and a responding wildcard that matches it, the result lists exactly the wildcard paths (with or without trailing slash segment) that match the request and are longer than the responding one, most specific first.", "quantifier": "every request path and responding wildcard", "why_tests_cant": "all path lengths", "anchors": ["packages/ic-http-certification/src/utils/wildcard_paths.rs: more_specific_wildcards_for, is_wildcard_path_valid_for_request_path"]}
{"id": "C36", "title": "Accepted expression path is the most specific one in the certified tree", "statement": "If validate_expr_path accepts expression path e for request path r against a witness, then in every well-formed full tree the witness is a pruning of: e exists; e matches r; if e is a wildcard, neither the exact path of r nor any more specific wildcard matching r exists.", "quantifier": "every expression path, request path, well-formed full tree and pruning", "why_tests_cant": "an adversary chooses the witness", "anchors": ["packages/ic-response-verification/src/validation/v2_validation.rs: validate_expr_path", "packages/ic-http-certification/src/utils/wildcard_paths.rs: more_specific_wildcards_for"]}
{"id": "C37", "title": "Exact path acceptance is iff", "statement": "An expression path ending in <$> is accepted exactly if it equals the request path's segments (distinguishing /a from /a/) and is revealed by the witness.", "quantifier": "every expression path, request path and witness", "why_tests_cant": "all paths", "anchors": ["packages/ic-response-verification/src/validation/v2_validation.rs: validate_expr_path", "packages/ic-http-certification/src/tree/certification_tree_path.rs: path_to_string_segments"]}
{"id": "C38", "title": "Certificate time window", "statement": "A certificate is rejected whenever its time differs from the current time by more than the allowed offset, and its time never causes rejection when within the offset.", "quantifier": "every certificate time, current time and offset", "why_tests_cant": "boundary and overflow values", "anchors": ["packages/ic-certificate-verification/src/certificate_verification.rs: verify_certificate_time"]}
{"id": "C39", "title": "Time check is total", "statement": "verify returns (does not panic or wrap) for every current time and offset, including offsets larger than the current time.", "quantifier": "every u128 current time and offset", "why_tests_cant": "arithmetic overflow at the extremes", "anchors": ["packages/ic-certificate-verification/src/certificate_verification.rs: verify_certificate_time"]}
{"id": "C40", "title": "Delegation is checked against the root key, at most one level, and within canister ranges", "statement": "If verify accepts a certificate with a delegation then the delegation certificate has no further delegation, its tree's root hash is signed by the root key, the canister id lies within a canister range revealed for the delegating subnet, and the outer certificate is signed by the public key revealed for that subnet. Without delegation it is signed by the root key.", "quantifier": "every certificate, canister id, root key", "why_tests_cant": "all adversarial certificates", "anchors": ["packages/ic-certificate-verification/src/certificate_verification.rs: verify, verify_delegation, verify_certificate_signature, extract_der, principal_is_within_ranges"]}
{"id": "C41", "title": "The signature cache never changes a verdict", "statement": "For every history of signature verifications with any cache capacity and any interleaving of concurrent verifications, each verdict equals the verdict of the BLS verification without cache, barring SHA-256 collisions between cache keys.", "quantifier": "every history, capacity and interleaving", "why_tests_cant": "eviction, hits and races depend on the history", "anchors": ["packages/ic-certificate-verification/src/signature_verification/mod.rs: verify_signature", "packages/ic-certificate-verification/src/signature_verification/signature_cache.rs: SignatureCache, SignatureCacheEntry::new"]}
{"id": "C42", "title": "The signature cache stays within its capacity", "statement": "The global cache never holds more than its configured number of entries and evicts the least recently used one.", "quantifier": "every history", "why_tests_cant": "needs 100000+ operations to be exercised", "anchors": ["packages/ic-certificate-verification/src/signature_verification/signature_cache.rs: SignatureCache::new, insert, contains"]}
{"id": "C43", "title": "Base64 round trip, padding-indifferent", "statement": "Decoding the padded or unpadded standard base64 encoding of any bytes with the verifier's engine returns those bytes.", "quantifier": "every byte string", "why_tests_cant": "all lengths and contents", "anchors": ["packages/ic-response-verification/src/base64.rs: BASE64", "packages/ic-response-verification/src/verification/certificate_header.rs: decode_base64_header"]}
{"id": "C44", "title": "Certificate header round trip", "statement": "The header that add_v2_certificate_header produces parses back to the same certificate, witness tree and expression path with version 2.", "quantifier": "every certificate, witness and expression path", "why_tests_cant": "composition of base64, CBOR and header syntax for all contents", "anchors": ["packages/ic-http-certification/src/utils/response_header.rs: add_v2_certificate_header", "packages/ic-response-verification/src/verification/certificate_header.rs: CertificateHeader::from", "packages/ic-response-verification/src/verification/certificate_header_field.rs: extract_header_field"]}
{"id": "C45", "title": "Certificate header: first field wins, unknown fields are ignored", "statement": "The parsed header depends only on the first well-formed occurrence of each of certificate/tree/version/expr_path; duplicate or unknown fields anywhere do not change an accepted result.", "quantifier": "every header value", "why_tests_cant": "all header strings", "anchors": ["packages/ic-response-verification/src/verification/certificate_header.rs: CertificateHeader::from"]}
{"id": "C46", "title": "No success below the requested version", "statement": "verify_request_response_pair never succeeds with a verification version lower than the requested minimum, nor with a version other than 1 or 2; the reported version is the one in the header.", "quantifier": "every request, response and parameters", "why_tests_cant": "all inputs", "anchors": ["packages/ic-response-verification/src/verification/verify_request_response_pair.rs: verify_request_response_pair"]}
{"id": "C47", "title": "v2 soundness", "statement": "If v2 verification succeeds then: the certificate verifies for the canister; the canister's certified data is the digest of the witness; and, for every well-formed tree with that digest (barring SHA-256 collisions), the tree contains, at the header's expression path, which is the exact path of the request or a matching wildcard with no more specific entry in the tree (in the sense, and up to the exceptions, of C36), the hash of the response's CEL expression followed (unless certification is skipped) by the request hash (or empty) and response hash of this very request and response.", "quantifier": "every request, response, header, well-formed certified tree", "why_tests_cant": "an adversary chooses response and header", "anchors": ["packages/ic-response-verification/src/verification/verify_request_response_pair.rs: v2_verification", "packages/ic-response-verification/src/validation/v2_validation.rs: validate_hashes, validate_expr_hash, validate_expr_path", "packages/ic-response-verification/src/validation/common_validation.rs: validate_tree"]}
{"id": "C48", "title": "v2 returns only certified data", "statement": "On success without skip, every header returned is either selected by the certification (and covered by the response hash), the certificate-expression header, or the certificate header; status code and body are those of the response. On skip no response is returned.", "quantifier": "every input", "why_tests_cant": "all inputs", "anchors": ["packages/ic-response-verification/src/verification/verify_request_response_pair.rs: v2_verification"]}
{"id": "C49", "title": "v1 soundness", "statement": "If v1 verification succeeds then the certificate verifies, the certified data is the witness digest, and the SHA-256 of the body, or of its decoding, is stored under http_assets at the request path or, only if the request path's value is not revealed, at /index.html; only the body is returned.", "quantifier": "every input", "why_tests_cant": "all inputs", "anchors": ["packages/ic-response-verification/src/verification/verify_request_response_pair.rs: v1_verification", "packages/ic-response-verification/src/validation/v1_validation.rs: validate_body"]}
{"id": "C50", "title": "v1 index fallback only if the path is absent", "statement": "v1 verification uses /index.html for a request path only when the request path is proven absent from the certified tree.", "quantifier": "every tree and pruning", "why_tests_cant": "an adversary may prune the real entry", "anchors": ["packages/ic-response-verification/src/validation/v1_validation.rs: validate_body"]}
{"id": "C51", "title": "Everything certified verifies (completeness)", "statement": "For every HttpCertificationTree history, entry present in the tree and request it is valid for (exact path of the request, or a wildcard with no more specific entry, for a wildcard the request path not starting with the reserved segment http_expr nor ending in a reserved terminator), the witness and expression path pass the verifier's tree, path and hash validation, and the response built with add_v2_certificate_header is accepted by verify_request_response_pair.", "quantifier": "every history, entry and request path", "why_tests_cant": "relates two crates over all trees", "anchors": ["packages/ic-http-certification/src/tree/certification_tree.rs: HttpCertificationTree::insert, delete, witness, root_hash", "packages/ic-response-verification/src/validation/v2_validation.rs: validate_expr_path, validate_hashes"]}
{"id": "C52", "title": "HttpCertificationTree.witness never panics", "statement": "Generating a witness for any entry and request url returns a tree or an error.", "quantifier": "every tree history, entry and request url", "why_tests_cant": "merge panics only on particular combinations", "anchors": ["packages/ic-http-certification/src/tree/certification_tree.rs: witness", "packages/ic-certification/src/nested_rb_tree.rs: merge_hash_trees"]}
{"id": "C53", "title": "Certification path and verifier path agree", "statement": "The expression path emitted for an exact path equals the path the verifier derives from the same request path, and its tail equals the tree path of the entry.", "quantifier": "every path string", "why_tests_cant": "all strings", "anchors": ["packages/ic-http-certification/src/tree/certification_tree_path.rs: to_tree_path, to_expr_path", "packages/ic-response-verification/src/validation/v2_validation.rs: validate_expr_path"]}
{"id": "C54", "title": "Certification requires the exact CEL header", "statement": "HttpCertification::full / response_only succeed only if the response carries exactly one certificate-expression header (case-insensitively) and its value is the printed CEL expression.", "quantifier": "every response and CEL expression", "why_tests_cant": "all header lists", "anchors": ["packages/ic-http-certification/src/tree/certification.rs: HttpCertification::validate_response, full, response_only"]}
{"id": "C55", "title": "Skip certification verifies for every request", "statement": "A canister whose certified data is skip_certification_certified_data() and whose response carries add_skip_certification_header is accepted by the verifier's tree and path validation for every request path, and a response under it cannot be passed off as certified content.", "quantifier": "every request path", "why_tests_cant": "all request paths", "anchors": ["packages/ic-http-certification/src/utils/skip_certification.rs: add_skip_certification_header, skip_certification_certified_data"]}
{"id": "C56", "title": "Asset router serves what it certified", "statement": "For every history of certify/delete operations, every response the router stores for a key is backed by an entry in its certification tree.", "quantifier": "every history of certify_assets / delete_assets / delete_all_assets", "why_tests_cant": "histories are unbounded", "anchors": ["packages/ic-asset-certification/src/asset_router.rs: AssetRouter::certify_assets, delete_assets, insert_static_asset, delete_static_asset"]}
{"id": "C57", "title": "Deleting an asset removes all its certifications", "statement": "After delete_assets of an asset (with the same configuration it was certified with), no response body of that asset is certified any more by the router's tree.", "quantifier": "every asset (any size)", "why_tests_cant": "needs assets larger than the 2 000 000 byte chunk size and inspection of the certified tree rather than the response map", "anchors": ["packages/ic-asset-certification/src/asset_router.rs: delete_static_asset, insert_static_asset"]}
{"id": "C58", "title": "Re-certifying an asset revokes the old content", "statement": "After certifying an asset again with different content, the old content is no longer certified.", "quantifier": "every pair of contents", "why_tests_cant": "a replayed stale response would verify", "anchors": ["packages/ic-asset-certification/src/asset_router.rs: insert_static_asset"]}
{"id": "C59", "title": "Served responses verify for the request they were served for", "statement": "A response returned by serve_asset for a request passes the verifier's request hash check for that request (same method GET, any query string, any Range header).", "quantifier": "every router state and request", "why_tests_cant": "all requests", "anchors": ["packages/ic-asset-certification/src/asset_router.rs: serve_asset, prepare_response_and_certification", "packages/ic-http-certification/src/hash/request_hash.rs: request_hash"]}
{"id": "C60", "title": "Chunks of a large asset partition its content", "statement": "Concatenating the bodies of the chunk responses of an asset larger than the chunk size in order of range start gives the content; each content-range header states the chunk's true interval and total length.", "quantifier": "every asset longer than the chunk size", "why_tests_cant": "all lengths, in particular multiples of the chunk size", "anchors": ["packages/ic-asset-certification/src/asset_router.rs: insert_static_asset, prepare_asset_response_and_certification"]}
{"id": "C61", "title": "Range header parsing is exact", "statement": "parse_range_header_str accepts exactly strings 'bytes=<begin>-' or 'bytes=<begin>-<end>' (optionally surrounded by whitespace, each number optionally signed with '+', the prefix 'bytes=' possibly repeated) with decimal usize numbers and begin <= end, and returns those numbers.", "quantifier": "every string", "why_tests_cant": "all strings", "anchors": ["packages/ic-asset-certification/src/asset_router.rs: parse_range_header_str"]}
{"id": "C62", "title": "Fallback scope lookup returns the longest matching scope", "statement": "get_asset_for_request falls back to the registered fallback whose scope is the longest path prefix of the request path, preferring the requested encodings in order.", "quantifier": "every router state and request path", "why_tests_cant": "all scopes", "anchors": ["packages/ic-asset-certification/src/asset_router.rs: get_asset_for_request, get_encoded_fallback_asset"]}
{"id": "C63", "title": "Request paths are percent-decoded exactly", "statement": "HttpRequest::get_path returns the path of the URL with every %XX escape (two hexadecimal digits) replaced by its byte and everything else unchanged, and fails exactly when the URL does not parse or the result is not UTF-8.", "quantifier": "every URL", "why_tests_cant": "all strings", "anchors": ["packages/ic-http-certification/src/http/http_request.rs: get_path"]}
{"id": "C64", "title": "Accepted responses were certified (end-to-end soundness)", "statement": "If verify_request_response_pair accepts a request and response for a canister whose certified data is the root hash of an HttpCertificationTree built by any history of entries made with the HttpCertification constructors, and reports a verified response, then the tree holds an entry made for the same CEL expression, whose path answers the request path, for a response with the same status code, body and covered headers and (full certification) a request with the same method, body and covered headers and query parameters - unless a concrete hash collision is exhibited.", "quantifier": "every tree history, request, response, certificate and hash function with 32-byte output", "why_tests_cant": "an adversary picks the response, the witness and the header; no finite set of tampering tests covers all of them", "anchors": ["packages/ic-http-certification/src/tree/certification_tree.rs: HttpCertificationTree", "packages/ic-http-certification/src/tree/certification.rs: HttpCertification", "packages/ic-response-verification/src/verification/verify_request_response_pair.rs: verify_request_response_pair"]}
{"id": "C65", "title": "Encoding negotiation honours the client", "statement": "serve_asset only returns a content encoding the request's Accept-Encoding header allows, and among the stored encodings it prefers the one with the highest quality value.", "quantifier": "every Accept-Encoding header and set of stored encodings", "why_tests_cant": "all header values", "anchors": ["packages/ic-asset-certification/src/asset_router.rs: encoding_str_to_encoding, get_encodings, serve_asset"]}
{"id": "C66", "title": "Asset router calls never panic", "statement": "certify_assets, delete_assets, delete_all_assets and serve_asset return Ok or an error and never panic, on every state reachable through the API, whatever the assets, the configurations, the request and the iteration order of hash maps; serve_asset fails exactly when the URL or the Range header is malformed or no response is found.", "quantifier": "every reachable router state and argument", "why_tests_cant": "a panic traps the canister; all histories", "anchors": ["packages/ic-asset-certification/src/asset_router.rs: certify_assets, delete_assets, delete_all_assets"]}
{"id": "C67", "title": "certify_assets stores and certifies the configured responses", "statement": "If certify_assets returns Ok, every response the assets and configurations ask for (each asset by its first matching configuration, its aliases, fallbacks, encodings, chunks and redirects) is stored under its key and certified by the tree, everything it stores is such a response, and calls whose patterns compile and URLs parse do return Ok.", "quantifier": "every reachable router state, list of assets and list of configurations", "why_tests_cant": "all combinations", "anchors": ["packages/ic-asset-certification/src/asset_router.rs: certify_assets", "packages/ic-asset-certification/src/asset_config.rs: NormalizedAssetConfig", "packages/ic-asset-certification/src/asset_map.rs"]}
{"id": "C68", "title": "The result does not depend on hash map iteration order", "statement": "The router's stored responses and the set of responses its tree certifies after certify_assets do not depend on the order in which the implementation iterates over the assets.", "quantifier": "every two iteration orders", "why_tests_cant": "the standard library randomises the order on every run", "anchors": ["packages/ic-asset-certification/src/asset_router.rs: certify_assets"]}
{"id": "C69", "title": "Certification tree operations are exact", "statement": "HttpCertificationTree: insert adds exactly the given entry (entries whose tree paths extend it or are extended by it disappear, everything else stays), delete removes exactly the given entry, clear removes all.", "quantifier": "every tree history and operation", "why_tests_cant": "all histories", "anchors": ["packages/ic-http-certification/src/tree/certification_tree.rs: insert, delete, clear"]}
{"id": "C70", "title": "Only responses the asset router certified are accepted", "statement": "If verify_request_response_pair accepts a request and response for a canister whose certified data is the root hash of an AssetRouter after any history of calls, and reports a verified response, then one of the calls put a response with the same status, body and headers into the router, for a url or scope that the request path matches, and the router's tree still certifies it; the request is a GET without body, without query and, for a chunk, without Range header - unless a concrete hash collision is exhibited.", "quantifier": "every history of calls, request, response, certificate and hash function with 32-byte output", "why_tests_cant": "an adversary picks the response, the witness and the header", "anchors": ["packages/ic-asset-certification/src/asset_router.rs: certify_assets, delete_assets, root_hash", "packages/ic-response-verification/src/verification/verify_request_response_pair.rs"]}
{"id": "C71", "title": "The verifier panics only for known reasons", "statement": "verify_request_response_pair always returns, and it panics only if a field of the certificate header (or the certificate inside a delegation) decodes to CBOR with a map header announcing more entries than a hash map can have, or because the caller's clock arguments overflow (builds with overflow checks) or the canister id is longer than 29 bytes, or a delegation signed by the root key has malformed ranges.", "quantifier": "every request, response, certificate, clock and key", "why_tests_cant": "a panic takes the gateway down; an adversary controls every byte of the response", "anchors": ["packages/ic-response-verification/src/verification/verify_request_response_pair.rs: verify_request_response_pair", "packages/ic-cbor/src/cbor_parser.rs: parser, parse_cbor_principals_array", "packages/ic-certificate-verification/src/certificate_verification.rs: verify"]}
{"id": "C72", "title": "The verdict depends only on what is covered", "statement": "Two requests and two responses get the same verdict (and the same verified response up to header order) if the responses have the same status, body, certificate, expression and content-encoding headers and the same covered headers up to order, and the requests have the same path and, under full certification, the same method, body, covered headers up to order and covered query parameters. In particular: uncovered headers can be added anywhere, the case and order of header names are irrelevant, and without request certification only the path of the request matters.", "quantifier": "every pair of requests and responses, all other arguments", "why_tests_cant": "a relation between two runs over all inputs", "anchors": ["packages/ic-response-verification/src/verification/verify_request_response_pair.rs: verify_request_response_pair, v2_verification", "packages/ic-http-certification/src/hash/response_hash.rs: filter_response_headers, response_hash", "packages/ic-http-certification/src/hash/request_hash.rs: request_hash"]}
{"id": "C73", "title": "Comparing trees compares their entries", "statement": "Two RbTrees are == exactly when they hold the same keys with the same values, whatever operations built them; cmp is the lexicographic order of the sorted entries, a total order consistent with ==; collecting a list of entries into a tree never fails and a later entry replaces an earlier one with the same key; == trees have the same root hash.", "quantifier": "every two histories of operations, every value type with an equality and a total order", "why_tests_cant": "all pairs of histories", "anchors": ["packages/ic-certification/src/rb_tree/mod.rs: PartialEq, Ord, PartialOrd, FromIterator for RbTree"]}
{"id": "C74", "title": "Redundant operations leave a tree as it was", "statement": "Inserting an entry that is already there, deleting a key or path that is not there and modifying a value into itself leave an RbTree, a NestedTree and an HttpCertificationTree exactly as they were: same root hash, same witnesses.", "quantifier": "every reachable tree and every operation that does not change its content", "why_tests_cant": "rebalancing could change the hash without changing the content; all histories", "anchors": ["packages/ic-certification/src/rb_tree/mod.rs: insert, delete, modify", "packages/ic-certification/src/nested_rb_tree.rs: insert, delete, clear", "packages/ic-http-certification/src/tree/certification_tree.rs: insert, delete"]}
{"id": "C75", "title": "Serialized trees and certificates: exact shapes, round trip, agreement with ic-cbor", "statement": "HashTree, Delegation and Certificate deserialize (serde) exactly from the documented shapes: nothing missing, no extra element, no unknown or repeated field. What is serialized deserializes to the same value. What serde accepts from CBOR, ic-cbor parses to the same tree or certificate, and vice versa.", "quantifier": "every value, storage type and format", "why_tests_cant": "all nestings and field orders", "anchors": ["packages/ic-certification/src/hash_tree/mod.rs: serde_impl", "packages/ic-certification/src/certificate.rs: serde_impl", "packages/ic-certification/src/lib.rs: serde_impl", "packages/ic-cbor/src/cbor_parse_hash_tree.rs: parsed_cbor_to_tree", "packages/ic-cbor/src/cbor_parse_certificate.rs: parsed_cbor_to_certificate"]}
{"id": "C76", "title": "Comparing responses ignores header order only", "statement": "Two HttpResponse values compare equal exactly when status code, body and upgrade flag are equal and they have the same header fields equally often, in any order; the comparison is an equivalence. Equal responses have the same response hash under every certification, certifying either gives the same certification, and verifying either gives the same verdict. HttpRequest and HttpUpdateResponse compare field by field, headers in order.", "quantifier": "all pairs (triples) of responses and requests, all certifications, all verifier arguments", "why_tests_cant": "Header lists and their permutations are unbounded; tests compare a few.", "anchors": ["packages/ic-http-certification/src/http/http_response.rs: HttpResponse, PartialEq", "packages/ic-http-certification/src/http/http_request.rs: HttpRequest"]}
{"id": "C77", "title": "Builders build what was last set", "statement": "After any sequence of with_* calls, build() gives in each field the value of the last call for that field, or the documented default (GET, /, 200, no headers, empty body, no certificate version, no upgrade flag; certified response headers [] for the expression builders); build_update gives the same without certificate version or upgrade flag. A builder made from a response changes only the fields set afterwards; conversions to update requests and responses keep all other fields; add_header appends.", "quantifier": "all sequences of builder calls and all values", "why_tests_cant": "The sequences of calls are unbounded; tests make one call per field, in one order.", "anchors": ["packages/ic-http-certification/src/http/http_request.rs: HttpRequestBuilder, HttpUpdateRequest", "packages/ic-http-certification/src/http/http_response.rs: HttpResponseBuilder, HttpUpdateResponse", "packages/ic-http-certification/src/cel/cel_builder.rs: DefaultResponseOnlyCelBuilder, DefaultFullCelExpressionBuilder"]}
{"id": "C78", "title": "Asset maps list exactly what the router stores", "statement": "For every history of the router, the map returned by get_assets (get_fallback_assets) iterates over each stored (fallback) response exactly once with its path, encoding and range, get finds a response exactly if it is iterated, len counts them and is_empty is true exactly if get finds nothing. After certify_assets every given asset can be got whole with its content; after delete_assets none of them can be got, whole or in chunks, and others are unchanged. The chunks got for a url are chunks of the asset got for it.", "quantifier": "all histories of router calls, all hash map iteration orders, all keys", "why_tests_cant": "Histories, assets and iteration orders are unbounded.", "anchors": ["packages/ic-asset-certification/src/asset_map.rs: AssetMap, AssetMapIterator", "packages/ic-asset-certification/src/asset_router.rs: get_assets, get_fallback_assets"]}
{"id": "C79", "title": "Test certificates verify exactly as asked for", "statement": "A certificate made with CertificateBuilder decodes from its CBOR to the certificate handed out, shows the certified data, and verifies against the root key handed out exactly when the asked-for time is within the offset and, with a delegation, the canister is in one of the delegated ranges; with an invalid signature or a nested delegation it is refused under every root key. Lookups in its tree find exactly the given leaves. Building fails only for an unparsable canister id.", "quantifier": "all canister ids, data, sequences of builder calls, root keys, canisters and times", "why_tests_cant": "The sequences of calls, ranges and times are unbounded; tests build a few.", "anchors": ["packages/ic-certification-testing/src/certificate_builder.rs: CertificateBuilder", "packages/ic-certification-testing/src/certificate.rs: create_certificate_tree, create_delegation_tree", "packages/ic-certification-testing/src/encoding.rs"]}
{"id": "C80", "title": "Version 1 certified assets verify", "statement": "After any sequence of changes to a version 1 asset tree, a response whose body (as sent or decoded) is the one certified for the request path, sent with the tree's witness and a valid certificate of the tree's root hash, is accepted as version 1; so is the body certified for /index.html for a path that is not certified, sent with the merged witness. Witnesses exist and have the root hash. The version 1 header reads back as what was written.", "quantifier": "all histories of the asset tree, paths, bodies, encodings and certificates", "why_tests_cant": "Histories, tree shapes and paths are unbounded.", "anchors": ["packages/ic-response-verification-test-utils/src/asset_tree.rs: AssetTree", "packages/ic-response-verification-test-utils/src/certificate.rs: create_certificate_header", "packages/ic-response-verification/src/verification/verify_request_response_pair.rs: v1_verification", "packages/ic-certification/src/nested_rb_tree.rs: merge_hash_trees"]}
{"id": "C81", "title": "The JavaScript certificate check accepts exactly valid certifications", "statement": "verifyCertification resolves exactly if the agent accepts the certificate, the tree decodes, the certificate's time in whole milliseconds is at most the offset away from now and the canister's certified data equals the root hash of the tree. Its time window is that of the Rust check, apart from less than one millisecond.", "quantifier": "all canister ids, certificates, trees, root keys, offsets and times", "why_tests_cant": "Times and offsets range over all numbers; the boundary cases decide.", "anchors": ["packages/certificate-verification-js/src/index.ts: verifyCertification, validateCertificateTime, validateTree"]}
{"id": "C82", "title": "The WebAssembly entry point gives the verdict of the Rust verifier", "statement": "verifyRequestResponsePair with request and response objects in any property order, with or without further properties, gives the result of the Rust verifier for the request and response with those values, the whole verdict readable from the returned object. It never traps on a malformed object.", "quantifier": "all JavaScript objects and verifier arguments", "why_tests_cant": "Property orders, header lists and values are unbounded.", "anchors": ["packages/ic-response-verification-wasm/src/lib.rs: verify_request_response_pair", "packages/ic-response-verification-wasm/src/request.rs: request_from_js", "packages/ic-response-verification-wasm/src/response.rs: response_from_js", "packages/ic-response-verification/src/types/verification_result.rs", "packages/ic-response-verification/src/types/verified_response.rs"]}
{"id": "C83", "title": "A refused response is refused with the error that says what is wrong", "statement": "verify_request_response_pair returns an error exactly when some check fails, and the error is the one documented for the first check that fails, with the versions, paths and times concerned. Each missing or malformed part has its own error.", "quantifier": "all requests, responses, canister ids, times, offsets, keys and minimum versions", "why_tests_cant": "Which check fails first depends on header text, witnesses and certificates of any size.", "anchors": ["packages/ic-response-verification/src/error.rs: ResponseVerificationError", "packages/ic-response-verification/src/verification/verify_request_response_pair.rs: verify_request_response_pair, v1_verification, v2_verification", "packages/ic-response-verification/src/verification/certificate_header.rs: CertificateHeader::from", "packages/ic-response-verification/src/validation/v2_validation.rs: validate_expr_path"]}
{"id": "C84", "title": "A refused certificate is refused with the error that says what is wrong", "statement": "Certificate::verify returns an error exactly when the time is missing, unreadable or outside the window, the delegation is undecodable, nested, unsigned, without ranges or key or not for the canister, or the key or signature is not valid, and the error names the first of these with the values concerned.", "quantifier": "all certificates, canister ids, root keys, times and offsets", "why_tests_cant": "Delegations, ranges and times are unbounded.", "anchors": ["packages/ic-certificate-verification/src/error.rs: CertificateVerificationError", "packages/ic-certificate-verification/src/certificate_verification.rs: verify, verify_delegation, verify_certificate_time, extract_der"]}
{"id": "C85", "title": "Merging any two hash trees overlays them, and fails exactly on a contradiction", "statement": "For any two hash trees, related or not, merge_hash_trees panics exactly if at some position the trees have different nodes of which neither is pruned or empty, or two different pruned hashes. Otherwise the result has at every position the more informative of the two nodes: anything rather than a pruned node, anything but a pruned node rather than an empty one. The order of the arguments does not matter and merging a tree with itself returns it.", "quantifier": "all pairs of hash trees and all positions in them", "why_tests_cant": "Shapes, depths and combinations of node kinds are unbounded.", "anchors": ["packages/ic-certification/src/nested_rb_tree.rs: merge_hash_trees"]}
{"id": "C86", "title": "Witnesses with the same root hash can always be merged", "statement": "Two witnesses with the same root hash, whoever made them, are merged without panic into a tree with that root hash of which both are prunings; otherwise they exhibit two different messages with the same hash.", "quantifier": "all pairs of hash trees whose pruned nodes are 32-byte hashes", "why_tests_cant": "The panic branches must be shown unreachable for all shapes, by a reduction to collision resistance.", "anchors": ["packages/ic-certification/src/nested_rb_tree.rs: merge_hash_trees", "packages/ic-certification/src/hash_tree/mod.rs: HashTree::digest"]}
{"id": "C87", "title": "The json-api example serves the current todo list, and it verifies", "statement": "After installation and any sequence of update calls and upgrades, GET /todos without body and query string is answered with exactly the todo items the calls led to, and the response passes verification under a certificate of the canister's certified data. The body determines the list.", "quantifier": "all histories of update calls (any method, url, body, trapping or not) and upgrades, all iteration orders of the item map, all hash functions and URI and JSON parsers", "why_tests_cant": "Ranges over histories and map orders; the certified tree, the stored responses and the item map must agree after every one.", "anchors": ["examples/http-certification/json-api/src/backend/src/lib.rs: init, post_upgrade, http_request, http_request_update, certify_response, query_handler"]}
{"id": "C88", "title": "The json-api example: nothing but current, correct responses verifies", "statement": "With unforgeable signatures and the certified data the canister last set, any response that passes verification for a request is what the api is to answer now: the current list or the 405 refusal for bodyless, queryless requests to /todos, the 404 body for other paths. Old lists stop verifying. Else an explicit hash collision is shown.", "quantifier": "all histories, all requests, all responses an attacker may return", "why_tests_cant": "Ranges over all forged responses and all histories, including stale entries left in the tree.", "anchors": ["examples/http-certification/json-api/src/backend/src/lib.rs: certify_response, certify_list_todos_response", "packages/ic-response-verification/src/verification/verify_request_response_pair.rs: verify_request_response_pair"]}
{"id": "C89", "title": "The json-api example: refusals and not-found responses verify", "statement": "After any history, the 405 response to HEAD, PUT, OPTIONS, TRACE and CONNECT /todos and the 404 response to every other path the routers pass on are served and pass verification.", "quantifier": "all histories, all request paths and methods the query router passes on", "why_tests_cant": "Ranges over all paths and over histories which delete and re-insert neighbouring entries.", "anchors": ["examples/http-certification/json-api/src/backend/src/lib.rs: certify_not_allowed_todo_responses, certify_not_found_response, query_handler, prepare_query_handlers"]}
{"id": "C90", "title": "The json-api example: every query it answers verifies", "statement": "Every query that is not upgraded gets a response that passes verification.", "quantifier": "all query requests in all states", "why_tests_cant": "Ranges over all requests; whether lookups, routers and expression paths agree on what a path is.", "anchors": ["examples/http-certification/json-api/src/backend/src/lib.rs: http_request, query_handler, prepare_query_handlers"]}
{"id": "C91", "title": "The json-api example: update calls report what they did", "statement": "After any history, an update call that creates, changes or removes an item is answered with status 201 and the new item, 200, or 204; any other update call traps without effect or is answered with status 400 and changes nothing.", "quantifier": "all histories, all update requests, all iteration orders of the item map", "why_tests_cant": "Ranges over all histories and requests; ids, routes and rollbacks must line up with the abstract list.", "anchors": ["examples/http-certification/json-api/src/backend/src/lib.rs: http_request_update, create_todo_item_handler, update_todo_item_handler, delete_todo_item_handler"]}
{"id": "C92", "title": "The certified counter example: the page shows the count", "statement": "After any positive number of increments, the canister's get_count response, under a certificate of its certified data within the time window, makes the page show that number (modulo 2^32).", "quantifier": "all numbers of increments, all hash functions, certificates and times", "why_tests_cant": "Ranges over all histories; the canister's tree and the page's verification must agree at every count.", "anchors": ["examples/certification/certified-counter/src/backend/src/lib.rs: inc_count, get_count", "examples/certification/certified-counter/src/frontend/src/index.ts"]}
{"id": "C93", "title": "The certified counter example: a shown count is the current one", "statement": "Whatever response arrives, if its certificate certifies the canister's current data, a number written into the page is the number of increments made; else two different messages with the same hash are exhibited.", "quantifier": "all responses an attacker may return, all histories", "why_tests_cant": "Ranges over all forged witnesses and stale responses.", "anchors": ["examples/certification/certified-counter/src/backend/src/lib.rs: inc_count", "examples/certification/certified-counter/src/frontend/src/index.ts"]}
{"id": "C94", "title": "Responses pass uncertified only where skipping was certified", "statement": "With unforgeable signatures and the certified data the canister last set, a response accepted without certified content (skipped certification) is for a request path whose answering entry in the canister's tree is a skip certification; a canister certifying only an asset router's tree never has such responses accepted. Else an explicit hash collision is shown.", "quantifier": "all histories of the certification tree and of the asset router, all requests, all responses an attacker may return, all expression texts", "why_tests_cant": "Ranges over all forged trees, expression texts and histories: the verifier only looks for the hash of the expression below the expression path.", "anchors": ["packages/ic-response-verification/src/validation/v2_validation.rs: validate_expr_hash, validate_expr_path", "packages/ic-response-verification/src/verification/verify_request_response_pair.rs: v2_verification", "packages/ic-http-certification/src/tree/certification_tree_path.rs: HttpCertificationPath"]}
{"id": "C95", "title": "An asset router on a shared tree: stored responses stay certified", "statement": "When other code inserts into and deletes from the tree a router was built on, no history panics, every response the router stores was certified by one of its calls, and it is certified in the shared tree unless a later call or tree operation touched its certification path.", "quantifier": "all histories mixing router calls and tree operations, all assets, configurations and processing orders", "why_tests_cant": "Ranges over all interleavings of the router's and other code's changes.", "anchors": ["packages/ic-asset-certification/src/asset_router.rs: with_tree, certify_assets, delete_assets", "packages/ic-http-certification/src/tree/certification_tree.rs: insert, delete"]}
{"id": "C96", "title": "An asset router on a shared tree: what it serves is accepted", "statement": "For a GET request without query, body and range for which the router finds a response that is certified in the shared tree, serve_asset returns it with headers that make the verifier accept it, with its status and body.", "quantifier": "all histories mixing router calls and tree operations, all such requests, all valid certificates of the root hash", "why_tests_cant": "Ranges over all trees other code may have produced; the witness is taken from the shared tree.", "anchors": ["packages/ic-asset-certification/src/asset_router.rs: with_tree, serve_asset", "packages/ic-response-verification/src/verification/verify_request_response_pair.rs"]}
{"id": "C97", "title": "An asset router on a shared tree: only certified responses are accepted", "statement": "With unforgeable signatures and the certified data set to the shared root hash, an accepted response is one a router call certified or one other code inserted; it passes uncertified only where other code inserted a skip certification for the request's path. Else a hash collision is shown.", "quantifier": "all histories mixing router calls and tree operations, all requests, all responses an attacker may return", "why_tests_cant": "Ranges over all forged responses and all histories.", "anchors": ["packages/ic-asset-certification/src/asset_router.rs: with_tree", "packages/ic-response-verification/src/validation/v2_validation.rs"]}
{"id": "C98", "title": "Router calls leave the other entries of a shared tree alone", "statement": "An entry other code inserted stays certified as long as nothing is certified or deleted at its own path. (False for delete_all_assets, which clears the whole tree although it is documented to delete the router's assets.)", "quantifier": "all histories mixing router calls and tree operations, all entries", "why_tests_cant": "Ranges over all histories of certify_assets, delete_assets and delete_assets_by_path.", "anchors": ["packages/ic-asset-certification/src/asset_router.rs: with_tree, delete_assets, delete_assets_by_path, delete_all_assets"]}
{"id": "C99", "title": "The assets example starts and its metrics endpoint verifies", "statement": "With patterns that compile and names that parse, init of the assets example (and post_upgrade) succeeds for every directory. A request for /metrics, whatever its method, query, headers and body, is answered with the current metrics, in a response the verifier accepts without vouching for its content.", "quantifier": "all included directories, all processing orders, all requests for /metrics, all valid certificates of the root hash", "why_tests_cant": "Ranges over all directories and requests, and the response goes through the whole verification.", "anchors": ["examples/http-certification/assets/src/backend/src/lib.rs: init, certify_all_assets, http_request, serve_metrics"]}
{"id": "C100", "title": "The assets example: pages verify", "statement": "A GET request without query, body and range is answered with the file of that path (its first part if it is large), with index.html for / and for every path without a file, with a redirect for /old-url, and the verifier accepts the response. (False for requests with a query string, for later parts, and for paths that differ from a known one in slashes.)", "quantifier": "all included directories with ordinary names, all such requests, all valid certificates of the root hash", "why_tests_cant": "Ranges over all directories and paths; combines configuration, storage, certification, witness and verification.", "anchors": ["examples/http-certification/assets/src/backend/src/lib.rs: certify_all_assets, http_request, serve_asset"]}
{"id": "C101", "title": "The assets example: nothing else verifies", "statement": "With unforgeable signatures, a response the verifier accepts for the assets example is one of the site's responses (the file of that path, a part of it, the redirect, or index.html where nothing else is), to a GET request; it is accepted without being vouched for at /metrics only. Else a hash collision is shown.", "quantifier": "all included directories with ordinary names, all requests, all responses an attacker may return", "why_tests_cant": "Ranges over all forged responses.", "anchors": ["examples/http-certification/assets/src/backend/src/lib.rs: certify_all_assets"]}
{"id": "C102", "title": "The custom-assets example: answers verify", "statement": "init of the custom-assets example succeeds exactly if there is an index.html and no folder is named like a published file. Then every request (for a path spelled as certified) is answered with the published file of that path, in Brotli if the Accept-Encoding header names it and such a variant exists, else in gzip likewise, else plain; with the uncertified page at /uncertified; and with index.html, encoded likewise, everywhere else; and the verifier accepts every answer. (False for other spellings of certified paths, with doubled slashes.)", "quantifier": "all included directories, all requests, all valid certificates of the certified data", "why_tests_cant": "Ranges over all directories, paths and Accept-Encoding headers, and every response goes through the whole verification.", "anchors": ["examples/http-certification/custom-assets/src/backend/src/lib.rs: init, certify_all_assets, certify_asset_glob, certify_asset, http_request, asset_handler, get_encoded_response"]}
{"id": "C103", "title": "The custom-assets example: only the site's files verify", "statement": "With unforgeable signatures, a response accepted with content shows a published file of that path or one of its encoded variants, or index.html where no published file and not /uncertified is; with its status, body and all its headers. Else a hash collision is shown.", "quantifier": "all included directories, all requests, all responses an attacker may return", "why_tests_cant": "Ranges over all forged responses.", "anchors": ["examples/http-certification/custom-assets/src/backend/src/lib.rs: certify_all_assets"]}
{"id": "C104", "title": "The custom-assets example: certification is skipped at /uncertified only", "statement": "With unforgeable signatures, a response is accepted without being vouched for only at the path /uncertified. Else a hash collision is shown.", "quantifier": "all included directories, all requests, all responses an attacker may return", "why_tests_cant": "Ranges over all forged responses and paths.", "anchors": ["examples/http-certification/custom-assets/src/backend/src/lib.rs: add_certification_skips"]}
{"id": "C105", "title": "The skip-certification example", "statement": "Every request is answered with the page that shows the time, and the verifier accepts the answer without vouching for it. With unforgeable signatures no response is ever vouched for in this canister's name, else a hash collision is shown.", "quantifier": "all requests, times and valid certificates; all responses an attacker may return", "why_tests_cant": "Ranges over all requests and forged responses.", "anchors": ["examples/http-certification/skip-certification/src/backend/src/lib.rs: init, http_request, create_response"]}
{"id": "C106", "title": "The upgrade-to-update-call example", "statement": "The query answer asks the gateway for an update call and carries neither headers nor a body, and as a query answer it is accepted by no verifier, for any request, key and time; the update call answers with status 418 and the text I'm a teapot.", "quantifier": "all requests, canisters, keys, times and minimal versions", "why_tests_cant": "Rejection ranges over all requests and verifier parameters.", "anchors": ["examples/http-certification/upgrade-to-update-call/src/rust-backend/src/lib.rs: http_request, http_request_update"]}
{"id": "C107", "title": "Texts of labels and hashes", "statement": "Displaying a label shows printable ASCII in quotes and anything else in hexadecimal, and two labels with the same text are equal; so are labels with the same debug text. pruned_from_hex accepts exactly the texts of 64 hexadecimal digits and gives the pruned node with the hash they spell.", "quantifier": "all labels, all texts", "why_tests_cant": "Injectivity and exactness range over all byte strings.", "anchors": ["packages/ic-certification/src/hash_tree/mod.rs: Display for Label, Debug for Label, pruned_from_hex"]}
{"id": "C108", "title": "JavaScript callers see what is wrong", "statement": "When verifyRequestResponsePair of the WebAssembly package fails, the code of the thrown error is the one named like the fault of the request and response (C83), it fails with that code only if there is that fault, and different kinds of faults have different codes.", "quantifier": "all JavaScript requests and responses that convert, all verifier parameters", "why_tests_cant": "Ranges over all inputs that can be wrong in any way.", "anchors": ["packages/ic-response-verification/src/error.rs: ResponseVerificationJsErrorCode, From<ResponseVerificationError> for ResponseVerificationJsError", "packages/ic-response-verification-wasm/src/lib.rs: verify_request_response_pair"]}
{"id": "C109", "title": "Requests and responses in Candid", "statement": "The Candid values of requests, responses and their update variants have the types of the HTTP gateway protocol; a value of these types, with fields in any order, with unknown fields and without the optional ones, is read as it is, and refused exactly if the method is not an HTTP method or the status code is not from 100 to 999; writing and reading again gives the same value.", "quantifier": "all values of the protocol's types, all requests and responses", "why_tests_cant": "Ranges over all values and field orders.", "anchors": ["packages/ic-http-certification/src/http/http_request.rs: MethodWrapper, HttpRequest, HttpUpdateRequest", "packages/ic-http-certification/src/http/http_response.rs: StatusCodeWrapper, HttpResponse, HttpUpdateResponse"]}
{"id": "C110", "title": "Headers of the assets example", "statement": "Every answer the assets example gives, to any request, is the metrics with the security headers, the redirect, or all or part of a file's content and, if the file is the page or matches one of the configured patterns, it has the security headers and the content type and cache control of its kind (the page is not cached, scripts, styles, icons and images for a year).", "quantifier": "all directories of files, all requests, all chunk sizes", "why_tests_cant": "Ranges over all files and requests.", "anchors": ["examples/http-certification/assets/src/backend/src/lib.rs: certify_all_assets, serve_asset, get_asset_headers"]}
{"id": "C111", "title": "Ranges the wrong way round", "statement": "key_range and value_range with first > last return, in a release build, some pruning with the root hash; in a debug build they panic exactly if the tree holds two different keys between last and first, and otherwise return the same as the release build.", "quantifier": "all histories of a tree, all pairs of keys in any order", "why_tests_cant": "Whether it panics depends on the shape of the tree and on the keys held.", "anchors": ["packages/ic-certification/src/rb_tree/mod.rs: key_range, value_range, witness_range_between"]}
{"id": "C112", "title": "Witnesses are logarithmic", "statement": "The witness of a key, held or not, has at most 5 nodes per level of the tree, and the number of levels is at most twice the logarithm of the number of keys held (plus one), besides what the value's own tree has.", "quantifier": "all histories of a tree, all keys", "why_tests_cant": "Sizes range over all histories; tests measure a few.", "anchors": ["packages/ic-certification/src/rb_tree/mod.rs: witness, nested_witness, range_witness"]}
{"id": "C113", "title": "Witnesses of nested trees are small", "statement": "The witness of a path in a nested tree has at most, per segment of the path, logarithmically many nodes in the number of paths held, besides those for what is held below the path; merging two trees gives no more nodes than the two have together.", "quantifier": "all histories of a nested tree, all paths, all pairs of trees", "why_tests_cant": "Sizes range over all histories.", "anchors": ["packages/ic-certification/src/nested_rb_tree.rs: witness", "packages/ic-certification/src/hash_tree/mod.rs: merge_hash_trees"]}
{"id": "C114", "title": "HTTP witnesses are small", "statement": "The witness of an entry that answers a request has at most quadratically many parts in the number of segments of the request's path, each logarithmic in the number of certified entries, besides at most 7 nodes for every entry certified at the entry's own path.", "quantifier": "all histories of the certification tree, all entries and requests they answer", "why_tests_cant": "Sizes range over all histories and requests.", "anchors": ["packages/ic-http-certification/src/tree/http_certification_tree.rs: witness", "packages/ic-http-certification/src/utils/wildcard_paths.rs: more_specific_wildcards_for"]}
{"id": "C115", "title": "Fixtures for tests verify", "statement": "create_v2_fixture fails only for a wildcard entry longer than the request path; a response with the certificate header it made, for an entry made for that response and whose path is the request's or a wildcard matching it, verifies with the fixture's root key and canister id while the fixture's time is within the allowed offset.", "quantifier": "all entries, paths, CEL expressions, requests and responses, all times", "why_tests_cant": "Ranges over all entries and paths.", "anchors": ["packages/ic-response-verification-test-utils/src/v2_certificate_fixture.rs: create_v2_fixture", "packages/ic-response-verification-test-utils/src/certificate.rs: create_versioned_certificate_header"]}
{"id": "C116", "title": "Certificates built in JavaScript", "statement": "The JavaScript CertificateBuilder throws exactly for an id that is none or a range without low and high that fit 64 bits; otherwise the certificate decodes, holds the data, and verifies exactly when the last time asked for (in milliseconds, modulo 2^64 nanoseconds) is within the offset and, if a delegation was asked for, the canister is in one of its ranges.", "quantifier": "all ids, data, chains of builder calls, verifying canisters and times", "why_tests_cant": "Ranges over all chains of calls and arguments.", "anchors": ["packages/ic-certification-testing-wasm/src/certificate_builder.rs: CertificateBuilder"]}
{"id": "C117", "title": "The language ic-cbor reads", "statement": "parse_cbor reads every well-formed RFC 8949 data item with definite lengths, whatever headers it is written with, to the value of that item (strings by their bytes, tags ignored, the last of equal map keys counting), and reads nothing else, except that a map may have fewer entries than it announces and that a header of major type 7 (null, booleans, floats) is taken for a tag of the item after it; inputs without maps are read exactly when they are well-formed items.", "quantifier": "all byte strings, all data items of any depth, all usize widths", "why_tests_cant": "Ranges over all byte strings and all nestings of items.", "anchors": ["packages/ic-cbor/src/cbor_parser.rs: parse_cbor, parser, extract_cbor_value, extract_key_val_pair"]}
{"id": "C118", "title": "Which byte strings decode to trees, certificates, ranges and lists", "statement": "HashTree::from_cbor returns a tree exactly for the RFC 8949 items that stand for it: arrays beginning with 0 to 4 in one or two bytes, with the node's parts after it, anything after those ignored, tags ignored everywhere; Certificate::from_cbor exactly for maps whose last entries tree and signature are a tree and a string, with a delegation exactly when the last entry delegation is a map, which must have the strings subnet_id and certificate; parse_cbor_principals_array and parse_cbor_string_array exactly for arrays of such pairs and of UTF-8 strings.", "quantifier": "all byte strings, all data items, all trees and certificates", "why_tests_cant": "Ranges over all byte strings and all nestings of items.", "anchors": ["packages/ic-cbor/src/cbor_parse_hash_tree.rs: parsed_cbor_to_tree", "packages/ic-cbor/src/cbor_parse_certificate.rs: parsed_cbor_to_certificate", "packages/ic-cbor/src/cbor_parser.rs: parse_cbor_principals_array, parse_cbor_string_array"]}
{"id": "C119", "title": "The two decoders agree", "statement": "Whatever bytes both serde (through serde_cbor) and ic-cbor accept as a hash tree, they read as the same tree; whatever both accept as a certificate they read as the same certificate, except that a delegation written as an array is a delegation for serde and is dropped by ic-cbor (which happens).", "quantifier": "all data items without simple values, all storage types, borrowed or copied input", "why_tests_cant": "Ranges over all encodings of all trees and certificates.", "anchors": ["packages/ic-certification/src/hash_tree/mod.rs: HashTreeNodeVisitor", "packages/ic-certification/src/certificate.rs: CertificateVisitor, DelegationVisitor", "packages/ic-cbor/src/cbor_parse_certificate.rs: parsed_cbor_to_certificate", "packages/ic-cbor/src/cbor_parse_hash_tree.rs: parsed_cbor_to_tree"]}
{"id": "C120", "title": "When v2 verification succeeds, exactly", "statement": "verify_request_response_pair succeeds with version 2 exactly if: the last certificate header parses to a version 2 header, at least the minimum version; the last expression header parses; the request has a path; the certificate verifies for the canister, whose certified data is the witness's digest; the witness shows the header's expression path to be the exact path of the request, or a wildcard for it with the exact path and every more specific matching wildcard shown absent (a wildcard with a slash also serving the path without it if that path's own wildcard is shown absent); and it shows under it the hash of the expression and the hashes of request and response. It then returns nothing for a skipped certification and otherwise the status, the body, the covered headers and the certificate header.", "quantifier": "every request, response, header, certificate, clock and key", "why_tests_cant": "Ranges over all requests, responses and witnesses, in both directions.", "anchors": ["packages/ic-response-verification/src/verification/verify_request_response_pair.rs: verify_request_response_pair, v2_verification", "packages/ic-response-verification/src/validation/v2_validation.rs: validate_expr_path, validate_hashes"]}
{"id": "C121", "title": "Which strings the verifier's base64 engine decodes", "statement": "The fields of a certificate header are decoded as base64 exactly if they consist of characters of the standard alphabet, not one more than a multiple of four, followed by at most the equal signs that fill the last group; the bytes are the number the characters write in base 64 without its last 0, 2 or 4 bits, whatever those bits are.", "quantifier": "all strings and byte strings", "why_tests_cant": "Ranges over all strings.", "anchors": ["packages/ic-response-verification/src/base64.rs: BASE64", "packages/ic-response-verification/src/verification/certificate_header.rs: decode_base64_header"]}
{"id": "C122", "title": "The certification expressions the verifier accepts, exactly", "statement": "For every UTF-8 text: the verifier parses it exactly if it begins with an expression of the grammar: a quoted name, a bracketed list, name(list) or name{key: expression, ...}, with white space before any token, no trailing comma, names of letters, digits and underscore (in quotes: hyphen), counting only the low eight bits of a character; what follows is ignored, no text can be read in two ways, and the last of several equal keys counts. It accepts the text as a certification exactly if that expression is default_certification(ValidationArgs{...}) with exactly one of no_certification and certification, the latter with exactly one of no_request_certification and request_certification and a response_certification of which exactly one of the two header lists gives headers.", "quantifier": "all UTF-8 texts and all certification expressions", "why_tests_cant": "Ranges over all texts.", "anchors": ["packages/ic-response-verification/src/cel/parser.rs: parse_cel_expression, cel_value, object, function, array, string, key_value", "packages/ic-response-verification/src/cel/ast_mapping.rs: map_cel_ast"]}
{"id": "C123", "title": "The time of a certificate, byte for byte", "statement": "A certificate passes the time check exactly if its tree shows at the path time some bytes that begin with at most ten bytes writing a number below 2^64 in LEB128 (digits of seven bits, least significant first, the top bit set on all but the last; leading zero digits and further bytes are allowed), and that number differs from the current time by at most the offset.", "quantifier": "all certificates, current times and offsets with now - offset and now + offset representable", "why_tests_cant": "Ranges over all byte strings and times.", "anchors": ["packages/ic-certificate-verification/src/certificate_verification.rs: verify_certificate_time"]}
{"id": "C124", "title": "The work of reading CBOR", "statement": "Reading CBOR (certificates, hash trees, expression paths, whole IC-Certificate headers) takes a number of parser calls linear in the input. (False: because a map whose entry fails is closed and what follows is read again, 2n+1 bytes that are accepted take 3*2^n-2 calls, and every header the library writes can be lengthened by about 8n/3 characters so that it reads the same but takes 2^n calls. True, with one call per data item, where maps have all their entries; in general at most length+1 calls times two to the number of bytes of major type 5.)", "quantifier": "all inputs; all n; all certificates, witnesses and expression paths", "why_tests_cant": "Ranges over all inputs; the cost doubles with every two bytes, a test shows one size.", "anchors": ["packages/ic-cbor/src/cbor_parser.rs: parser, extract_key_val_pair, parse_cbor", "packages/ic-response-verification/src/verification/certificate_header.rs: CertificateHeader::from"]}
{"id": "C125", "title": "The work of reading certification expressions", "statement": "Reading a certification expression, well-formed or not, calls the parser of values at most once per byte of the text and once more; the bound is met.", "quantifier": "all texts", "why_tests_cant": "Ranges over all texts, in particular malformed ones that might make a backtracking parser try alternatives repeatedly.", "anchors": ["packages/ic-response-verification/src/cel/parser.rs: parse_cel_expression, cel_value, drop_separators"]}
{"id": "C126", "title": "The recursion depth of the readers", "statement": "Reading CBOR or a certification expression needs a call depth bounded independently of the input. (False: d+1 bytes of CBOR and 2d+2 characters of an expression that are accepted need depth d, and every header the library writes can be lengthened by about 4d/3 characters so that it reads the same but needs depth d. The depth is at most the length of the input and one.)", "quantifier": "all inputs; all depths d; all certificates, witnesses and expression paths", "why_tests_cant": "Ranges over all inputs and depths.", "anchors": ["packages/ic-cbor/src/cbor_parser.rs: parser", "packages/ic-response-verification/src/cel/parser.rs: cel_value"]}
{"id": "C127", "title": "The length of the certificate header", "statement": "The IC-Certificate header a canister adds to a response that answers a request is at most 4/3 of: the length of the certificate, plus (11 + L) bytes for each of the O(s^2 log n) nodes of the witness, plus (9 + L) bytes for each segment of the expression path, plus a constant; n is the number of certified entries, s the number of segments of the request path, L >= 32 the longest path segment.", "quantifier": "all histories of insertions and deletions, entries, request URLs and certificates", "why_tests_cant": "Ranges over all trees: the size of the header decides whether gateways and browsers take the response, and no test bounds it for all trees.", "anchors": ["packages/ic-http-certification/src/utils/response_header.rs: add_v2_certificate_header", "packages/ic-http-certification/src/tree/certification_tree.rs: witness", "packages/ic-certification/src/hash_tree/mod.rs: Serialize for HashTreeNode"]}
{"id": "C128", "title": "An expression stands for one policy", "statement": "Two different certification policies (CEL expressions built with the builder) have different texts, hence, unless a hash collides, different expression hashes. (False for names with a double quote, which the builder copies unescaped; true for all names without.)", "quantifier": "all pairs of policies, with any number of header and query parameter names", "why_tests_cant": "Ranges over all pairs of policies and all names.", "anchors": ["packages/ic-http-certification/src/cel/create_cel_expr.rs: create_cel_expr", "packages/ic-http-certification/src/cel/cel_builder.rs"]}
{"id": "C129", "title": "The headers the library writes are one line of printable characters", "statement": "The value of the certificate header consists of printable ASCII characters whatever the certificate, the witness and the path; the value of the expression header does exactly when all names in the policy do, in particular for all HTTP tokens. (Names are not checked: a line break in a name reaches the header.)", "quantifier": "all certificates, witnesses, paths and policies", "why_tests_cant": "Ranges over all byte strings and names: one bad byte allows another header to be injected.", "anchors": ["packages/ic-http-certification/src/utils/response_header.rs: add_v2_certificate_header", "packages/ic-http-certification/src/cel/create_cel_expr.rs"]}
{"id": "C130", "title": "Decoding a compressed body does not depend on how the decoder cuts it", "statement": "A body with content encoding exactly gzip or deflate decodes to all the decoder produces, in order and once, however it is cut into reads; an error after any number of reads is an error, never a shorter body; nothing panics; with any other encoding the body is left as it is. The work is bounded. (The last is false: there is no limit on the decoded size or on the number of reads.)", "quantifier": "all decoders keeping the contract of std::io::Read, all bodies, all ways of cutting the output into reads", "why_tests_cant": "Ranges over all schedules of partial reads; tests decode eight bytes in one read.", "anchors": ["packages/ic-response-verification/src/verification/body.rs: decode_body, body_from_decoder"]}
{"id": "C131", "title": "The root hash is the one the interface specification defines", "statement": "The digest of every hash tree is the root hash of the Internet Computer interface specification (SHA-256 over a length byte, the texts ic-hashtree-empty, ic-hashtree-fork, ic-hashtree-labeled, ic-hashtree-leaf, and the parts); the root hash of a map and of the certification tree are that of their full tree and of every witness made from them; a certificate's signature is checked over the byte 13, ic-state-root and that hash.", "quantifier": "all hash trees, all histories of a map or certification tree, all witnesses, all certificates and keys", "why_tests_cant": "Ranges over all trees: a wrong separator on one side only shows against replicas and other libraries.", "anchors": ["packages/ic-certification/src/hash_tree/mod.rs: HashTreeNode::domain_sep, digest", "packages/ic-certification/src/rb_tree/mod.rs: labeled_hash, fork_hash, leaf_hash", "packages/ic-certificate-verification/src/certificate_verification.rs: verify_certificate_signature", "packages/ic-http-certification/src/tree/certification_tree.rs: root_hash, witness"]}
{"id": "C132", "title": "Encoded variants are served to the clients that accept them", "statement": "After certify_assets, a request without Range header for the url (or an alias) of an asset gets the variant in the best encoding its Accept-Encoding header names (br, zstd, gzip, deflate, identity in this order), with status 200 and the content-encoding header naming it, and the asset itself if the header names none of them. With a file, its compressed form under the usual extension (.br, .zst, .gz, .zz) and one configuration, each url and encoding gets its own content. Names of encodings are recognised in any case. (The last is false: GZIP gets the uncompressed file.)", "quantifier": "all reachable router states, assets, configurations, headers, iteration orders and sorting functions", "why_tests_cant": "Ranges over all sets of assets, histories and header values.", "anchors": ["packages/ic-asset-certification/src/asset_config.rs: AssetEncoding::default_config, Display", "packages/ic-asset-certification/src/asset_router.rs: certify_assets, serve_asset, get_encoded_asset, prioritized_encodings"]}
{"id": "C133", "title": "What is accepted was certified recently", "statement": "Whatever the verifier accepts at time now with offset d, some state of a subnet that speaks for the canister, with a time in [now-d, now+d], has the root hash of the presented witness as the canister's certified data. For a canister whose certification tree changes over time: accepted content is covered by an entry the tree held, and that answers the request's path, at a moment in this window; hence a page that was taken down is refused once the offset has passed. Exceptions exhibit an explicit hash collision. (The age of a delegation is not limited.)", "quantifier": "all requests, responses and certificates an attacker may present, all current times and offsets below 2^128, all histories of the certification tree over time", "why_tests_cant": "Ranges over all histories, all moments and all forged responses.", "anchors": ["packages/ic-response-verification/src/verification/verify_request_response_pair.rs: verify_request_response_pair", "packages/ic-certificate-verification/src/certificate_verification.rs: verify_certificate_time, verify_delegation", "packages/ic-http-certification/src/tree/certification_tree.rs: insert, delete, clear, root_hash"]}
{"id": "C134", "title": "What is accepted from an asset router was certified recently", "statement": "For a canister that keeps its certified data equal to the root hash of its asset router: content accepted at time now with offset d is a response that a call certified and the router still certified, answering the request's path, at a moment in [now-d, now+d]; when the router certified no such response in this window no content is accepted for the path. Exceptions exhibit an explicit hash collision.", "quantifier": "all histories of router calls over time, all processing orders, all requests and responses, all times and offsets below 2^128", "why_tests_cant": "Ranges over all histories, all moments and all forged responses.", "anchors": ["packages/ic-asset-certification/src/asset_router.rs: certify_assets, delete_assets, delete_all_assets, root_hash", "packages/ic-response-verification/src/verification/verify_request_response_pair.rs: verify_request_response_pair", "packages/ic-certificate-verification/src/certificate_verification.rs: verify_certificate_time"]}
{"id": "C135", "title": "Changes to a tree do logarithmic work", "statement": "With n keys stored after any history, an insertion looks at and rehashes at most 12*log2(n+1)+2 nodes, an update in place 4*log2(n+1)+1 and a removal 26*log2(n+1)+13; a history of m operations does at most m times that work. The order of the keys and the history make no difference to these bounds.", "quantifier": "all histories of insertions, removals and updates, all keys and values, all numbers of keys", "why_tests_cant": "Ranges over all histories and all sizes; a test can only time some of them.", "anchors": ["packages/ic-certification/src/rb_tree/mod.rs: insert, delete, modify, balance, move_red_left, move_red_right, update_subtree_hash"]}
{"id": "C136", "title": "The certified counter example across upgrades", "statement": "After every history of increments and upgrades, the canister's response makes the page show the number of increments since the last upgrade (it stays at 2^32-1 in builds with overflow checks and starts again at 0 in others), and under a certificate of the current data no response makes it show another number (else an explicit hash collision).", "quantifier": "all histories of increments and upgrades, all responses an attacker may return, all certificates and times, whether or not the platform keeps the certified data across upgrades", "why_tests_cant": "Ranges over all histories with upgrades at any point and all forged responses.", "anchors": ["examples/certification/certified-counter/src/backend/src/lib.rs: COUNTER, TREE, inc_count, get_count", "examples/certification/certified-counter/src/frontend/src/index.ts: click handler"]}
{"id": "C137", "title": "What is accepted from the json-api example was its answer within the time window", "statement": "A canister running the json-api example changes over time and the platform certifies its data at each moment. Whatever response to a query a client accepts at time now was the correct answer of the canister (the to-do list, the refusal or the 404 the history of updates and upgrades prescribes) at a state the platform published with a time within the allowed offset of now - else a concrete hash collision is exhibited.", "quantifier": "all histories and sets of published states, all requests and responses an attacker may return, all certificates under an unforgeable signature, all times, offsets and versions", "why_tests_cant": "Ranges over all histories, all interleavings of publication and verification, and all forged or replayed responses.", "anchors": ["examples/http-certification/json-api/src/backend/src/lib.rs: init, post_upgrade, http_request, http_request_update", "packages/ic-response-verification/src/verification/verify_request_response_pair.rs: verify_request_response_pair", "packages/ic-certificate-verification/src/certificate_verification.rs: verify_certificate_time"]}
{"id": "C138", "title": "The text of an error tells what is wrong", "statement": "If two verifications are refused with the same error text, they are refused for the same reason, with the same versions and the same expression and request paths, whatever characters an attacker puts into the paths (the reasons inside a failed certificate check are not told apart). Paths of printable characters stand in the text as they are, in quotes. JavaScript callers get this text together with the code.", "quantifier": "all requests, responses, keys, times and versions, all paths with any characters", "why_tests_cant": "Ranges over all pairs of errors and all adversarial paths, including quotes, backslashes, brackets and other texts' wording.", "anchors": ["packages/ic-response-verification/src/error.rs: ResponseVerificationError (#[error(..)]), ResponseVerificationJsError", "packages/ic-http-certification/src/error.rs: HttpCertificationError (#[error(..)])"]}
{"id": "C139", "title": "The text of an error is one printable line", "statement": "Whatever request and response are verified, the text of the error is one line without control characters, so that it cannot forge lines of a log.", "quantifier": "all requests, responses, keys, times and versions, all paths with any characters", "why_tests_cant": "Ranges over all adversarial requests and responses.", "anchors": ["packages/ic-response-verification/src/error.rs: ResponseVerificationError (#[error(..)])", "packages/ic-http-certification/src/error.rs: HttpCertificationError::MalformedUrl"]}
{"id": "C140", "title": "The json-api example speaks JSON", "statement": "The body of every response of the json-api example is a JSON text (RFC 8259) that denotes exactly one value: the list of items with their ids, titles and flags, the created item, null, or the error with its code and message - whatever characters the titles have.", "quantifier": "all lists of items, all titles (any characters), ids and flags", "why_tests_cant": "Ranges over all titles including quotes, backslashes and control characters, and all lists.", "anchors": ["examples/http-certification/json-api/src/backend/src/types.rs: TodoItem, ApiResponse, encode", "examples/http-certification/json-api/src/backend/src/lib.rs: certify_list_todos_response, create_todo_item_handler, create_response"]}
{"id": "C141", "title": "A refused certification expression is refused with the error that says what is wrong", "statement": "Reading a certification expression always ends with a policy or an error. The error is a syntax exception exactly if no initial part of the text is an expression, and otherwise the one documented for what is wrong first (function, argument, properties of ValidationArgs, request part, response part), with the names expected and found; an expression is never wrong in two ways.", "quantifier": "all texts, all expressions", "why_tests_cant": "Ranges over all texts and all ways an expression can be wrong.", "anchors": ["packages/ic-response-verification/src/cel/error.rs: CelParserError", "packages/ic-response-verification/src/cel/ast_mapping.rs: map_cel_ast, validate_object, validate_function, validate_string_array, validate_request_certification, validate_response_certification", "packages/ic-response-verification/src/cel/parser.rs: parse_cel_expression"]}
{"id": "C142", "title": "Errors about certification expressions name the right thing", "statement": "Every documented error is reported for what it documents, a missing property is reported with the object that lacks it, an element of the wrong type with that element.", "quantifier": "all texts", "why_tests_cant": "That an error is never reported ranges over all texts.", "anchors": ["packages/ic-response-verification/src/cel/error.rs: UnrecognizedFunction, IncorrectFunctionParameterType, MissingObjectProperty, UnexpectedNodeType", "packages/ic-response-verification/src/cel/ast_mapping.rs: validate_response_certification, validate_string_array"]}
{"id": "C143", "title": "A refused CBOR document is refused with the error that says what is wrong", "statement": "Reading hash trees, certificates, canister ranges and lists of strings from CBOR: the error is MalformedCbor exactly if the bytes are no CBOR value, and otherwise the one documented for the first part that is wrong (missing tag, data or child of a node, a digest of the wrong length, missing map, tree, signature, subnet id or certificate, an element of the wrong type or that is not UTF-8); no document is wrong in two ways.", "quantifier": "all byte strings, all values", "why_tests_cant": "Ranges over all documents and all ways they can be wrong, at any depth of the tree.", "anchors": ["packages/ic-cbor/src/error.rs: CborError", "packages/ic-cbor/src/cbor_parse_hash_tree.rs: parsed_cbor_to_tree", "packages/ic-cbor/src/cbor_parse_certificate.rs: parsed_cbor_to_certificate", "packages/ic-cbor/src/cbor_parser.rs: parse_cbor_principals_array, parse_cbor_string_array"]}
{"id": "C144", "title": "CBOR that ends too early is reported as such", "statement": "A document that ends before its end is refused with UnexpectedEndOfInput.", "quantifier": "all byte strings", "why_tests_cant": "That an error is never reported ranges over all inputs.", "anchors": ["packages/ic-cbor/src/error.rs: UnexpectedEndOfInput", "packages/ic-cbor/src/cbor_parser.rs: parse_cbor"]}
{"id": "C145", "title": "A canister whose certification is refused gets the error that says what is wrong", "statement": "Certifying a response fails exactly if the certification expression headers do not carry the expression once (missing, different, or repeated: the error names the expected and the found one) or, for full certification, the request's URL has no readable query; asking for a witness fails exactly if the wildcard path of the entry does not cover the request path, and the error names both.", "quantifier": "all responses, requests, policies, trees, entries and URLs", "why_tests_cant": "Ranges over all lists of headers (any spelling of the name, any order and number of occurrences) and all trees.", "anchors": ["packages/ic-http-certification/src/error.rs: HttpCertificationError", "packages/ic-http-certification/src/tree/certification.rs: validate_response, response_only, full", "packages/ic-http-certification/src/tree/certification_tree.rs: witness", "packages/ic-http-certification/src/hash/request_hash.rs: request_hash"]}
{"id": "C146", "title": "An asset canister gets the error that says what is wrong", "statement": "Serving fails exactly if the URL is malformed or its path is not text, the range header cannot be read (the text says whether the shape, the first number, the second number or their order is wrong, and quotes the header), or no asset matches the request path, and the error is that of the first. Certifying or deleting assets fails only with an error that names something that is wrong in the call; a bad glob pattern is reported exactly if it is the first one, and then nothing is changed.", "quantifier": "all routers, requests, lists of assets and configurations", "why_tests_cant": "Ranges over all inputs and over all ways several things are wrong at once.", "anchors": ["packages/ic-asset-certification/src/error.rs: AssetCertificationError", "packages/ic-asset-certification/src/asset_router.rs: serve_asset, certify_assets, delete_assets, parse_range_header_str, maybe_get_range_begin, prepare_response_and_certification", "packages/ic-asset-certification/src/asset_config.rs: TryFrom<AssetConfig> for NormalizedAssetConfig"]}
{"id": "C147", "title": "The text of a certificate error tells what is wrong with the certificate", "statement": "Two refusals of certificates with the same text are the same error with the same contents (sizes, prefixes, times, limits, canister id, ranges, paths), provided principals are written so that they can be read; expected and found values are shown in that order.", "quantifier": "all certificates, keys, clocks and canister ids", "why_tests_cant": "Ranges over pairs of errors with arbitrary contents, lists of any length in them.", "anchors": ["packages/ic-certificate-verification/src/error.rs: CertificateVerificationError", "packages/ic-certificate-verification/src/certificate_verification.rs: VerifyCertificate::verify"]}
{"id": "C148", "title": "The text of a certification error tells what is wrong", "statement": "Two errors of the HTTP certification or asset certification library with the same text are the same error.", "quantifier": "all requests, assets, configurations, entries and URLs", "why_tests_cant": "Ranges over pairs of errors with arbitrary texts in them.", "anchors": ["packages/ic-http-certification/src/error.rs: HttpCertificationError", "packages/ic-asset-certification/src/error.rs: AssetCertificationError", "packages/ic-asset-certification/src/asset_router.rs: serve_asset, certify_assets, delete_assets"]}
{"id": "C149", "title": "A certificate whose time cannot be read is refused with an error that shows it", "statement": "The error TimeDecodingFailed carries the timestamp of the certificate that could not be decoded.", "quantifier": "all certificates", "why_tests_cant": "Ranges over all byte strings that are not a time.", "anchors": ["packages/ic-certificate-verification/src/certificate_verification.rs: verify_certificate_time", "packages/ic-certificate-verification/src/error.rs: TimeDecodingFailed"]}
{"id": "C150", "title": "A client can download an asset part by part", "statement": "After certify_assets, a client that asks for an asset and then, as long as the response is partial, for the bytes after the ones it has, gets exactly the content of the asset, whatever its size; it never gets anything else.", "quantifier": "all routers, assets, configurations, chunk sizes and requests", "why_tests_cant": "Ranges over histories of calls and contents of any size; the number of requests of the client is unbounded.", "anchors": ["packages/ic-asset-certification/src/asset_router.rs: serve_asset, get_asset_for_request, parse_range_header_str, insert_static_asset, delete_static_asset"]}
{"id": "C151", "title": "The debug text of a hash tree shows the tree", "statement": "The debug text of a hash tree tells its shape, the hashes in it and its labels and values as far as they are shown apart: printable ones as text, others of up to 32 bytes in hexadecimal, longer ones by their length. Printable ones not starting with 0x are shown apart from all others.", "quantifier": "all hash trees", "why_tests_cant": "Trees of any shape and depth; the text must be readable back unambiguously although values may contain any characters.", "anchors": ["packages/ic-certification/src/hash_tree/mod.rs: Debug for HashTree, Debug for HashTreeNode, readable_print"]}
{"id": "C152", "title": "A proof discloses only what was asked for", "statement": "A proof made by the certification tree (and by any nested tree) shows only the way to the paths asked for, what is below them and, where such a path is missing, the stored labels directly next to the missing one; everything else stored is only a hash. For a wildcard the paths asked for are the path requested, the wildcard answered with and the more specific wildcards that match the request.", "quantifier": "all histories of the tree, entries, and request paths", "why_tests_cant": "A leak could show for one shape of the tree or one request only; both are unbounded.", "anchors": ["packages/ic-http-certification/src/tree/certification_tree.rs: witness", "packages/ic-certification/src/nested_rb_tree.rs: witness, merge_hash_trees", "packages/ic-certification/src/rb_tree/mod.rs: nested_witness, range_witness, lower_bound, upper_bound"]}
{"id": "C153", "title": "The texts of CBOR and CEL reader errors tell the error", "statement": "From the text of an error of the CBOR readers (hash trees, certificates, canister ranges, string lists) or of the reader of certification expressions one can tell which error it is, and every field: the expected type, names, the position and the whole value found with its strings, numbers and nesting; only the order of the entries of maps, which a HashMap leaves open, does not count. This holds for every error these readers can report.", "quantifier": "all errors and values found, in any order of their maps, and all inputs of the readers", "why_tests_cant": "The values found are unbounded and nested, quoted twice, and contain strings chosen by whoever made the input.", "anchors": ["packages/ic-cbor/src/error.rs: CborError", "packages/ic-cbor/src/cbor_parser.rs: CborValue (Debug, Display)", "packages/ic-response-verification/src/cel/error.rs: CelParserError", "packages/ic-response-verification/src/cel/parser.rs: CelValue (Debug, Display)"]}
{"id": "C154", "title": "Repeated asset router calls change nothing", "statement": "Calling certify_assets with assets and configurations whose responses are stored and certified already leaves the root hash, the tree, what is stored and the answer to every request as they were; in particular calling it a second time with the same assets does, whatever order they are iterated in. The same holds for delete_assets with assets that are not there, and so for deleting twice.", "quantifier": "all states an asset router can reach, assets, configurations, iteration orders and requests", "why_tests_cant": "Canisters certify again after upgrades and in timers, from any state; a root hash that changes without need makes certificates of earlier responses useless. States are unbounded.", "anchors": ["packages/ic-asset-certification/src/asset_router.rs: certify_assets, delete_assets, root_hash, serve_asset"]}
{"id": "C155", "title": "The version a response is accepted with", "statement": "The requested minimum version only filters: a result under one minimum is the result under every minimum up to its version, and there is none above. The version is one the canister's tree has a part for (http_assets for version 1, http_expr for version 2), whatever the response's headers say, so a canister that certifies with one version only never has a response accepted with the other; and presenting a header of the other version does not get other statuses or headers accepted.", "quantifier": "every request, response, header, minimum version and certified tree", "why_tests_cant": "The version is chosen by the server's header, the minimum by the caller: whether a boundary node can downgrade a response depends on every header it could send and every tree the canister could hold.", "anchors": ["packages/ic-response-verification/src/verification/verify_request_response_pair.rs: verify_request_response_pair, v1_verification, v2_verification"]}
{"id": "C156", "title": "The WebAssembly and the native verifier agree", "statement": "A response accepted by a 64-bit build of the verifier (in a boundary node or a test) is accepted with the same result by a build with narrower usize (a browser's WebAssembly), provided its IC-Certificate header fits the narrower address space; and the other way round.", "quantifier": "every request, response, key, time and minimum version, every width of usize", "why_tests_cant": "The CBOR reader converts 64-bit lengths with 'as usize', which cuts them off on 32-bit targets; tests run on one target, and agreement concerns every byte string and every nested delegation certificate.", "anchors": ["packages/ic-cbor/src/cbor_parser.rs: CborUnsignedInt::to_usize, parser, parse_cbor, parse_cbor_principals_array, parse_cbor_string_array", "packages/ic-response-verification/src/verification/verify_request_response_pair.rs: verify_request_response_pair"]}
{"id": "C157", "title": "The spelling of the certificate header does not matter", "statement": "What the verifier makes of an IC-Certificate header is decided by what its fields say: the order of the fields, white space around them, colons around the values, repeated equal fields and unknown fields change neither the verdict nor the returned status, body and other headers, as long as no known field is given two values.", "quantifier": "every pair of headers that say the same, every request, response, key, time and minimum version", "why_tests_cant": "HTTP gateways and proxies may rewrite a header's white space and order; that no spelling of the same fields changes a verdict concerns every pair of spellings.", "anchors": ["packages/ic-response-verification/src/verification/certificate_header.rs: CertificateHeader::from", "packages/ic-response-verification/src/verification/certificate_header_field.rs: CertificateHeaderField::from", "packages/ic-response-verification/src/verification/verify_request_response_pair.rs: verify_request_response_pair"]}
{"id": "C158", "title": "The clock decides only when a response is accepted", "statement": "A response accepted at some clock and time tolerance is accepted at exactly the clocks within the tolerance of the moment in its certificate, always with the same result, and refused at the others: a larger tolerance accepts no less, what is accepted at two clocks is accepted with one result at every clock between, and what has expired stays expired. A tolerance is any number of nanoseconds.", "quantifier": "every request, response, canister, key, minimum version, every pair of clocks and tolerances", "why_tests_cant": "A gateway caches and re-verifies responses at later clocks; that nothing else in the verdict or the returned response depends on the clock, for all clocks, cannot be sampled.", "anchors": ["packages/ic-certificate-verification/src/certificate_verification.rs: verify_certificate_time", "packages/ic-response-verification/src/verification/verify_request_response_pair.rs: verify_request_response_pair"]}
{"id": "C159", "title": "A response says the same thing whoever verifies it", "statement": "If two verifiers, with whatever canisters, root keys, clocks, tolerances, minimum versions and signature schemes, accept the same response for the same request, they return the same result; and one accepts what another accepted exactly if its minimum version is met and the certificate is valid for its canister, key and clock and shows the same certified tree.", "quantifier": "every request and response, every pair of verifiers", "why_tests_cant": "Boundary nodes, service workers and libraries verify the same response with different settings; that no setting changes what is returned concerns every pair of calls.", "anchors": ["packages/ic-response-verification/src/verification/verify_request_response_pair.rs: verify_request_response_pair", "packages/ic-response-verification/src/validation/common_validation.rs: validate_tree", "packages/ic-certificate-verification/src/certificate_verification.rs: VerifyCertificate::verify"]}
{"id": "C160", "title": "A response is accepted for the canister that certified it only", "statement": "No response can be replayed for another canister: a response accepted for one canister is accepted for another exactly if its certificate shows that the other certified the same tree (and its delegation covers the other), and two canisters that certified different trees have no accepted response in common, unless the certificate or the two trees exhibit a SHA-256 collision.", "quantifier": "every pair of canisters and certified trees, every request, response, clock and set of states the IC signed", "why_tests_cant": "An attacker who runs a canister on the same subnet may present its certified responses for another canister; that this never works concerns every certificate and tree, not sampled ones.", "anchors": ["packages/ic-response-verification/src/verification/verify_request_response_pair.rs: verify_request_response_pair", "packages/ic-response-verification/src/validation/common_validation.rs: validate_tree", "packages/ic-certificate-verification/src/certificate_verification.rs: verify_delegation"]}
{"id": "C161", "title": "The json-api example asks for an update call exactly where one can act", "statement": "In every state the query method of the json-api example answers POST /todos, PATCH /todos/<segment> and DELETE /todos/<segment> (methods in any case), and nothing else, with an empty response that asks for an update call; so every request that asks for a change of the list is sent on, and the update call of a request sent on does what the request asks for, or traps.", "quantifier": "every state, request and certificate", "why_tests_cant": "A request that is answered by a query although it should change the state is lost silently; that none is concerns every request.", "anchors": ["examples/http-certification/json-api/src/backend/src/lib.rs: http_request, http_request_update, prepare_query_handlers, prepare_update_handlers, upgrade_to_update_call_handler"]}
{"id": "C162", "title": "The root hash determines what a tree holds", "statement": "Two trees (red-black, nested or certification trees), whatever their histories, with the same root hash hold the same entries, values and certifications, and every operation that changes what is certified changes the root hash; otherwise the nodes of the two trees exhibit a SHA-256 collision.", "quantifier": "every pair of histories of tree operations", "why_tests_cant": "A canister that sets its certified data only when the root hash has changed, or compares root hashes after an upgrade, relies on this for all histories.", "anchors": ["packages/ic-certification/src/rb_tree/mod.rs: RbTree::root_hash", "packages/ic-certification/src/nested_rb_tree.rs: NestedTree::root_hash", "packages/ic-http-certification/src/tree/certification_tree.rs: HttpCertificationTree::root_hash"]}
{"id": "C163", "title": "The text of a response tells the response, and shows a bounded part of its body", "statement": "The {:?} text of a response is the same for two responses exactly when their status, headers and upgrade flag are the same and their bodies agree in their first hundred bytes and in whether there are more. What is written for the body never exceeds 509 bytes. The texts of requests, update requests and update responses tell the value completely.", "quantifier": "every pair of requests or responses with UTF-8 strings and method names without a closing parenthesis", "why_tests_cant": "Logs and failed assertions show these texts; that no two different values share one, whatever quotes, separators or lengths they contain, cannot be settled by examples.", "anchors": ["packages/ic-http-certification/src/http/http_response.rs: impl Debug for HttpResponse, HttpUpdateResponse", "packages/ic-http-certification/src/http/http_request.rs: HttpRequest, HttpUpdateRequest"]}
