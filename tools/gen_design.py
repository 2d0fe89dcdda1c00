#!/usr/bin/env python3
# Writes /verif/DESIGN.md: the text below and one table row per property.
import json,re,glob,os
R=os.path.join(os.path.dirname(os.path.abspath(__file__)),"..")
props=[json.loads(l) for l in open(R+"/properties.jsonl")]
man={c["property"]:c for c in json.load(open(R+"/MANIFEST.json"))["claims"]}
where={}
for f in glob.glob(R+"/rocq/theories/*.v"):
    for m in re.finditer(r'^(?:Theorem|Lemma|Corollary)\s+(\w+)',open(f).read(),re.M): where.setdefault(m.group(1),os.path.basename(f))
G=[ # (first, last, model and specification files, method)
 (1,7,"HashTree.v; spec HashTreeSpec.v","structural induction over trees and paths; hash collisions extracted from domain-separated encodings"),
 (8,15,"RbTree.v; spec RbSpec.v","left-leaning red-black invariants; refinement to a finite map over all operation histories; pruning relation for witnesses"),
 (16,19,"Nested.v; spec NestedSpec.v","refinement to a partial map on paths over all histories; merge of prunings of one tree"),
 (20,24,"Cbor.v; spec CborSpec.v","byte-level induction on encodings and fuel; counterexamples for the refuted ones"),
 (25,29,"RiHash.v, HttpHash.v; spec HttpSpec.v","sorting/permutation lemmas; collision extraction; filter lemmas"),
 (30,33,"Cel.v","parser/printer induction"),
 (34,37,"Wildcard.v, V2.v; spec WildcardSpec.v","induction on path length; list membership characterisation"),
 (38,42,"CertVerify.v, Leb128.v, SigCache.v; spec CertSpec.v","decision lemmas; transition system with arbitrary interleavings for the cache"),
 (43,45,"Base64.v, Header.v; spec HeaderSpec.v","round trips by induction; first-field characterisation"),
 (46,50,"Verify.v; spec VerifySpec.v","acceptance characterised exactly, composed with C03/C04/C36/C40"),
 (51,55,"HttpTree.v; spec HttpTreeSpec.v","C18, C19, C36 composed over all histories of the certification tree"),
 (56,58,"AssetRouter.v; spec AssetSpec.v","state machine over certify/delete histories, invariant linking stored responses and certified entries"),
 (59,59,"AssetRouter.v, Verify.v; spec ServeSpec.v","C56, C51, C47 composed; the served response runs through the modelled verifier"),
 (60,62,"AssetRouter.v; spec RangeSpec.v, ServeSpec.v","induction over chunk lists, strings and path segments"),
 (63,63,"Verify.v, Utf8.v; spec VerifySpec.v, Utf8Spec.v","relational percent decoding; UTF-8 characterised as encodings of scalar values"),
 (64,64,"HttpTree.v, Verify.v","soundness of verification against the history of certifications"),
 (65,65,"AssetRouter.v; spec ServeSpec.v","list search over encodings"),
 (66,68,"AssetRouter.v; spec AssetSpec.v","invariants over all call histories; exact effect of one call"),
 (69,69,"HttpTree.v","state refinement"),
 (70,72,"AssetRouter.v, Verify.v, Cbor.v","composition (C70), panic reasons by case analysis (C71), two-run comparison (C72)"),
 (73,74,"RbCompare.v, RbTree.v, Nested.v, HttpTree.v","orders on sorted lists; fixpoints of redundant operations"),
 (75,75,"Serde.v; spec SerdeSpec.v","induction on serde data-model values"),
 (76,77,"HttpBuild.v","permutation equality; builder call histories"),
 (78,78,"AssetMap.v","C60/C67 composed"),
 (79,79,"CertBuilder.v; spec CertBuilderSpec.v","composition with C40"),
 (80,80,"V1Assets.v","C12/C13/C19/C49 composed"),
 (81,82,"JsBindings.v","case analysis; object entries as permutations"),
 (83,84,"Errors.v; spec ErrorSpec.v","error-valued model proved equal to the verdict model; iff with an inductive list of faults"),
]

EXTRA=[]
EXTRA.append((85,86,"Nested.v; spec MergeSpec.v","induction on two trees; positions"))
EXTRA.append((87,91,"JsonApi.v (examples/http-certification/json-api), HttpTree.v, Verify.v; spec JsonSpec.v","state invariant over histories: tree operations, response map and item map in step; refinement to an abstract todo list; C51 and C64"))
EXTRA.append((92,93,"Counter.v (examples/certification/certified-counter), RbTree.v, JsBindings.v","invariant over the number of increments; C81; preimages of two equal digests"))
EXTRA.append((94,94,"HttpTree.v, AssetRouter.v, Verify.v; spec HttpTreeSpec.v, VerifySpec.v","C47/C48 on the canister's full tree; the terminator segment is unique in an entry's path; counterexample by search for a hash that is UTF-8 text, then vm_compute"))
EXTRA.append((95,98,"Shared.v (AssetRouter::with_tree), AssetRouter.v, HttpTree.v; spec Shared.v, ServeSpec.v, AssetSpec.v","run of events simulated by the router's step relation; invariants of C56-C59, C70, C94 carried over to mixed histories"))
EXTRA.append((99,101,"SiteExample.v (examples/http-certification/assets), Shared.v, AssetRouter.v, Verify.v; spec SiteExample.v","instances of C67, C96-C98 for the example's configuration; which configuration and file a stored response comes from"))
EXTRA.append((102,104,"CustomAssets.v (examples/http-certification/custom-assets), HttpTree.v, Verify.v; spec CustomSpec.v","invariant relating the two response maps, the tree's history and the directory; then C51, C52 and the path rules of C36, C37 on that history"))
EXTRA.append((105,106,"SmallExamples.v (examples skip-certification, upgrade-to-update-call), HttpBuild.v, Verify.v; spec CustomSpec.v","instances of C55; no certificate header, so C46 excludes success"))
EXTRA.append((107,107,"Labels.v (Label's Display and Debug, pruned_from_hex); spec Props_Labels.v","inverse function on the text; induction on pairs of digits"))
EXTRA.append((108,108,"JsErrors.v, Errors.v, JsBindings.v; spec ErrorSpec.v, Props_JsErrors.v","C83 composed with the table of codes"))
EXTRA.append((109,109,"Candid.v (derived and hand-written CandidType and Deserialize); spec Props_Candid.v","case analysis over field lookups; induction on header lists"))
EXTRA.append((110,110,"SiteExample.v; spec Props_SiteHeaders.v (security_headers, file_headers)","C99's case analysis of answers, with what is certified for every file"))
EXTRA.append((111,111,"RbTree.v, Props_RbMore.v (release_key_range, release_value_range: the same without debug assertions)","induction on the tree over the three range functions; key_bound lemmas of RbBounds.v"))
EXTRA.append((112,114,"RbTree.v, Nested.v, HttpTree.v; sizes in Props_Size.v","induction on the tree with the red-black height bound (C09); induction on the path; C34 bounds the number of wildcards"))
EXTRA.append((115,116,"Fixtures.v, CertBuilder.v, JsBindings.v; spec CertBuilderSpec.v, Props_Fixtures.v (entry_for, is_range)","composition of C51 and C79; induction on the chain of calls"))
EXTRA.append((117,117,"Cbor.v; spec CborGrammar.v (item, item_bytes, item_value, well_formed)","induction on the length of the input and on the fuel of the parser"))
EXTRA.append((118,118,"Cbor.v; spec CborGrammar.v, CborDocs.v (is_tree, is_certificate, is_ranges, is_strings)","C117 and inversion of the decoded value; last-entry lemma for maps by induction from the right"))
EXTRA.append((119,119,"Cbor.v, Serde.v; spec CborGrammar.v, CborDocs.v, Props_Agree.v (serde_view, no_simple)","C118 and induction on the tree and on the entries of the map"))
EXTRA.append((120,120,"Verify.v, V2.v, Wildcard.v; spec VerifySpec.v, WildcardSpec.v, Props_V2Iff.v (shown_expression_path, returned), Props_Verify.v (shown_entry)","inversion of the verifier; C35 for the list of wildcards, and the same for the wildcard with a slash"))
EXTRA.append((121,121,"Base64.v; spec Props_Base64.v (is_base64, written, padding)","induction on groups of four characters, arithmetic of the written numbers"))
EXTRA.append((122,122,"Cel.v; spec CelGrammar.v (expr, items, fields, means)","soundness by induction on fuel, completeness by mutual induction on the grammar, UTF-8 scalar by scalar"))
EXTRA.append((123,123,"Leb128.v, CertVerify.v; spec Props_Leb.v (leb128)","induction on the bytes read, with the shift as invariant"))
EXTRA.append((124,124,"CborCost.v (instrumented copy of Cbor.v and Header.v); spec CborCost.v (slow, padded_tree, item_count), CborGrammar.v","erasure of the counter; induction on n; potential (length + 1) * 2^maps for the general bound"))
EXTRA.append((125,125,"CelCost.v (instrumented copy of Cel.v)","erasure of the counter; amortised count: separators pay for calls"))
EXTRA.append((126,126,"Cbor.v, Cel.v, Header.v; spec CborCost.v (deep, padded_tree), Props_Depth.v (brackets)","the readers are monotone in their fuel; induction on the depth"))
EXTRA.append((127,127,"HttpTree.v, Header.v, Cbor.v, Base64.v; spec as C114","length of each encoded node by induction on the tree; strings of the witness are segments of inserted entries"))
EXTRA.append((128,129,"Cel.v (print_cel), Header.v; spec Props_ExprText.v (no_quote, line_text), CelSpec.v","unique splitting at quotes; explicit counterexamples"))
EXTRA.append((130,130,"Body.v (decoder as a state machine); spec Props_Body.v (keeps_contract, hands_out)","induction on the sequence of reads; equal to decode_body of Verify.v"))
EXTRA.append((131,131,"HashTree.v, RbTree.v, HttpTree.v, CertVerify.v; spec Props_RootHash.v (reconstructs)","induction on the tree and the derivation; witnesses through C11, C12, C52"))
EXTRA.append((132,132,"AssetRouter.v, Encodings.v; spec Props_Variants.v (http_name, preference, best_encoding), AssetSpec.v, ServeSpec.v","what is written (C67), which response is chosen (C62, C65), what serve_asset returns (C66)"))
EXTRA.append((133,134,"CertVerify.v, Verify.v, HttpTree.v, AssetRouter.v; spec Props_Fresh.v (state_time), HttpTreeSpec.v, ServeSpec.v","C38 and C40 on the same certificate give a state with the time and the data; then C47, C49 and the entry behind it (C64, C70) for the history published at that time"))
EXTRA.append((135,135,"RbCost.v (counting copies of RbTree.v)","the copies project to the originals; bounds by induction along the red-black shapes of RbShape.v, black height at most log2(n+1)"))
EXTRA.append((136,136,"Counter.v (counter_upgrade, counter_after)","the state after the last upgrade is that of the increments since (induction over the history), then C92, C93"))
EXTRA.append((137,137,"JsonApi.v, Verify.v, CertVerify.v","C133 gives the recent state the certificate speaks for; its data is the root of the api's tree after a published history; then the core of C88"))
EXTRA.append((138,139,"Messages.v","Debug of strings and of lists of strings is prefix-free (induction), so each text can be taken apart again; errors reported by the verifier only carry UTF-8"))
EXTRA.append((140,140,"JsonApi.v (json_escape, json_todo, json_ok, json_err), JsonGrammar.v","the bodies are derived in the grammar; the grammar is unambiguous by mutual induction (each production is prefix-free)"))
EXTRA.append((141,142,"CelErrors.v, CelErrorSpec.v","the error of each function is characterised by an inductive relation; C122 for the syntax; a sweep over all functions shows which errors are never built"))
EXTRA.append((143,144,"CborErrors.v, CborErrorSpec.v","induction on values and on the derivation of a fault; forgetting the errors gives the functions of Cbor.v"))
EXTRA.append((145,146,"CanisterErrors.v, CanisterErrorSpec.v","the same functions with their error values, forgetting them gives HttpTree.v and AssetRouter.v; inversion and induction on headers, digits and the steps of a call"))
EXTRA.append((147,149,"CanisterMessages.v","as C138: fixed texts clash or a prefix code is peeled off (lists of numbers, principals under a readability hypothesis); C84 and C146 say which errors occur; induction on the bytes read for C149"))
EXTRA.append((150,150,"Download.v, Props_Download.v","the client as an inductive relation; C62, C66 and C67 say what each request is answered with; induction on the bytes still missing; the refutation is a history of four calls"))
EXTRA.append((151,151,"TreeText.v, Props_TreeText.v","an inductive relation of trees that look alike; the text is read back from the left, by induction on the tree"))
EXTRA.append((152,152,"Props_Privacy.v","induction on the path of a proof with the shape of key witnesses; the bounds of a missing key have no key between; merged proofs show what either shows"))
EXTRA.append((153,153,"ReaderMessages.v, Props_ReaderMessages.v","debug texts of values are prefix-free, by induction on the value; the order of maps is a permutation; what the readers find has UTF-8 strings (grammars of C117 and C122)"))
EXTRA.append((154,154,"Props_Recertify.v","the steps of a call (C67) are insertions and deletions that leave the tree as it is (C74); answers depend on the tree and on what is stored under each key only"))
EXTRA.append((155,155,"Props_Downgrade.v","C46 for the minimum; C47 and C49 applied to the canister's tree; the refutation computes both verdicts for a tree with both parts"))
EXTRA.append((156,156,"Width.v, Props_Width.v","induction over the reader with 64-bit lengths: when it reads items to the end of the input, every length is at most the rest of the input, so below the narrower width; sizes of all byte strings read are bounded by the input's, which carries this to the delegation's certificate and ranges; the refutation computes both verdicts"))
EXTRA.append((157,157,"Props_Spelling.v","C45's characterisation of an accepted header, with 'first' dropped for consistent headers; lifted to the verifier by replacing the header in place"))
EXTRA.append((158,158,"Props_Moment.v","C38/C39 lifted to the verifier: its answer is the time check's followed by a result that does not depend on the clock; a computed counterexample for tolerances larger than the clock"))
EXTRA.append((159,160,"Props_Replay.v","once a response is accepted, the verifier's answer for any other settings is the certificate check and the comparison with the certified data followed by the same result; C40 and C02 for the canisters"))
EXTRA.append((161,161,"Props_JsonUpgrade.v","case analysis of the two route tables; same requests as [asks] of JsonSpec.v"))
EXTRA.append((162,162,"Props_Determine.v","C02 between the full hash trees of two histories, which are then equal; the contents are read off them (C11, C69)"))
EXTRA.append((163,163,"HttpText.v, Props_HttpText.v","the parts of the texts are prefix-free, as in C138 and C147; the body's text is ASCII without quotes, so it is shown as it is"))
#EXTRA
def grp(n):
    for g in G+EXTRA:
        if g[0]<=n<=g[1]: return g
    raise SystemExit("no group for C%02d"%n)
rows=[]
for p in props:
    n=int(p["id"][1:]); g=grp(n); c=man[p["id"]]
    files=sorted({where.get(t,"?") for t in c["theorems"]})
    rows.append("| %s | %s | %s | %s | %s | %s |"%(p["id"],p["title"],g[2],g[3],", ".join(files),c["status"]))
t=open(R+"/tools/design_text.md").read().replace("@@TABLE@@","| Id | Property | Model and specification | Method | Theorems in | Status |\n|--|--|--|--|--|--|\n"+"\n".join(rows))
open(R+"/DESIGN.md","w").write(t)
