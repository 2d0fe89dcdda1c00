(** * Conformance of the model with the repository's own unit tests (ic-asset-certification)
    Transcription of the tests of packages/ic-asset-certification/src/asset_router.rs (1011-3877), run on the
    model by the kernel; see Conform_Core.v.  No claim of MANIFEST.json refers to them.  Differences: the hash
    function is that of Toy.v, the data certificate is a small one, the chunk size is 4 in the tests of
    long assets, whose content is not random; the two patterns are compiled to a comparison of the suffix; a URL
    is parsed by dropping "https://internetcomputer.org". *)
From Coq Require Import List NArith Bool String Strings.Byte.
From Verif Require Import Bytes Toy Text HashTree RbTree Nested RiHash HttpTypes HttpHash Wildcard V2 HttpTree Cel Base64 Header Cbor CborSpec Verify Props_Verify HttpBuild AssetRouter AssetMap Props_Encoding.
Import ListNotations.
Local Open Scope string_scope.
Local Open Scope list_scope.
Local Open Scope N_scope.
Definition ca_site : bytes := bs "https://internetcomputer.org".
Definition ca_uri (u : bytes) : option bytes := ex_uri (match strip_prefix ca_site u with Some p => p | None => u end).
Definition ends_with (suf s : bytes) : bool := match strip_prefix (rev suf) (rev s) with Some _ => true | None => false end.
Definition ca_glob (p : bytes) : option (bytes -> bool) := match strip_prefix (bs "**/*") p with Some suf => Some (ends_with suf) | None => None end.
Definition ca_cert : bytes := ex_certificate (repeat x07 32).

(** ** 1037-1090: the Range header *)
Definition range_ok (s : string) (b : N) (e : option N) : bool :=
  match parse_range (2 ^ 64) (bs s) with Some (b', e') => (b =? b') && opt_eqb N.eqb e e' | None => false end.
Definition range_bad (s : string) : bool := match parse_range (2 ^ 64) (bs s) with None => true | _ => false end.
Example should_parse_range_header_str :
  forallb (fun x => range_ok (fst (fst x)) (snd (fst x)) (snd x))
    [(("bytes=0-", 0), None); (("bytes=2000000-", asset_chunk_size), None); (("bytes=8000000-", asset_chunk_size * 4), None); (("bytes=0-0", 0), Some 0);
     (("bytes=100-2000", 100), Some 2000); (("bytes=10000-300000", 10000), Some 300000); (("bytes=2000000-3999999", asset_chunk_size), Some (2 * asset_chunk_size - 1))] = true.
Proof. vm_compute. reflexivity. Qed.
Example should_fail_parse_range_header_str :
  forallb range_bad ["" ; "byte=1-2"; "bites=2-4"; "bytes 7-11"; "bytes=12345"; "something else"; "bytes=-5-19"; "bytes=100-end"; "bytes=dead-beef"; "bytes=100-20"; "bytes=20-19"] = true.
Proof. vm_compute. reflexivity. Qed.

(** ** 3403-3860: the fixtures *)
Definition index_html_body : bytes := bs "<html><body><h1>Hello World!</h1></body></html>".
Definition app_js_body : bytes := bs "console.log('Hello World!');".
Definition app_css_body : bytes := bs "html,body{min-height:100vh;}".
Definition not_found_html_body : bytes := bs "<html><body><h1>404 Not Found!</h1></body></html>".
Definition index_html_gz_body : bytes := map n2b [31; 139; 8; 0; 0; 0; 0; 0; 0; 3; 179; 201; 40; 201; 205; 177; 179; 73; 202; 79; 169; 180; 179; 201; 48; 180; 243; 72; 205; 201; 201; 87; 8; 207; 47; 202; 73; 81; 180; 209; 7; 10; 216; 232; 67; 228; 244; 193; 10; 1; 28; 178; 8; 152; 47; 0; 0; 0].
Definition index_html_zz_body : bytes := map n2b [78; 9; 3; 9; 28; 9; 1; 3; 49; 4; 9; 4; 3; 9; 30; 4; 3; 48; 9; 9; 57; 8; 2; 49; 51; 4; 1; 7; 0; 8; 8; 43; 4; 4; 1; 0; 1; 7; 8; 0; 9].
Definition index_html_br_body : bytes := map n2b [1; 2; 0; 8; 1; 9; 36; 2; 72; 65; 4; 25; 0; 5; 84; 0; 5; 18; 1; 64; 14; 5; 4; 1; 9; 0; 3; 4; 42; 2; 1; 59; 13; 14; 3; 19; 69; 18].
Definition app_js_gz_body : bytes := map n2b [31; 139; 8; 0; 0; 0; 0; 0; 0; 3; 75; 206; 207; 43; 206; 207; 73; 213; 203; 201; 79; 215; 80; 247; 72; 205; 201; 201; 87; 8; 207; 47; 202; 73; 81; 84; 215; 180; 6; 0; 186; 42; 111; 142; 28; 0; 0; 0].
Definition app_js_zz_body : bytes := map n2b [120; 156; 75; 206; 207; 43; 206; 207; 73; 213; 203; 201; 79; 215; 80; 247; 72; 205; 201; 201; 87; 8; 207; 47; 202; 73; 81; 84; 215; 180; 6; 0; 148; 149; 9; 123].
Definition app_js_br_body : bytes := map n2b [8; 0; 80; 63; 6; 6; 73; 6; 6; 65; 2; 6; 6; 67; 28; 27; 48; 65; 6; 6; 6; 20; 57; 6; 72; 6; 64; 21; 27; 29; 3; 3].
Definition not_found_html_gz_body : bytes := map n2b [49; 19; 9; 8; 0; 0; 0; 0; 0; 0; 3; 23; 9; 32; 1; 64; 32; 1; 32; 5; 23; 7; 23; 9; 115; 32; 2; 121; 22; 9; 24; 0; 23; 9; 32; 1; 72; 24; 0; 81; 73; 72; 129; 36; 0; 32; 3; 71; 129; 17; 2; 32; 3; 71; 32; 5; 117; 129; 24; 0; 32; 9; 7; 16; 33; 7; 35; 2; 103; 16; 0; 36; 5; 25; 3; 116; 1; 37; 4; 36; 9; 17; 0; 114; 73; 0; 0; 0].
Definition not_found_html_zz_body : bytes := map n2b [120; 156; 179; 201; 40; 201; 205; 177; 179; 73; 202; 79; 169; 180; 179; 201; 48; 180; 51; 49; 48; 81; 240; 203; 47; 81; 112; 203; 47; 205; 75; 81; 180; 209; 7; 10; 217; 232; 67; 100; 245; 193; 74; 1; 133; 210; 15; 136].
Definition not_found_html_br_body : bytes := map n2b [27; 48; 0; 248; 45; 14; 108; 27; 88; 249; 245; 45; 213; 3; 233; 193; 146; 199; 9; 173; 64; 104; 10; 230; 173; 67; 124; 216; 218; 84; 12; 93; 47; 66; 139; 48; 3; 233; 78; 128; 105; 198; 36; 242; 83; 62; 179; 122; 129; 33; 16; 12].
Definition no_store : list (bytes * bytes) := [(bs "cache-control", bs "public, no-cache, no-store")].
Definition immutable : list (bytes * bytes) := [(bs "cache-control", bs "public, max-age=31536000, immutable")].
Definition three : list (encoding * bytes) := [(Gzip, bs ".gz"); (Deflate, bs ".zz"); (Brotli, bs ".br")].
Definition index_html_config : asset_config := ConfigFile (bs "index.html") (Some (bs "text/html")) no_store [mk_fallback (bs "/") (Some 200)] [bs "/"] three.
Definition js_config : asset_config := ConfigPattern (bs "**/*.js") (Some (bs "text/javascript")) immutable three.
Definition css_config : asset_config := ConfigPattern (bs "**/*.css") (Some (bs "text/css")) immutable three.
Definition not_found_html_config : asset_config := ConfigFile (bs "not-found.html") (Some (bs "text/html")) no_store
  [mk_fallback (bs "/js") (Some 404); mk_fallback (bs "/css") (Some 404)]
  [bs "/404"; bs "/404/"; bs "/404.html"; bs "/not-found"; bs "/not-found/"; bs "/not-found/index.html"] three.
Definition old_url_redirect_config : asset_config := ConfigRedirect (bs "/old-url") (bs "/") Permanent.
Definition css_redirect_config : asset_config := ConfigRedirect (bs "/css/app.css") (bs "/css/app-ba74b708.css") Temporary.
Definition a_ (p : string) (c : bytes) : asset := asset_new (bs p) c.
Definition index_assets : list asset := [a_ "index.html" index_html_body; a_ "index.html.gz" index_html_gz_body; a_ "index.html.zz" index_html_zz_body; a_ "index.html.br" index_html_br_body].
Definition js_assets : list asset := [a_ "js/app-488df671.js" app_js_body; a_ "js/app-488df671.js.gz" app_js_gz_body; a_ "js/app-488df671.js.zz" app_js_zz_body; a_ "js/app-488df671.js.br" app_js_br_body].
Definition css_assets : list asset := [a_ "css/app-ba74b708.css" app_css_body].
Definition not_found_assets : list asset := [a_ "not-found.html" not_found_html_body; a_ "not-found.html.gz" not_found_html_gz_body; a_ "not-found.html.zz" not_found_html_zz_body; a_ "not-found.html.br" not_found_html_br_body].
(** a call that must succeed, as [.unwrap()] says *)
Definition must {A} (p : A * out unit) : option A := match p with (st, OOk _) => Some st | _ => None end.
Definition ca_certify (cs : N) (l : list asset) (c : list asset_config) (st : router) : option router := must (certify_assets cs toy ex_query ca_glob (fun l => l) l c st).
Definition ca_delete (cs : N) (l : list asset) (c : list asset_config) (st : option router) : option router :=
  match st with Some st => must (delete_assets cs toy ex_query ca_glob (fun l => l) l c st) | None => None end.
Definition page : option router := Eval vm_compute in
  ca_certify asset_chunk_size (index_assets ++ js_assets ++ css_assets ++ not_found_assets)
    [index_html_config; js_config; css_config; not_found_html_config; old_url_redirect_config; css_redirect_config] router_new.
Example page_certified : match page with Some _ => True | None => False end.
Proof. exact I. Qed.
Definition without_index (st : option router) : option router := ca_delete asset_chunk_size index_assets [index_html_config] st.
Definition without_not_found (st : option router) : option router := ca_delete asset_chunk_size not_found_assets [not_found_html_config] st.

(** [extract_witness_expr_path], [build_response], [assert_eq!] of the response with the expected one plus the certificate header,
    [lookup_subtree] at the expression path (found) and at the [absent] path *)
Definition asset_cel_expr : bytes := print_cel (CelFull (mk_request_cert [] []) (HeaderExclusions [])).
Definition asset_range_chunk_cel_expr : bytes := print_cel (CelFull (mk_request_cert [bs "range"] []) (HeaderExclusions [])).
Definition build_response (status : N) (body cel : bytes) (hs : list (bytes * bytes)) : response :=
  mk_response status (hs ++ [(bs "content-length", dec (N.of_nat (List.length body))); (cert_expr_header_name, cel)]) body.
Definition same_response (a b : response) : bool :=
  response_eqb (mk_http_response (rs_status a) (rs_headers a) (rs_body a) None) (mk_http_response (rs_status b) (rs_headers b) (rs_body b) None).
Fixpoint strs_eqb (a b : list bytes) : bool := match a, b with [], [] => true | x :: a, y :: b => bytes_eqb x y && strs_eqb a b | _, _ => false end.
Definition serve (cs : N) (st : option router) (url : bytes) (hs : list (bytes * bytes)) : out response :=
  match st with Some st => serve_asset cs toy ca_uri (2 ^ 64) isort st ca_cert (mk_request (bs "GET") url hs []) | None => OErr end.
Definition serves_header (cs : N) (st : option router) (url : bytes) (hs : list (bytes * bytes)) (expected : response) (e : list bytes) (absent : option (list bytes)) : bool :=
  match serve cs st url hs with
  | OOk rs =>
      match find (fun h => bytes_eqb (fst h) certificate_header_name) (rs_headers rs) with
      | Some (_, v) =>
          match header_from (2 ^ 64) (2 ^ 32) v with
          | OOk h =>
              match h_expr_path h with
              | Some p =>
                  same_response rs (add_v2_certificate_header ca_cert expected (h_tree h) p) && strs_eqb p e &&
                  match lookup_subtree p (h_tree h) with SFound _ => true | _ => false end &&
                  match absent with None => true | Some q => match lookup_subtree q (h_tree h) with SAbsent => true | _ => false end end
              | None => false
              end
          | _ => false
          end
      | None => false
      end
  | _ => false
  end.
(** the same without encoding and decoding the certificate header, which takes long in the kernel: the response without its last header,
    and the witness and expression path the header is made of (asset_router.rs:233-242); [serves_header] does it in full for some cases *)
Definition serves (cs : N) (st : option router) (url : bytes) (hs : list (bytes * bytes)) (expected : response) (e : list bytes) (absent : option (list bytes)) : bool :=
  match st with
  | None => false
  | Some r =>
      match serve cs st url hs, get_path ca_uri (mk_request (bs "GET") url hs []), maybe_get_range_begin (2 ^ 64) (mk_request (bs "GET") url hs []) with
      | OOk rs, OOk path, OOk range =>
          same_response (mk_response (rs_status rs) (removelast (rs_headers rs)) (rs_body rs)) expected &&
          match get_asset_for_request cs r path (get_preferred_encodings isort (mk_request (bs "GET") url hs [])) range with
          | Some (_, c) =>
              strs_eqb (expr_path (en_path (ca_entry c))) e &&
              match http_witness toy (r_tree r) (ca_entry c) path with
              | OOk w =>
                  match lookup_subtree e w with SFound _ => true | _ => false end &&
                  match absent with None => true | Some q => match lookup_subtree q w with SAbsent => true | _ => false end end
              | _ => false
              end
          | None => false
          end
      | _, _, _ => false
      end
  end.
Definition refused (cs : N) (st : option router) (url : bytes) (hs : list (bytes * bytes)) : bool := match serve cs st url hs with OErr => match st with Some _ => true | None => false end | _ => false end.
Definition html (e : string) : list (bytes * bytes) := no_store ++ [(bs "content-type", bs "text/html")] ++ match bs e with [] => [] | _ => [(bs "content-encoding", bs e)] end.
Definition accept (s : string) : list (bytes * bytes) := match bs s with [] => [] | _ => [(bs "accept-encoding", bs s)] end.
Definition both (u : string) : list bytes := [bs u; List.app ca_site (bs u)].
Definition exact_path (u : string) : list bytes := expr_path (PExact (bs u)).
Definition S_ := asset_chunk_size.
Definition e_ (l : list string) : list bytes := map bs l.
Definition index_body_of (e : string) : bytes := if String.eqb e "gzip" then index_html_gz_body else if String.eqb e "deflate" then index_html_zz_body else if String.eqb e "br" then index_html_br_body else index_html_body.
Definition not_found_body_of (e : string) : bytes := if String.eqb e "gzip" then not_found_html_gz_body else if String.eqb e "deflate" then not_found_html_zz_body else if String.eqb e "br" then not_found_html_br_body else not_found_html_body.
Definition js_body_of (e : string) : bytes := if String.eqb e "gzip" then app_js_gz_body else if String.eqb e "deflate" then app_js_zz_body else if String.eqb e "br" then app_js_br_body else app_js_body.
Definition index_response (e : string) : response := build_response 200 (index_body_of e) asset_cel_expr (html e).
Definition not_found_response (status : N) (e : string) : response := build_response status (not_found_body_of e) asset_cel_expr (html e).
Definition js_response (e : string) : response := build_response 200 (js_body_of e) asset_cel_expr (immutable ++ [(bs "content-type", bs "text/javascript")] ++ match bs e with [] => [] | _ => [(bs "content-encoding", bs e)] end).

(** the states the tests reach by deletions *)
Definition page_no_index : option router := Eval vm_compute in without_index page.
Definition page_no_js : option router := Eval vm_compute in ca_delete S_ js_assets [js_config] page.
Definition page_no_js_nf : option router := Eval vm_compute in without_not_found page_no_js.
Definition page_no_js_nf_index : option router := Eval vm_compute in without_index page_no_js_nf.
Definition page_no_nf : option router := Eval vm_compute in without_not_found page.
Definition page_no_nf_index : option router := Eval vm_compute in without_index page_no_nf.
Definition page_no_css : option router := Eval vm_compute in ca_delete S_ css_assets [css_config] page.
Definition page_no_css_nf : option router := Eval vm_compute in without_not_found page_no_css.
Definition page_no_css_nf_index : option router := Eval vm_compute in without_index page_no_css_nf.

(** one case of each kind with the certificate header *)
Example with_certificate_header :
  serves_header S_ page (bs "/something") (accept "gzip, deflate") (index_response "gzip") (e_ ["http_expr"; ""; "<*>"]) (Some (exact_path "/something")) = true.
Proof. vm_compute. reflexivity. Qed.
(** 1091-1131: the deletion is of the unencoded file only *)
Example test_index_html :
  forallb (fun u => serves S_ page u [] (index_response "") (e_ ["http_expr"; ""; "<$>"]) None && refused S_ (ca_delete S_ [a_ "index.html" index_html_body] [index_html_config] page) u []) (both "/") = true.
Proof. vm_compute. reflexivity. Qed.
(** 1566-1663, 1665-1785: accept-encoding and expected encoding *)
Definition encodings_cases : list (string * string) :=
  [("deflate", "deflate"); ("deflate, identity", "deflate"); ("gzip", "gzip"); ("gzip, identity", "gzip"); ("gzip, deflate", "gzip"); ("gzip, deflate, identity", "gzip");
   ("br", "br"); ("br, gzip, deflate, identity", "br"); ("gzip, deflate, identity, br", "br")].
Example test_encoded_index_html :
  forallb (fun u => forallb (fun c => serves S_ page (bs u) (accept (fst c)) (index_response (snd c)) (exact_path u) None && refused S_ page_no_index (bs u) (accept (fst c))) encodings_cases) ["/"; "/index.html"] = true.
Proof. vm_compute. reflexivity. Qed.
Example test_encoded_index_html_fallback :
  forallb (fun u => forallb (fun c => serves S_ page (bs u) (accept (fst c)) (index_response (snd c)) (e_ ["http_expr"; ""; "<*>"]) (Some (exact_path u)) && refused S_ page_no_index (bs u) (accept (fst c))) encodings_cases) ["/something"; "/assets/css/app.css"] = true.
Proof. vm_compute. reflexivity. Qed.
(** 1787-1900 *)
Example test_index_html_root_and_nested_fallback :
  forallb (fun p => forallb (fun u => serves S_ page u [] (index_response "") (e_ ["http_expr"; ""; "<*>"]) (Some (exact_path p)) && refused S_ page_no_index u []) (both p)) ["/something"; "/assets/css/app.css"] = true.
Proof. vm_compute. reflexivity. Qed.
(** 1902-2027 *)
Example test_app_css :
  forallb (fun u =>
    serves S_ page u [] (build_response 200 app_css_body asset_cel_expr (immutable ++ [(bs "content-type", bs "text/css")])) (e_ ["http_expr"; "css"; "app-ba74b708.css"; "<$>"]) None &&
    serves S_ page_no_css u [] (not_found_response 404 "") (e_ ["http_expr"; "css"; "<*>"]) None &&
    serves S_ page_no_css_nf u [] (index_response "") (e_ ["http_expr"; ""; "<*>"]) None && refused S_ page_no_css_nf_index u []) (both "/css/app-ba74b708.css") = true.
Proof. vm_compute. reflexivity. Qed.
(** 2029-2114, 2527-2612 *)
Example test_not_found :
  forallb (fun du => forallb (fun u =>
    serves S_ page u [] (not_found_response 404 "") (e_ ["http_expr"; fst du; "<*>"]) None &&
    serves S_ page_no_nf u [] (index_response "") (e_ ["http_expr"; ""; "<*>"]) None && refused S_ page_no_nf_index u []) (both (snd du)))
   [("css", "/css/core-8d4jhgy2.js"); ("js", "/js/core-7dk12y45.js")] = true.
Proof. vm_compute. reflexivity. Qed.
(** 2117-2243, 2246-2525 *)
Example test_app_js :
  forallb (fun uc => match uc with (u, (a, e)) =>
    serves S_ page u (accept a) (js_response e) (e_ ["http_expr"; "js"; "app-488df671.js"; "<$>"]) None &&
    serves S_ page_no_js u (accept a) (not_found_response 404 e) (e_ ["http_expr"; "js"; "<*>"]) None &&
    serves S_ page_no_js_nf u (accept a) (index_response e) (e_ ["http_expr"; ""; "<*>"]) None && refused S_ page_no_js_nf_index u (accept a) end)
   (map (fun u => (u, ("", ""))) (both "/js/app-488df671.js") ++ map (pair (bs "/js/app-488df671.js"))
     (encodings_cases ++ [("identity, deflate", "deflate"); ("identity, gzip", "gzip"); ("deflate, gzip", "gzip"); ("gzip, identity, deflate", "gzip"); ("identity, gzip, deflate", "gzip");
        ("identity, deflate, gzip", "gzip"); ("deflate, gzip, identity", "gzip"); ("deflate, identity, gzip", "gzip")])) = true.
Proof. vm_compute. reflexivity. Qed.
(** 2616-2713 *)
Example test_not_found_alias :
  forallb (fun p => forallb (fun u =>
    serves S_ page u [] (not_found_response 200 "") (exact_path p) None &&
    serves S_ page_no_nf u [] (index_response "") (e_ ["http_expr"; ""; "<*>"]) None && refused S_ page_no_nf_index u []) (both p))
   ["/404"; "/404/"; "/404.html"; "/not-found"; "/not-found/"; "/not-found/index.html"] = true.
Proof. vm_compute. reflexivity. Qed.
(** 2716-2749 *)
Definition page_cleared : option router := match page with Some st => must (delete_all_assets st) | None => None end.
Example test_delete_all_assets :
  serves S_ page (bs "/index.html") [] (index_response "") (exact_path "/index.html") None && refused S_ page_cleared (bs "/index.html") [] &&
  match page_cleared with Some st => asset_map_is_empty (get_assets st) | None => false end = true.
Proof. vm_compute. reflexivity. Qed.
(** 2752-2875 *)
Definition gets (m : router -> store) (st : option router) (p : bytes) (e : option encoding) (r : option N) (expected : option response) : bool :=
  match st with
  | Some st => match asset_map_get (m st) p e r, expected with Some a, Some b => same_response a b | None, None => true | _, _ => false end
  | None => false
  end.
Example test_asset_map :
  forallb (fun c => gets get_assets page (bs "/index.html") (fst c) None (Some (index_response (snd c))) && gets get_fallback_assets page (bs "/") (fst c) None (Some (index_response (snd c))) &&
                    gets get_assets page_no_index (bs "/index.html") (fst c) None None && gets get_fallback_assets page_no_index (bs "/") (fst c) None None)
    [(None, ""); (Some Gzip, "gzip"); (Some Deflate, "deflate"); (Some Brotli, "br")] = true.
Proof. vm_compute. reflexivity. Qed.
(** 3126-3324 *)
Definition no_redirects : option router := Eval vm_compute in ca_delete S_ [] [old_url_redirect_config; css_redirect_config] page.
Definition no_redirects_nf : option router := Eval vm_compute in without_not_found no_redirects.
Definition redirect_response (status : N) (to : string) : response :=
  mk_response status [(bs "content-length", bs "0"); (bs "location", bs to); (cert_expr_header_name, asset_cel_expr)] [].
Example test_redirects :
  serves S_ page (bs "/css/app.css") [] (redirect_response 307 "/css/app-ba74b708.css") (e_ ["http_expr"; "css"; "app.css"; "<$>"]) None &&
  serves S_ page (bs "/old-url") [] (redirect_response 301 "/") (e_ ["http_expr"; "old-url"; "<$>"]) None &&
  serves S_ no_redirects (bs "/css/app.css") [] (not_found_response 404 "") (e_ ["http_expr"; "css"; "<*>"]) None &&
  serves S_ no_redirects (bs "/old-url") [] (index_response "") (e_ ["http_expr"; ""; "<*>"]) None &&
  serves S_ no_redirects_nf (bs "/css/app.css") [] (index_response "") (e_ ["http_expr"; ""; "<*>"]) None &&
  serves S_ no_redirects_nf (bs "/old-url") [] (index_response "") (e_ ["http_expr"; ""; "<*>"]) None &&
  refused S_ (without_index no_redirects_nf) (bs "/css/app.css") [] && refused S_ (without_index no_redirects_nf) (bs "/old-url") [] = true.
Proof. vm_compute. reflexivity. Qed.
(** 3327-3387; the shared tree is the router's own in the model *)
Example test_init_with_tree :
  match ca_certify S_ [a_ "index.html" index_html_body] [ConfigFile (bs "index.html") (Some (bs "text/html")) no_store [mk_fallback (bs "/") (Some 200)] [bs "/"] []] (router_with ndefault) with
  | Some st => serves S_ (Some st) (bs "/") [] (index_response "") (e_ ["http_expr"; ""; "<$>"]) None && bytes_eqb (router_root_hash toy st) (http_root_hash toy (r_tree st))
  | None => false
  end = true.
Proof. vm_compute. reflexivity. Qed.

(** ** Long assets: chunk size 4 instead of 2000000; lengths 4, 5, 23 for one, two, six chunks (ten left out) *)
Definition long_body (seed len : N) : bytes := map (fun i => n2b ((seed * 17 + N.of_nat i * 29) mod 256)) (List.seq 0 (N.to_nat len)).
Record long := mk_long { lg_name : string; lg_len : N }.
Definition longs : list long := [mk_long "long_asset_two_chunks" 5; mk_long "long_asset_six_chunks" 23].
Definition suffix_of (e : encoding) : bytes := match e with Identity => [] | Brotli => bs ".br" | Zstd => bs ".zst" | Gzip => bs ".gz" | Deflate => bs ".zz" end.
Definition seed_of (e : encoding) : N := match e with Identity => 1 | Brotli => 2 | Zstd => 3 | Gzip => 4 | Deflate => 5 end.
Definition long_asset_config (p : bytes) : asset_config := ConfigFile p (Some (bs "text/html")) no_store [] [] [(Brotli, bs ".br"); (Deflate, bs ".zz"); (Gzip, bs ".gz")].
Definition long_asset (l : long) (e : encoding) : asset := asset_new (bs (lg_name l) ++ suffix_of e) (long_body (seed_of e) (lg_len l)).
Definition long_router (l : long) (es : list encoding) : option router := ca_certify 4 (map (long_asset l) es) [long_asset_config (bs (lg_name l))] router_new.
Definition cut (from to : N) (s : bytes) : bytes := firstn (N.to_nat (to - from)) (skipn (N.to_nat from) s).
Definition chunk_response (body : bytes) (e : string) (b : N) : response :=
  let len := N.of_nat (List.length body) in
  let last := N.min (b + 4) len - 1 in
  build_response 206 (cut b (last + 1) body) asset_range_chunk_cel_expr (html e ++ [(bs "content-range", bs "bytes " ++ dec b ++ bs "-" ++ dec last ++ bs "/" ++ dec len)]).
Definition starts (len : N) : list N := map (fun i => 4 * N.of_nat i) (List.seq 0 (N.to_nat ((len + 3) / 4))).
Definition url_of (l : long) : bytes := bs "/" ++ bs (lg_name l).
Definition range_hdr (b : N) : list (bytes * bytes) := [(bs "range", bs "bytes=" ++ dec b ++ bs "-")].
(** 1133-1170 *)
Example test_one_chunk_long_asset_served_in_full :
  let l := mk_long "long_asset_one_chunk" 4 in
  serves 4 (long_router l [Identity]) (url_of l) [] (build_response 200 (long_body 1 4) asset_cel_expr (html "")) (e_ ["http_expr"; "long_asset_one_chunk"; "<$>"]) None = true.
Proof. vm_compute. reflexivity. Qed.
(** 1173-1268, 1271-1343: the whole asset is answered with its first chunk, then every chunk; after the deletion none *)
Example test_long_asset_served_in_chunks :
  forallb (fun l =>
    let st := long_router l [Identity] in
    let gone := ca_delete 4 [asset_new (url_of l) (long_body 1 (lg_len l))] [long_asset_config (bs (lg_name l))] st in
    serves 4 st (url_of l) [] (chunk_response (long_body 1 (lg_len l)) "" 0) (e_ ["http_expr"; lg_name l; "<$>"]) None && refused 4 gone (url_of l) [] &&
    forallb (fun b => serves 4 st (url_of l) (range_hdr b) (chunk_response (long_body 1 (lg_len l)) "" b) (e_ ["http_expr"; lg_name l; "<$>"]) None &&
                      refused 4 gone (url_of l) (range_hdr b)) (tl (starts (lg_len l)))) longs = true.
Proof. vm_compute. reflexivity. Qed.
(** 1346-1479 *)
Definition six : long := mk_long "long_asset_six_chunks" 23.
Definition six_router_br : option router := Eval vm_compute in long_router six [Identity; Brotli].
Definition six_router_zz : option router := Eval vm_compute in long_router six [Identity; Deflate].
Definition six_router_gz : option router := Eval vm_compute in long_router six [Identity; Gzip].
Example test_encoded_long_asset_served_in_encoded_chunks :
  forallb (fun c => match c with (a, (e, name)) =>
    let l := six in
    let st := match e with Brotli => six_router_br | Deflate => six_router_zz | _ => six_router_gz end in
    serves 4 st (url_of l) (accept a) (chunk_response (long_body (seed_of e) 23) name 0) (e_ ["http_expr"; lg_name l; "<$>"]) None &&
    forallb (fun b => serves 4 st (url_of l) (range_hdr b ++ accept a) (chunk_response (long_body (seed_of e) 23) name b) (e_ ["http_expr"; lg_name l; "<$>"]) None) (tl (starts 23)) end)
   [("deflate", (Deflate, "deflate")); ("deflate, identity", (Deflate, "deflate")); ("gzip", (Gzip, "gzip")); ("gzip, identity", (Gzip, "gzip")); ("gzip, deflate", (Gzip, "gzip"));
    ("gzip, deflate, identity", (Gzip, "gzip")); ("br", (Brotli, "br")); ("br, gzip, deflate, identity", (Brotli, "br")); ("gzip, deflate, identity, br", (Brotli, "br"))] = true.
Proof. vm_compute. reflexivity. Qed.
(** 1481-1563 *)
Example test_encoded_long_asset_deletion_removes_encoded_chunks :
  forallb (fun c => match c with (e, name) =>
    let l := mk_long "long_asset_two_chunks" 5 in
    let st := long_router l [Identity; e] in
    let gone := ca_delete 4 [asset_new (url_of l) (long_body 1 5); asset_new (url_of l ++ suffix_of e) (long_body (seed_of e) 5)] [long_asset_config (url_of l)] st in
    serves 4 st (url_of l) (accept name) (chunk_response (long_body (seed_of e) 5) name 0) (e_ ["http_expr"; lg_name l; "<$>"]) None && refused 4 gone (url_of l) (accept name) &&
    forallb (fun b => serves 4 st (url_of l) (range_hdr b ++ accept name) (chunk_response (long_body (seed_of e) 5) name b) (e_ ["http_expr"; lg_name l; "<$>"]) None &&
                      refused 4 gone (url_of l) (range_hdr b ++ accept name)) (tl (starts 5)) end)
   [(Brotli, "br"); (Gzip, "gzip"); (Deflate, "deflate")] = true.
Proof. vm_compute. reflexivity. Qed.
(** 2877-3046 *)
Example test_asset_map_chunked_responses :
  let l := mk_long "long_asset_two_chunks" 5 in
  let st := long_router l [Gzip; Identity] in
  let gone := ca_delete 4 [long_asset l Identity; long_asset l Gzip] [long_asset_config (bs (lg_name l)); long_asset_config (bs (lg_name l) ++ bs ".gz")] st in
  forallb (fun b => gets get_assets st (url_of l) None (Some b) (Some (chunk_response (long_body 1 5) "" b)) && gets get_assets st (url_of l) (Some Gzip) (Some b) (Some (chunk_response (long_body 4 5) "gzip" b)) &&
                    gets get_assets gone (url_of l) None (Some b) None && gets get_assets gone (url_of l) (Some Gzip) (Some b) None) [0; 4] = true.
Proof. vm_compute. reflexivity. Qed.
(** 3049-3123: three entries, their keys and responses *)
Example test_asset_map_iter :
  let l := mk_long "long_asset_two_chunks" 5 in
  match long_router l [Identity] with
  | Some st =>
      let entries := asset_map_iter (fun m => m) (get_assets st) in
      let has p e r rs := existsb (fun x => match x with ((p', e', r'), rs') => bytes_eqb p p' && opt_eqb bytes_eqb e e' && opt_eqb N.eqb r r' && same_response rs rs' end) entries in
      (asset_map_len (get_assets st) =? 3) && has (url_of l) None (Some 0) (chunk_response (long_body 1 5) "" 0) && has (url_of l) None (Some 4) (chunk_response (long_body 1 5) "" 4) &&
      has (url_of l) None None (build_response 200 (long_body 1 5) asset_cel_expr (html ""))
  | None => false
  end = true.
Proof. vm_compute. reflexivity. Qed.
