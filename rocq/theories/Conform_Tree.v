(** * Conformance of the model with the repository's own unit tests (tree/ and http/ of ic-http-certification, asset.rs)
    See Conform_Core.v.  The hash function is that of Toy.v, except where the test has a fixed vector; URLs
    are parsed by cutting them at the first "/" of the path and at "?".  No claim of MANIFEST.json refers to them. *)
From Coq Require Import List NArith Bool String Strings.Byte.
From Verif Require Import Bytes Toy Sha256 Text HashTree RbTree Nested RiHash HttpTypes HttpHash Wildcard V2 HttpTree Cel Base64 Header Cbor Verify AssetRouter.
Import ListNotations.
Local Open Scope string_scope.
Local Open Scope list_scope.
Local Open Scope N_scope.
Definition ct_site : bytes := bs "https://canister.com".
Definition ct_uri (u : bytes) : option bytes :=
  Some (match split_on "?" (match strip_prefix ct_site u with Some p => p | None => u end) with p :: _ => p | [] => [] end).
Definition ct_query (u : bytes) : option (option bytes) := Some (match split_on "?" u with _ :: q :: _ => Some q | _ => None end).
Definition get_rq (u : string) : request := mk_request (bs "GET") (bs u) [] [].
Definition rs_with (status : N) (exprs : list cel) (body : string) : response := mk_response status (map (fun e => (cert_expr_header_name, print_cel e)) exprs) (bs body).

(** ** tree/certification.rs:168-470 *)
Definition rc_etag : response_cert := CertifiedHeaders [bs "ETag"; bs "Cache-Control"].
Definition qc_match : request_cert := mk_request_cert [bs "If-Match"] [bs "foo"; bs "bar"; bs "baz"].
Definition rc_default : response_cert := CertifiedHeaders [].
Definition qc_default : request_cert := mk_request_cert [] [].
Example no_certification : cert_tree_path (certify_skip toy) = [toy (print_cel CelSkip)].
Proof. vm_compute. reflexivity. Qed.
Example response_only_certification :
  let rs := rs_with 200 [CelResponseOnly rc_etag] "" in
  let h := response_hash toy rs rc_etag None in
  certify_response_only toy rc_etag rs None = Some (CResponseOnly (toy (print_cel (CelResponseOnly rc_etag))) h) /\
  cert_tree_path (CResponseOnly (toy (print_cel (CelResponseOnly rc_etag))) h) = [toy (print_cel (CelResponseOnly rc_etag)); []; h].
Proof. vm_compute. split; reflexivity. Qed.
(** without the expression header, with another expression, with two headers *)
Example response_only_certification_errors :
  map (fun es => certify_response_only toy rc_etag (rs_with 200 es "") None)
    [[]; [CelFull qc_default rc_default]; [CelResponseOnly rc_etag; CelResponseOnly rc_etag]] = [None; None; None].
Proof. vm_compute. reflexivity. Qed.
Example full_certification :
  let rs := rs_with 200 [CelFull qc_match rc_etag] "" in
  let h := response_hash toy rs rc_etag None in
  match request_hash toy ct_query (get_rq "/index.html") qc_match with
  | Some q =>
      certify_full toy ct_query qc_match rc_etag (get_rq "/index.html") rs None = Some (CFull (toy (print_cel (CelFull qc_match rc_etag))) q h) /\
      cert_tree_path (CFull (toy (print_cel (CelFull qc_match rc_etag))) q h) = [toy (print_cel (CelFull qc_match rc_etag)); q; h]
  | None => False
  end.
Proof. vm_compute. split; reflexivity. Qed.
Example full_certification_errors :
  map (fun es => certify_full toy ct_query qc_match rc_etag (get_rq "/index.html") (rs_with 200 es "") None)
    [[]; [CelResponseOnly rc_default]; [CelFull qc_match rc_etag; CelFull qc_match rc_etag]] = [None; None; None].
Proof. vm_compute. reflexivity. Qed.

(** ** tree/certification_tree_entry.rs:53-180 *)
Example certification_paths :
  forallb (fun c => match c with (p, e) =>
    let segs := map bs e in
    let same (a b : list bytes) := (Nat.eqb (List.length a) (List.length b)) && forallb (fun xy => bytes_eqb (fst xy) (snd xy)) (combine a b) in
    let rs1 := rs_with 200 [CelResponseOnly rc_default] "" in
    let rs2 := rs_with 200 [CelFull qc_default rc_default] "" in
    same (entry_tree_path (mk_entry p (certify_skip toy))) (segs ++ [toy (print_cel CelSkip)]) &&
    match certify_response_only toy rc_default rs1 None with
    | Some x => same (entry_tree_path (mk_entry p x)) (segs ++ [toy (print_cel (CelResponseOnly rc_default)); []; response_hash toy rs1 rc_default None])
    | None => false
    end &&
    match certify_full toy ct_query qc_default rc_default (get_rq "/index.html") rs2 None, request_hash toy ct_query (get_rq "/index.html") qc_default with
    | Some x, Some q => same (entry_tree_path (mk_entry p x)) (segs ++ [toy (print_cel (CelFull qc_default rc_default)); q; response_hash toy rs2 rc_default None])
    | _, _ => false
    end end)
   [(PExact (bs "/foo/bar"), ["foo"; "bar"; "<$>"]); (PWildcard (bs "/foo/bar"), ["foo"; "bar"; "<*>"])] = true.
Proof. vm_compute. reflexivity. Qed.

(** ** tree/certification_tree.rs:115-560 *)
Definition rc_excl : response_cert := HeaderExclusions [].
Definition ct_expr : cel := CelFull qc_default rc_excl.
Definition ct_entry (p : cert_path) (rq : request) (status : N) (body : string) : option entry :=
  option_map (mk_entry p) (certify_full toy ct_query qc_default rc_excl rq (rs_with status [ct_expr] body) None).
Definition nf_entry : option entry := ct_entry (PWildcard (bs "/assets/js")) (get_rq "/assets/js/not-found.js") 404 "404 Not Found".
Definition hello_entry : option entry := ct_entry (PExact (bs "/assets/js/hello-world.js")) (get_rq "/assets/js/hello-world.js") 404 "console.log(""Hello, World!"")".
Definition looks (w : out htree) (p : list bytes) : option subtree_result := match w with OOk t => Some (lookup_subtree p t) | _ => None end.
Definition is_found (r : option subtree_result) : bool := match r with Some (SFound _) => true | _ => false end.
Definition is_absent (r : option subtree_result) : bool := match r with Some SAbsent => true | _ => false end.
Example test_witness :
  match nf_entry, hello_entry with
  | Some nf, Some hw =>
      match http_run toy [HInsert nf; HInsert hw] with
      | Some t =>
          let w := http_witness toy t nf (bs "/assets/js/0.js") in
          forallb (fun p => is_absent (looks w (map bs p)))
            [["http_expr"; "<*>"]; ["http_expr"; ""; "<*>"]; ["http_expr"; "assets"; "<*>"]; ["http_expr"; "assets"; ""; "<*>"]; ["http_expr"; "assets"; "js"; "0.js"; "<*>"]] &&
          is_found (looks w (map bs ["http_expr"; "assets"; "js"; "<*>"])) &&
          is_found (looks (http_witness toy t hw (bs "/assets/js/hello-world.js")) (map bs ["http_expr"; "assets"; "js"; "hello-world.js"; "<$>"]))
      | None => false
      end
  | _, _ => false
  end = true.
Proof. vm_compute. reflexivity. Qed.
Definition hw_url : string := "/assets/js/hello-world.js".
Definition hw_entry (m body : string) : option entry := ct_entry (PExact (bs hw_url)) (mk_request (bs m) (bs hw_url) [] []) 200 body.
Fixpoint all_some {A} (l : list (option A)) : option (list A) :=
  match l with [] => Some [] | Some x :: r => option_map (cons x) (all_some r) | None :: _ => None end.
(** after the insertions and the first [n] deletions, the first [n] are absent and the others are found *)
Definition state_ok (es : list entry) (n : nat) : bool :=
  match http_run toy (map HInsert es ++ map HDelete (firstn n es)) with
  | Some t =>
      let seen en := looks (http_witness toy t en (bs hw_url)) (bs "http_expr" :: entry_tree_path en) in
      forallb (fun en => is_absent (seen en) && negb (contains_path (entry_tree_path en) t)) (firstn n es) &&
      forallb (fun en => is_found (seen en) && contains_path (entry_tree_path en) t) (skipn n es) &&
      Bool.eqb (contains_path (path_tree_path (PExact (bs hw_url))) t) (Nat.ltb n 4)
  | None => false
  end.
Example delete_removes_empty_subpaths :
  match all_some [hw_entry "GET" "console.log(""Hello, World!"")"; hw_entry "POST" "console.log(""Hello, World!"")";
                  hw_entry "GET" "console.log(""Hello, ALT World!"")"; hw_entry "POST" "console.log(""Hello, ALT World!"")"] with
  | Some es => forallb (state_ok es) [0; 1; 2; 3; 4]%nat
  | None => false
  end = true.
Proof. vm_compute. reflexivity. Qed.
Example test_witness_wildcard_too_long :
  match nf_entry with
  | Some nf => match http_run toy [HInsert nf] with Some t => match http_witness toy t nf (bs "/assets") with OErr => true | _ => false end | None => false end
  | None => false
  end = true.
Proof. vm_compute. reflexivity. Qed.
Example test_witness_wildcard_matches_asset :
  match ct_entry (PWildcard (bs "/")) (get_rq "/") 200 "<html><body><h1>Hello World!</h1></body></html>" with
  | Some en => match http_run toy [HInsert en] with Some t => is_found (looks (http_witness toy t en (bs "/")) (bs "http_expr" :: entry_tree_path en)) | None => false end
  | None => false
  end = true.
Proof. vm_compute. reflexivity. Qed.

(** ** utils/skip_certification.rs:96-107 *)
Example test_skip_certification_certified_data :
  skip_certified_data sha256 = map n2b [85; 236; 195; 28; 62; 128; 71; 252; 21; 143; 32; 234; 10; 160; 96; 154; 172; 199; 181; 126; 6; 234; 64; 220; 65; 134; 2; 114; 167; 214; 66; 145].
Proof. vm_compute. reflexivity. Qed.

(** ** http/http_request.rs:775-830 *)
Example request_get_uri :
  forallb (fun c => match c with (u, (p, q)) =>
    match get_path ct_uri (mk_request (bs "GET") (ct_site ++ bs u) [] []) with OOk x => bytes_eqb x p | _ => false end &&
    match ct_query (ct_site ++ bs u) with Some x => opt_eqb bytes_eqb x (option_map bs q) | None => false end end)
   [("/sample-asset.txt", (bs "/sample-asset.txt", None)); ("/%73ample-asset.txt", (bs "/sample-asset.txt", None));
    ("/path/123?foo=test%20component&bar=1", (bs "/path/123", Some "foo=test%20component&bar=1")); ("/a%20file.txt", (bs "/a file.txt", None));
    ("/mujin0722/3888-zjfrd-tqaaa-aaaaf-qakia-cai/%E6%97%A0%E8%AE%BA%E7%BE%8E%E8%81%94%E5%82%A8%E6%98%AF%E5%90%A6%E5%8A%A0%E6%81%AFbtc%E4%BB%8D%E5%B0%86%E5%9B%9E%E5%88%B07%E4%B8%87%E5%88%80",
     (bs "/mujin0722/3888-zjfrd-tqaaa-aaaaf-qakia-cai/无论美联储是否加息btc仍将回到7万刀", None))] = true.
Proof. vm_compute. reflexivity. Qed.

(** ** packages/ic-asset-certification/src/asset.rs:62-92, asset_config.rs:596-622 *)
Example asset_new_values : asset_new (bs "foo") [x01; x02; x03] = mk_asset (bs "foo") (bs "/foo") [x01; x02; x03].
Proof. reflexivity. Qed.
Example matches_asset_file :
  map (fun c => matches_asset (NFile (bs (snd c)) None [] [] [] []) (asset_new (bs (fst c)) [])) [("index.html", "index.html"); ("app.js", "app.js"); ("index.js", "app.css"); ("index.css", "index.js")]
  = [true; true; false; false].
Proof. vm_compute. reflexivity. Qed.
