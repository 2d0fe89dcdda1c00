(** Model of the custom-assets example: /repo/examples/http-certification/custom-assets/src/backend/src/lib.rs
    (the whole file).  A trap ([unwrap], [expect]) is [None]: it rolls the message back.  [init] and [post_upgrade]
    (lib.rs:17-26) both start from empty thread-locals.  CEL_EXPRS never changes after [prepare_cel_exprs]: it is a
    constant here.  The included directory is the list of its files and folders, in the order include_dir
    visits them; the glob crate is a parameter.  Paths are texts ([to_str().unwrap()], lib.rs:133, cannot fail). *)
From Coq Require Import List NArith Bool.
From Verif Require Import Bytes Text Nested Cbor HttpTypes HttpHash Cel V2 Verify HttpTree AssetRouter JsonApi.
Import ListNotations.
Local Open Scope N_scope.

Inductive item := AFile (path content : bytes) | AFolder (path : bytes).
Definition item_path (x : item) : bytes := match x with AFile p _ => p | AFolder p => p end.
(** include_dir's [Dir::get_file] *)
Fixpoint get_file (d : list item) (p : bytes) : option bytes :=
  match d with
  | [] => None
  | AFile q c :: r => if bytes_eqb q p then Some c else get_file r p
  | AFolder _ :: r => get_file r p
  end.

(** lib.rs:47-53 *)
Definition index_req_path : bytes := [].
Definition index_tree_path : cert_path := PWildcard index_req_path.
Definition index_file_path : bytes := bs "index.html".
(** lib.rs:86 *)
Definition uncertified_path : bytes := bs "/uncertified".
(** lib.rs:57-72 [prepare_cel_exprs] *)
Definition asset_cert : response_cert := HeaderExclusions [].
Definition asset_cel : bytes := print_cel (CelResponseOnly asset_cert).

(** lib.rs:404-428 [get_asset_headers] *)
Definition custom_headers (additional : list (bytes * bytes)) (content_length : N) (cel_expr : bytes) : list (bytes * bytes) :=
  [(bs "strict-transport-security", bs "max-age=31536000; includeSubDomains");
   (bs "x-frame-options", bs "DENY");
   (bs "x-content-type-options", bs "nosniff");
   (bs "content-security-policy", bs "default-src 'self'; form-action 'self'; object-src 'none'; frame-ancestors 'none'; upgrade-insecure-requests; block-all-mixed-content");
   (bs "referrer-policy", bs "no-referrer");
   (bs "permissions-policy", bs "accelerometer=(),ambient-light-sensor=(),autoplay=(),battery=(),camera=(),display-capture=(),document-domain=(),encrypted-media=(),fullscreen=(),gamepad=(),geolocation=(),gyroscope=(),layout-animations=(self),legacy-image-formats=(self),magnetometer=(),microphone=(),midi=(),oversized-images=(self),payment=(),picture-in-picture=(),publickey-credentials-get=(),speaker-selection=(),sync-xhr=(self),unoptimized-images=(self),unsized-media=(self),usb=(),screen-wake-lock=(),web-share=(),xr-spatial-tracking=()");
   (bs "cross-origin-embedder-policy", bs "require-corp");
   (bs "cross-origin-opener-policy", bs "same-origin");
   (bs "content-length", dec content_length);
   (cert_expr_header_name, cel_expr)] ++ additional.
(** lib.rs:430-443 [create_asset_response] *)
Definition create_asset_response (additional : list (bytes * bytes)) (body cel_expr : bytes) : response :=
  mk_response 200 (custom_headers additional (N.of_nat (length body)) cel_expr) body.
(** lib.rs:369-402 [create_uncertified_response] *)
Definition newline : bytes := [x0a].
Definition uncertified_body (time : N) : bytes :=
  newline ++ bs "            <html>" ++ newline ++ bs "                <head>" ++ newline ++
  bs "                    <title>ICP Skip Certification</title>" ++ newline ++ bs "                </head>" ++ newline ++ newline ++
  bs "                <body>" ++ newline ++ bs "                    <h1>ICP Skip Certification</h1>" ++ newline ++
  bs "                    <p>This is an example of an IC canister that skips certification.</p>" ++ newline ++
  bs "                    <p>Current timestamp: " ++ dec time ++ bs "<b>" ++ newline ++ bs "                </body>" ++ newline ++
  bs "            </html>" ++ newline ++ bs "        ".
Definition uncertified_response (time : N) : response :=
  let body := uncertified_body time in
  mk_response 200 (custom_headers [(bs "content-type", bs "text/html")] (N.of_nat (length body)) (print_cel CelSkip)) body.

(** lib.rs:30-42; [cu_data] is the argument of the last [set_certified_data] *)
Record custom := mk_custom { cu_tree : ntree; cu_encoded : list ((bytes * bytes) * cresp); cu_responses : list (bytes * cresp); cu_data : option bytes }.
Definition custom_default : custom := mk_custom ndefault [] [] None.

(** [str::contains] *)
Fixpoint contains_text (needle s : bytes) : bool :=
  bprefix needle s || match s with [] => false | _ :: r => contains_text needle r end.

Section Custom.
  Variables (H : bytes -> bytes) (uri_path : bytes -> option bytes) (glob : bytes -> bytes -> bool) (d : list item).
  Notation "'let?' x := a 'in' b" := (match a with None => None | Some x => b end) (at level 200, x name, a at level 100, b at level 200).

  (** lib.rs:88-98 [add_certification_skips] *)
  Definition add_certification_skips (st : custom) : option custom :=
    let? t := ninsert H (entry_tree_path (mk_entry (PExact uncertified_path) (certify_skip H))) [] (cu_tree st) in
    Some (mk_custom t (cu_encoded st) (cu_responses st) (cu_data st)).
  (** lib.rs:241-277 [certify_asset_response] *)
  Definition certify_asset_response (body : bytes) (headers : list (bytes * bytes)) (tree_path : cert_path) (req_path : bytes) (st : custom) : option custom :=
    let rs := create_asset_response headers body asset_cel in
    let? c := certify_response_only H asset_cert rs None in
    let? t := ninsert H (entry_tree_path (mk_entry tree_path c)) [] (cu_tree st) in
    Some (mk_custom t (cu_encoded st) (m_insert bytes_eqb req_path (mk_cresp rs c) (cu_responses st)) (cu_data st)).
  (** lib.rs:193-239 [certify_asset_with_encoding] *)
  Definition certify_asset_with_encoding (file_path : bytes) (tree_path : cert_path) (req_path encoding : bytes) (headers : list (bytes * bytes)) (st : custom) : option custom :=
    match get_file d (file_path ++ bs "." ++ encoding) with
    | None => Some st
    | Some body =>
        let rs := create_asset_response ((bs "content-encoding", encoding) :: headers) body asset_cel in
        let? c := certify_response_only H asset_cert rs None in
        let? t := ninsert H (entry_tree_path (mk_entry tree_path c)) [] (cu_tree st) in
        Some (mk_custom t (m_insert pair_eqb (req_path, encoding) (mk_cresp rs c) (cu_encoded st)) (cu_responses st) (cu_data st))
    end.
  (** lib.rs:162-191 [certify_asset] *)
  Definition certify_asset (body file_path : bytes) (tree_path : cert_path) (req_path : bytes) (headers : list (bytes * bytes)) (st : custom) : option custom :=
    let? st := certify_asset_response body headers tree_path req_path st in
    let? st := certify_asset_with_encoding file_path tree_path req_path (bs "gzip") headers st in
    certify_asset_with_encoding file_path tree_path req_path (bs "br") headers st.
  (** lib.rs:100-122 [certify_index_asset] *)
  Definition index_headers : list (bytes * bytes) := [(bs "content-type", bs "text/html"); (bs "cache-control", bs "public, no-cache, no-store")].
  Definition certify_index_asset (st : custom) : option custom :=
    let? body := get_file d index_file_path in
    certify_asset body index_file_path index_tree_path index_req_path index_headers st.
  (** lib.rs:132-139 *)
  Definition req_path_of (file_path : bytes) : bytes := if bprefix (bs "/") file_path then file_path else bs "/" ++ file_path.
  (** lib.rs:142-149 *)
  Definition file_headers (content_type : bytes) : list (bytes * bytes) := [(bs "content-type", content_type); (bs "cache-control", bs "public, max-age=31536000, immutable")].
  (** lib.rs:124-160 [certify_asset_glob]; the loop over [ASSETS_DIR.find] *)
  Fixpoint certify_each (items : list item) (content_type : bytes) (st : custom) : option custom :=
    match items with
    | [] => Some st
    | AFolder _ :: _ => None
    | AFile p body :: r =>
        let? st := certify_asset body p (PExact (req_path_of p)) (req_path_of p) (file_headers content_type) st in
        certify_each r content_type st
    end.
  Definition certify_asset_glob (pattern content_type : bytes) (st : custom) : option custom :=
    certify_each (filter (fun x => glob pattern (item_path x)) d) content_type st.
  (** lib.rs:76-84 [certify_all_assets] *)
  Definition patterns : list (bytes * bytes) :=
    [(bs "assets/**/*.css", bs "text/css"); (bs "assets/**/*.js", bs "text/javascript"); (bs "assets/**/*.ico", bs "image/x-icon"); (bs "assets/**/*.svg", bs "image/svg+xml")].
  Fixpoint certify_globs (l : list (bytes * bytes)) (st : custom) : option custom :=
    match l with
    | [] => Some st
    | (p, ct) :: r => let? st := certify_asset_glob p ct st in certify_globs r st
    end.
  (** lib.rs:17-26 [init], [post_upgrade]; :279-283 [update_certified_data] *)
  Definition custom_init : option custom :=
    let? st := add_certification_skips custom_default in
    let? st := certify_index_asset st in
    let? st := certify_globs patterns st in
    Some (mk_custom (cu_tree st) (cu_encoded st) (cu_responses st) (Some (http_root_hash H (cu_tree st)))).

  (** lib.rs:317-324: the first Accept-Encoding header ([to_lowercase] is ASCII here: no character
      outside ASCII lower-cases to the letters compared with) *)
  Fixpoint accept_encoding (hs : list (bytes * bytes)) : option bytes :=
    match hs with
    | [] => None
    | (n, v) :: r => if bytes_eqb (lower n) (bs "accept-encoding") then Some v else accept_encoding r
    end.
  (** lib.rs:330-352 *)
  Definition encoded_response (st : custom) (req_path encoding : bytes) : option cresp :=
    let br := if contains_text (bs "br") encoding then m_get pair_eqb (req_path, bs "br") (cu_encoded st) else None in
    match br with
    | Some r => Some r
    | None => if contains_text (bs "gzip") encoding then m_get pair_eqb (req_path, bs "gzip") (cu_encoded st) else None
    end.
  (** lib.rs:28-31 [http_request], :286-367 [asset_handler] *)
  Definition custom_http_request (st : custom) (data_certificate : option bytes) (time : N) (rq : request) : option response :=
    let? req_path := trap_of (get_path uri_path rq) in
    let? found :=
      (if bytes_eqb req_path uncertified_path then Some (uncertified_path, PExact uncertified_path, mk_cresp (uncertified_response time) (certify_skip H))
       else match m_get bytes_eqb req_path (cu_responses st) with
            | Some r => Some (req_path, PExact req_path, r)
            | None => option_map (fun r => (index_req_path, index_tree_path, r)) (m_get bytes_eqb index_req_path (cu_responses st))
            end) in
    let '(asset_path, tree_path, identity) := found in
    let chosen := match accept_encoding (rq_headers rq) with
                  | Some e => match encoded_response st asset_path e with Some r => r | None => identity end
                  | None => identity
                  end in
    let? dc := data_certificate in
    let? w := trap_of (http_witness H (cu_tree st) (mk_entry tree_path (cr_certification chosen)) req_path) in
    Some (add_v2_certificate_header dc (cr_response chosen) w (expr_path tree_path)).
End Custom.
