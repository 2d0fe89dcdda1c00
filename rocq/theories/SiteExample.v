(** Model of the assets example: /repo/examples/http-certification/assets/src/backend/src/lib.rs (the whole file).
    A trap is [None]: it rolls the message back. [init] and [post_upgrade] both start from empty thread-locals,
    the included directory may differ.  Not modelled: candid, the JSON serializer's failure
    (it cannot fail on numbers), include_dir's to_string_lossy (paths are texts already). *)
From Coq Require Import List NArith Bool.
From Verif Require Import Bytes Text Nested Cbor HttpTypes HttpHash Cel V2 Verify HttpTree AssetRouter AssetMap Shared.
Import ListNotations.
Local Open Scope N_scope.

(** include_dir's [Dir]: files with their full paths, and directories *)
Inductive dir := Dir (files : list (bytes * bytes)) (dirs : list dir).
(** lib.rs:64-76 [collect_assets] *)
Fixpoint collect_assets (d : dir) : list asset :=
  match d with Dir files dirs => map (fun f => asset_new (fst f) (snd f)) files ++ flat_map collect_assets dirs end.

(** lib.rs:223-239 [get_asset_headers] *)
Definition base_headers : list (bytes * bytes) :=
  [(bs "strict-transport-security", bs "max-age=31536000; includeSubDomains");
   (bs "x-frame-options", bs "DENY");
   (bs "x-content-type-options", bs "nosniff");
   (bs "content-security-policy", bs "default-src 'self'; img-src 'self' data:; form-action 'self'; object-src 'none'; frame-ancestors 'none'; upgrade-insecure-requests; block-all-mixed-content");
   (bs "referrer-policy", bs "no-referrer");
   (bs "permissions-policy", bs "accelerometer=(),ambient-light-sensor=(),autoplay=(),battery=(),camera=(),display-capture=(),document-domain=(),encrypted-media=(),fullscreen=(),gamepad=(),geolocation=(),gyroscope=(),layout-animations=(self),legacy-image-formats=(self),magnetometer=(),microphone=(),midi=(),oversized-images=(self),payment=(),picture-in-picture=(),publickey-credentials-get=(),speaker-selection=(),sync-xhr=(self),unoptimized-images=(self),unsized-media=(self),usb=(),screen-wake-lock=(),web-share=(),xr-spatial-tracking=()");
   (bs "cross-origin-embedder-policy", bs "require-corp");
   (bs "cross-origin-opener-policy", bs "same-origin")].
Definition get_asset_headers (additional : list (bytes * bytes)) : list (bytes * bytes) := base_headers ++ additional.
(** lib.rs:61 *)
Definition immutable_cache : list (bytes * bytes) := get_asset_headers [(bs "cache-control", bs "public, max-age=31536000, immutable")].
(** lib.rs:81-84; asset_config.rs:470-483 [default_config] *)
Definition site_encodings : list (encoding * bytes) := [(Brotli, bs ".br"); (Gzip, bs ".gz")].
(** lib.rs:86-144 *)
Definition site_configs : list asset_config :=
  [ConfigFile (bs "index.html") (Some (bs "text/html")) (get_asset_headers [(bs "cache-control", bs "public, no-cache, no-store")])
     [mk_fallback (bs "/") (Some 200)] [bs "/"] site_encodings;
   ConfigPattern (bs "**/*.js") (Some (bs "text/javascript")) immutable_cache site_encodings;
   ConfigPattern (bs "**/*.css") (Some (bs "text/css")) immutable_cache site_encodings;
   ConfigPattern (bs "**/*.ico") (Some (bs "image/x-icon")) immutable_cache [];
   ConfigPattern (bs "**/*.svg") (Some (bs "image/svg+xml")) immutable_cache [];
   ConfigRedirect (bs "/old-url") (bs "/") Permanent].

Section Site.
  Variables (cs : N) (H : bytes -> bytes) (uri_path : bytes -> option bytes) (uri_query : bytes -> option (option bytes))
            (glob : bytes -> option (bytes -> bool)) (umod : N) (sort : list (bytes * N) -> list (bytes * N)).
  (** lib.rs:154-157 *)
  Definition metrics_entry : entry := mk_entry (PExact (bs "/metrics")) (certify_skip H).
  (** lib.rs:79-172 [certify_all_assets]; [order] is the router's iteration order. The result is the state and the certified data. *)
  Definition certify_all_assets (order : list asset -> list asset) (d : dir) : option (router * bytes) :=
    match nstep H ndefault (http_nop (HInsert metrics_entry)) with
    | None => None
    | Some t =>
        match certify_assets cs H uri_query glob order (collect_assets d) site_configs (router_with t) with
        | (st, OOk _) => Some (st, router_root_hash H st)
        | _ => None
        end
    end.
  (** serde_json's text of [Metrics] (lib.rs:19-24) *)
  Definition metrics_json (num_assets num_fallback_assets cycle_balance : N) : bytes :=
    bs "{""num_assets"":" ++ dec num_assets ++ bs ",""num_fallback_assets"":" ++ dec num_fallback_assets ++ bs ",""cycle_balance"":" ++ dec cycle_balance ++ bs "}".
  (** lib.rs:175-207 [serve_metrics] *)
  Definition serve_metrics (st : router) (data_certificate : option bytes) (balance : N) : option response :=
    let rs := mk_response 200 [] (metrics_json (asset_map_len (get_assets st)) (asset_map_len (get_fallback_assets st)) balance) in
    match data_certificate, http_witness H (r_tree st) metrics_entry (bs "/metrics") with
    | Some dc, OOk w =>
        let rs := add_v2_certificate_header dc rs w (expr_path (PExact (bs "/metrics"))) in
        Some (mk_response (rs_status rs) (rs_headers rs ++ get_asset_headers [(cert_expr_header_name, print_cel CelSkip)]) (rs_body rs))
    | _, _ => None
    end.
  (** lib.rs:209-221 [serve_asset] *)
  Definition site_serve_asset (st : router) (data_certificate : option bytes) (rq : request) : option response :=
    match data_certificate with
    | Some dc => match serve_asset cs H uri_path umod sort st dc rq with OOk rs => Some rs | _ => None end
    | None => None
    end.
  (** lib.rs:37-48 [http_request] *)
  Definition site_http_request (st : router) (data_certificate : option bytes) (balance : N) (rq : request) : option response :=
    match get_path uri_path rq with
    | OOk path => if bytes_eqb path (bs "/metrics") then serve_metrics st data_certificate balance else site_serve_asset st data_certificate rq
    | _ => None
    end.
End Site.

(** ** Specification *)
(** the included directory has the file [p] with this content *)
Inductive file_of : dir -> bytes -> bytes -> Prop :=
| FileHere files dirs p c : In (p, c) files -> file_of (Dir files dirs) p c
| FileBelow files dirs d p c : In d dirs -> file_of d p c -> file_of (Dir files dirs) p c.
(** the paths the site has something for *)
Definition site_name (d : dir) (u : bytes) : Prop :=
  (exists p c, file_of d p c /\ u = path_to_url p) \/ u = bs "/" \/ u = bs "/old-url".
(** [c] is the content of the file [p], or of a compressed variant of it *)
Definition variant_of (d : dir) (p c : bytes) : Prop :=
  file_of d p c \/ file_of d (p ++ bs ".br") c \/ file_of d (p ++ bs ".gz") c.
(** What a GET of [path] is answered with: the file with that path (its first [cs] bytes, if
    it is larger), index.html for the root and for every path without a file, and a redirect. *)
Inductive site_answer (cs : N) (d : dir) (path : bytes) : N -> bytes -> Prop :=
| AnswerFile p c : path = path_to_url p \/ path = bs "/" /\ p = bs "index.html" -> variant_of d p c -> N.of_nat (length c) <= cs -> site_answer cs d path 200 c
| AnswerPart p c body rest : path = path_to_url p \/ path = bs "/" /\ p = bs "index.html" -> variant_of d p c -> c = body ++ rest -> N.of_nat (length body) = cs -> rest <> [] ->
    site_answer cs d path 206 body
| AnswerMoved : path = bs "/old-url" -> site_answer cs d path 301 []
| AnswerIndex c : ~ site_name d path -> variant_of d (bs "index.html") c -> site_answer cs d path 200 c.
(** No name uses the reserved segments, has a query or is too long, or differs from another
    in slashes only; "/metrics" is none. *)
Definition tidy (umod : N) (uri_query : bytes -> option (option bytes)) (d : dir) : Prop :=
  (forall u, site_name d u -> uri_query u = Some None /\ N.of_nat (length u) + 4 < umod) /\
  (forall u, site_name d u ->
     ~ In (bs "<$>") (request_parts u) /\ ~ In (bs "<*>") (request_parts u) /\ request_parts u <> [bs "metrics"]) /\
  (forall u u', site_name d u -> site_name d u' -> request_parts u = request_parts u' -> u = u').
(** What the verifier may vouch for when [path] is requested: (a part of) the file with that path,
    the redirect, and index.html where nothing else is. *)
Inductive site_content (d : dir) (path : bytes) : N -> bytes -> Prop :=
| ContentFile u p c : request_parts u = request_parts path -> u = path_to_url p \/ u = bs "/" /\ p = bs "index.html" -> variant_of d p c -> site_content d path 200 c
| ContentPart u p c before body after : request_parts u = request_parts path -> u = path_to_url p \/ u = bs "/" /\ p = bs "index.html" -> variant_of d p c ->
    c = before ++ body ++ after -> site_content d path 206 body
| ContentMoved : request_parts path = [bs "old-url"] -> site_content d path 301 []
| ContentIndex c : (forall u, site_name d u \/ u = bs "/metrics" -> request_parts u <> request_parts path) -> variant_of d (bs "index.html") c -> site_content d path 200 c.
