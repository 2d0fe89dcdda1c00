(** Specification vocabulary for C102-C104: what the custom-assets canister has, and what it is to answer. *)
From Coq Require Import List NArith Bool.
From Verif Require Import Bytes HttpTypes HttpHash HttpSpec Cel V2 VerifySpec HttpTree AssetRouter AssetSpec CustomAssets.
Import ListNotations.
Local Open Scope N_scope.

(** the kinds of files that are published, with their content types *)
Definition kinds : list (bytes * bytes) :=
  [(bs "assets/**/*.css", bs "text/css"); (bs "assets/**/*.js", bs "text/javascript"); (bs "assets/**/*.ico", bs "image/x-icon"); (bs "assets/**/*.svg", bs "image/svg+xml")].

Section Spec.
  Variables (glob : bytes -> bytes -> bool) (d : list item).
  Definition has_file (p c : bytes) : Prop := In (AFile p c) d.
  (** the file [p] is published, with content type [ct] *)
  Definition published (p ct : bytes) : Prop := (exists k, In (k, ct) kinds /\ glob k p = true) /\ exists c, has_file p c.
  Definition url_of (p : bytes) : bytes := bs "/" ++ p.
  (** the headers a published file and index.html are served with *)
  Definition immutable_of (ct : bytes) : list (bytes * bytes) := [(bs "content-type", ct); (bs "cache-control", bs "public, max-age=31536000, immutable")].
  Definition index_with : list (bytes * bytes) := [(bs "content-type", bs "text/html"); (bs "cache-control", bs "public, no-cache, no-store")].
  Definition security_headers : list (bytes * bytes) :=
    [(bs "strict-transport-security", bs "max-age=31536000; includeSubDomains");
   (bs "x-frame-options", bs "DENY");
   (bs "x-content-type-options", bs "nosniff");
   (bs "content-security-policy", bs "default-src 'self'; form-action 'self'; object-src 'none'; frame-ancestors 'none'; upgrade-insecure-requests; block-all-mixed-content");
   (bs "referrer-policy", bs "no-referrer");
   (bs "permissions-policy", bs "accelerometer=(),ambient-light-sensor=(),autoplay=(),battery=(),camera=(),display-capture=(),document-domain=(),encrypted-media=(),fullscreen=(),gamepad=(),geolocation=(),gyroscope=(),layout-animations=(self),legacy-image-formats=(self),magnetometer=(),microphone=(),midi=(),oversized-images=(self),payment=(),picture-in-picture=(),publickey-credentials-get=(),speaker-selection=(),sync-xhr=(self),unoptimized-images=(self),unsized-media=(self),usb=(),screen-wake-lock=(),web-share=(),xr-spatial-tracking=()");
   (bs "cross-origin-embedder-policy", bs "require-corp");
   (bs "cross-origin-opener-policy", bs "same-origin")].
  (** status 200, the fixed security headers, the length, the CEL expression for "all response headers", then [hs] *)
  Definition page (hs : list (bytes * bytes)) (body : bytes) : response :=
    mk_response 200 (security_headers ++ [(bs "content-length", dec (N.of_nat (length body))); (bs "IC-CertificateExpression", print_cel (CelResponseOnly (HeaderExclusions [])))] ++ hs) body.
  (** the page about skipped certification: it shows the time *)
  Definition nl : bytes := [x0a].
  Definition clock_text (time : N) : bytes :=
    concat [nl; bs "            <html>"; nl; bs "                <head>"; nl; bs "                    <title>ICP Skip Certification</title>"; nl;
      bs "                </head>"; nl; nl; bs "                <body>"; nl; bs "                    <h1>ICP Skip Certification</h1>"; nl;
      bs "                    <p>This is an example of an IC canister that skips certification.</p>"; nl;
      bs "                    <p>Current timestamp: "; dec time; bs "<b>"; nl; bs "                </body>"; nl; bs "            </html>"; nl; bs "        "].
  Definition clock_page (time : N) : response :=
    mk_response 200 (security_headers ++ [(bs "content-length", dec (N.of_nat (length (clock_text time)))); (bs "IC-CertificateExpression", print_cel CelSkip);
      (bs "content-type", bs "text/html")]) (clock_text time).
  (** the response shows the file [p] (no encoding), or its variant p.gzip, p.br *)
  Definition shows_variant (p : bytes) (hs : list (bytes * bytes)) (enc : option bytes) (rs : response) : Prop :=
    match enc with
    | None => exists c, has_file p c /\ rs = page hs c
    | Some e => exists c, has_file (p ++ bs "." ++ e) c /\ rs = page ((bs "content-encoding", e) :: hs) c
    end.
  Definition an_encoding (enc : option bytes) : Prop := enc = None \/ enc = Some (bs "gzip") \/ enc = Some (bs "br").

  (** the first Accept-Encoding header contains the text [e] *)
  Definition accepts (rq : request) (e : bytes) : Prop :=
    exists a n v b x y, rq_headers rq = a ++ (n, v) :: b /\ same_name n (bs "Accept-Encoding") /\ no_header (bs "Accept-Encoding") a /\ v = x ++ e ++ y.
  Definition available (rq : request) (p e : bytes) : Prop := accepts rq e /\ exists c, has_file (p ++ bs "." ++ e) c.
  (** Brotli is preferred to gzip, gzip to the plain file. *)
  Definition preferred (rq : request) (p : bytes) (enc : option bytes) : Prop :=
    (enc = Some (bs "br") /\ available rq p (bs "br")) \/
    (enc = Some (bs "gzip") /\ ~ available rq p (bs "br") /\ available rq p (bs "gzip")) \/
    (enc = None /\ ~ available rq p (bs "br") /\ ~ available rq p (bs "gzip")).

  (** What a request for [path] is answered with. *)
  Inductive custom_answer (rq : request) (path : bytes) : response -> Prop :=
  | AnswerPublished p ct enc rs : path = url_of p -> published p ct -> preferred rq p enc -> shows_variant p (immutable_of ct) enc rs -> custom_answer rq path rs
  | AnswerIndex enc rs : path <> bs "/uncertified" -> (forall p ct, published p ct -> path <> url_of p) ->
      preferred rq (bs "index.html") enc -> shows_variant (bs "index.html") index_with enc rs -> custom_answer rq path rs.
  (** What the verifier may vouch for. *)
  Inductive custom_content (path : bytes) : response -> Prop :=
  | ContentPublished p ct enc rs : request_parts (url_of p) = request_parts path -> published p ct -> an_encoding enc -> shows_variant p (immutable_of ct) enc rs -> custom_content path rs
  | ContentIndexPage enc rs : request_parts path <> [bs "uncertified"] -> (forall p ct, published p ct -> request_parts (url_of p) <> request_parts path) ->
      an_encoding enc -> shows_variant (bs "index.html") index_with enc rs -> custom_content path rs.

  (** Published files have relative paths without reserved segments, that fit; "/uncertified" is none.
      (The patterns only match paths that start with "assets/".) *)
  Definition tidy_files (umod : N) : Prop :=
    forall p ct, published p ct -> bprefix (bs "/") p = false /\ clean_url (url_of p) /\ request_parts (url_of p) <> [bs "uncertified"] /\
      Utf8.utf8_valid (url_of p) = true /\ N.of_nat (length (url_of p)) + 4 < umod.
  (** [path] is spelled as it was certified, if it was: no other spelling (doubled slashes) of a certified path *)
  Definition spelled (path : bytes) : Prop :=
    forall u, (u = bs "/uncertified" \/ exists p ct, published p ct /\ u = url_of p) -> request_parts u = request_parts path -> path = u.
End Spec.
