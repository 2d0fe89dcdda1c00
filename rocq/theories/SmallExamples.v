(** Model of two examples: /repo/examples/http-certification/skip-certification/src/backend/src/lib.rs (the whole file)
    and /repo/examples/http-certification/upgrade-to-update-call/src/rust-backend/src/lib.rs (the whole file).
    A trap ([data_certificate().unwrap()]) is [None]. *)
From Coq Require Import List NArith Bool.
From Verif Require Import Bytes HttpTypes HttpTree AssetRouter HttpBuild.
Import ListNotations.
Local Open Scope N_scope.

(** skip-certification lib.rs:24-42, the [format!] *)
Definition skip_body (time : N) : bytes :=
  [x0a] ++ bs "            <html>" ++ [x0a] ++ bs "                <head>" ++ [x0a] ++
  bs "                    <title>ICP Skip Certification</title>" ++ [x0a] ++ bs "                </head>" ++ [x0a] ++ [x0a] ++
  bs "                <body>" ++ [x0a] ++ bs "                    <h1>ICP Skip Certification</h1>" ++ [x0a] ++
  bs "                    <p>This is an example of an IC canister that skips certification.</p>" ++ [x0a] ++
  bs "                    <p>Current timestamp: " ++ dec time ++ bs "<b>" ++ [x0a] ++ bs "                </body>" ++ [x0a] ++
  bs "            </html>" ++ [x0a] ++ bs "        ".
(** lib.rs:44-55 *)
Definition skip_headers (body : bytes) : list (bytes * bytes) :=
  [(bs "strict-transport-security", bs "max-age=31536000; includeSubDomains");
   (bs "x-frame-options", bs "DENY");
   (bs "x-content-type-options", bs "nosniff");
   (bs "content-security-policy", bs "default-src 'self'; form-action 'self'; object-src 'none'; frame-ancestors 'none'; upgrade-insecure-requests; block-all-mixed-content");
   (bs "referrer-policy", bs "no-referrer");
   (bs "permissions-policy", bs "accelerometer=(),ambient-light-sensor=(),autoplay=(),battery=(),camera=(),display-capture=(),document-domain=(),encrypted-media=(),fullscreen=(),gamepad=(),geolocation=(),gyroscope=(),layout-animations=(self),legacy-image-formats=(self),magnetometer=(),microphone=(),midi=(),oversized-images=(self),payment=(),picture-in-picture=(),publickey-credentials-get=(),speaker-selection=(),sync-xhr=(self),unoptimized-images=(self),unsized-media=(self),usb=(),screen-wake-lock=(),web-share=(),xr-spatial-tracking=()");
   (bs "cross-origin-embedder-policy", bs "require-corp");
   (bs "cross-origin-opener-policy", bs "same-origin");
   (bs "content-length", dec (N.of_nat (length body)));
   (bs "content-type", bs "text/html")].
(** lib.rs:24-62 [create_response] *)
Definition skip_response (time : N) : http_response :=
  let body := skip_body time in
  response_build (response_set (response_set (response_set response_builder_new (SetStatus 200)) (SetResponseHeaders (skip_headers body))) (SetResponseBody body)).
(** lib.rs:10-13 [init]: the argument of [set_certified_data] *)
Definition skip_init (H : bytes -> bytes) : option bytes := Some (skip_certified_data H).
(** lib.rs:15-22 [http_request]; it takes no argument: the request is ignored *)
Definition skip_http_request (H : bytes -> bytes) (data_certificate : option bytes) (time : N) : option response :=
  match data_certificate with
  | None => None
  | Some dc => Some (add_skip_certification_header H dc (response_of (skip_response time)))
  end.

(** upgrade-to-update-call lib.rs:4-7 [http_request] *)
Definition upgrade_http_request : http_response := response_build (response_set response_builder_new (SetUpgrade true)).
(** lib.rs:9-15 [http_request_update] *)
Definition upgrade_http_request_update : http_update_response :=
  response_build_update (response_set (response_set response_builder_new (SetStatus 418)) (SetResponseBody (bs "I'm a teapot"))).
