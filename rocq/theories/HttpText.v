(** Model of the texts that [{:?}] gives for the requests and responses of /repo/packages/ic-http-certification/src/http
    (the plain form; the indented form [{:#?}] is not modelled). [Debug] of a status code and of a method are those of
    the http crate 1.x: the number and the name. *)
From Coq Require Import List NArith Bool.
From Verif Require Import Bytes Text AssetRouter HttpBuild Messages CanisterMessages.
Import ListNotations.
Local Open Scope N_scope.

Section HttpText.
  Variable plain : N -> bool.
  (** derived [Debug] of (String, String), the [HeaderField] of lib.rs, and of a list of them *)
  Definition debug_header (h : bytes * bytes) : bytes := bs "(" ++ debug_str plain (fst h) ++ bs ", " ++ debug_str plain (snd h) ++ bs ")".
  Definition debug_headers (l : list (bytes * bytes)) : bytes := debug_vec (map debug_header l).
  (** derived [Debug] of [Option<bool>] and [Option<u16>] *)
  Definition debug_option {A} (f : A -> bytes) (o : option A) : bytes := match o with None => bs "None" | Some x => bs "Some(" ++ f x ++ bs ")" end.
  Definition debug_bool (b : bool) : bytes := if b then bs "true" else bs "false".
  (** derived [Debug] of [StatusCodeWrapper] (http_response.rs:10-11) and [MethodWrapper] (http_request.rs:11-12) *)
  Definition debug_status (n : N) : bytes := bs "StatusCodeWrapper(" ++ dec n ++ bs ")".
  Definition debug_method (m : bytes) : bytes := bs "MethodWrapper(" ++ m ++ bs ")".
  (** http_response.rs:451-469: at most the first hundred bytes of the body, as a text *)
  Definition formatted_body (b : bytes) : bytes :=
    if (100 <? N.of_nat (List.length b)) then debug_bytes (firstn 100 b) ++ bs "..." else debug_bytes b.
  Definition debug_response (r : http_response) : bytes :=
    bs "HttpResponse { status_code: " ++ debug_status (hs_status r) ++ bs ", headers: " ++ debug_headers (hs_headers r) ++
    bs ", body: " ++ debug_str plain (formatted_body (hs_body r)) ++ bs ", upgrade: " ++ debug_option debug_bool (hs_upgrade r) ++ bs " }".
  (** http_response.rs:493-503 [HttpUpdateResponse], derived *)
  Definition debug_update_response (r : http_update_response) : bytes :=
    bs "HttpUpdateResponse { status_code: " ++ debug_status (us_status r) ++ bs ", headers: " ++ debug_headers (us_headers r) ++
    bs ", body: " ++ debug_bytes (us_body r) ++ bs " }".
  (** http_request.rs:88-104 [HttpRequest], derived *)
  Definition debug_request (q : http_request) : bytes :=
    bs "HttpRequest { method: " ++ debug_method (hq_method q) ++ bs ", url: " ++ debug_str plain (hq_url q) ++ bs ", headers: " ++ debug_headers (hq_headers q) ++
    bs ", body: " ++ debug_bytes (hq_body q) ++ bs ", certificate_version: " ++ debug_option dec (hq_version q) ++ bs " }".
  (** http_request.rs:639-652 [HttpUpdateRequest], derived *)
  Definition debug_update_request (q : http_update_request) : bytes :=
    bs "HttpUpdateRequest { method: " ++ debug_method (uq_method q) ++ bs ", url: " ++ debug_str plain (uq_url q) ++ bs ", headers: " ++ debug_headers (uq_headers q) ++
    bs ", body: " ++ debug_bytes (uq_body q) ++ bs " }".
End HttpText.
