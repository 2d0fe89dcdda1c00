(** Model of the request and response values and the builders of
    /repo/packages/ic-http-certification/src/http/{http_request,http_response}.rs and
    cel/{cel_builder,cel_types}.rs, with the fields HttpTypes.v leaves out.
    [Cow] is dropped, a [Method] is its name, a [StatusCode] its number. *)
From Coq Require Import List NArith Bool.
From Verif Require Import Bytes RiHash HttpTypes.
Import ListNotations.
Local Open Scope N_scope.

(** http_request.rs:89-104 [HttpRequest] *)
Record http_request := mk_http_request { hq_method : bytes; hq_url : bytes; hq_headers : list (bytes * bytes); hq_body : bytes; hq_version : option N }.
(** http_request.rs:640-652 [HttpUpdateRequest] *)
Record http_update_request := mk_http_update_request { uq_method : bytes; uq_url : bytes; uq_headers : list (bytes * bytes); uq_body : bytes }.
(** http_response.rs:66-79 [HttpResponse] *)
Record http_response := mk_http_response { hs_status : N; hs_headers : list (bytes * bytes); hs_body : bytes; hs_upgrade : option bool }.
(** http_response.rs:494-503 [HttpUpdateResponse] *)
Record http_update_response := mk_http_update_response { us_status : N; us_headers : list (bytes * bytes); us_body : bytes }.

(** what the hashing and verification code reads of them (method(), url(), headers(), body(), status_code()) *)
Definition response_of (r : http_response) : response := mk_response (hs_status r) (hs_headers r) (hs_body r).

(** http_request.rs:392-398 [HttpRequestBuilder], 424-426 [new] (derived [Default]) *)
Record request_builder := mk_request_builder { rb_method : option bytes; rb_url : option bytes; rb_headers : list (bytes * bytes); rb_body : bytes; rb_version : option N }.
Definition request_builder_new : request_builder := mk_request_builder None None [] [] None.
(** the builder's methods: 445-449 [with_method], 468-472 [with_url], 490-494 [with_headers], 513-517 [with_body],
    537-541 [with_certificate_version] *)
Inductive request_setter := SetMethod (m : bytes) | SetUrl (u : bytes) | SetRequestHeaders (hs : list (bytes * bytes)) | SetRequestBody (b : bytes) | SetVersion (v : N).
Definition request_set (b : request_builder) (s : request_setter) : request_builder :=
  match s with
  | SetMethod m => mk_request_builder (Some m) (rb_url b) (rb_headers b) (rb_body b) (rb_version b)
  | SetUrl u => mk_request_builder (rb_method b) (Some u) (rb_headers b) (rb_body b) (rb_version b)
  | SetRequestHeaders hs => mk_request_builder (rb_method b) (rb_url b) hs (rb_body b) (rb_version b)
  | SetRequestBody x => mk_request_builder (rb_method b) (rb_url b) (rb_headers b) x (rb_version b)
  | SetVersion v => mk_request_builder (rb_method b) (rb_url b) (rb_headers b) (rb_body b) (Some v)
  end.
Definition or_else {A} (o : option A) (d : A) : A := match o with Some x => x | None => d end.
(** 570-578 [build], 604-611 [build_update] *)
Definition request_build (b : request_builder) : http_request :=
  mk_http_request (or_else (rb_method b) (bs "GET")) (or_else (rb_url b) (bs "/")) (rb_headers b) (rb_body b) (rb_version b).
Definition request_build_update (b : request_builder) : http_update_request :=
  mk_http_update_request (or_else (rb_method b) (bs "GET")) (or_else (rb_url b) (bs "/")) (rb_headers b) (rb_body b).
(** 123-127 [get], 144-148 [post], 165-169 [put], 186-190 [patch], 207-211 [delete], 236-238 [builder] *)
Inductive verb := VGet | VPost | VPut | VPatch | VDelete.
Definition verb_name (v : verb) : bytes :=
  match v with VGet => bs "GET" | VPost => bs "POST" | VPut => bs "PUT" | VPatch => bs "PATCH" | VDelete => bs "DELETE" end.
Definition request_for (v : verb) (url : bytes) : request_builder :=
  request_set (request_set request_builder_new (SetMethod (verb_name v))) (SetUrl url).
(** 763-772 [From<HttpRequest> for HttpUpdateRequest] *)
Definition request_to_update (r : http_request) : http_update_request :=
  mk_http_update_request (hq_method r) (hq_url r) (hq_headers r) (hq_body r).

(** http_response.rs:244-249 [HttpResponseBuilder], 272-274 [new] (derived [Default]) *)
Record response_builder := mk_response_builder { sb_status : option N; sb_headers : list (bytes * bytes); sb_body : bytes; sb_upgrade : option bool }.
Definition response_builder_new : response_builder := mk_response_builder None [] [] None.
(** 291-295 [with_status_code], 312-316 [with_headers], 334-338 [with_body], 356-360 [with_upgrade] *)
Inductive response_setter := SetStatus (n : N) | SetResponseHeaders (hs : list (bytes * bytes)) | SetResponseBody (b : bytes) | SetUpgrade (u : bool).
Definition response_set (b : response_builder) (s : response_setter) : response_builder :=
  match s with
  | SetStatus n => mk_response_builder (Some n) (sb_headers b) (sb_body b) (sb_upgrade b)
  | SetResponseHeaders hs => mk_response_builder (sb_status b) hs (sb_body b) (sb_upgrade b)
  | SetResponseBody x => mk_response_builder (sb_status b) (sb_headers b) x (sb_upgrade b)
  | SetUpgrade u => mk_response_builder (sb_status b) (sb_headers b) (sb_body b) (Some u)
  end.
(** 385-392 [build], 416-422 [build_update] *)
Definition response_build (b : response_builder) : http_response :=
  mk_http_response (or_else (sb_status b) 200) (sb_headers b) (sb_body b) (sb_upgrade b).
Definition response_build_update (b : response_builder) : http_update_response :=
  mk_http_update_response (or_else (sb_status b) 200) (sb_headers b) (sb_body b).
(** 425-434 [From<HttpResponse> for HttpResponseBuilder], 601-609 [From<HttpResponse> for HttpUpdateResponse] *)
Definition response_to_builder (r : http_response) : response_builder :=
  mk_response_builder (Some (hs_status r)) (hs_headers r) (hs_body r) (hs_upgrade r).
Definition response_to_update (r : http_response) : http_update_response :=
  mk_http_update_response (hs_status r) (hs_headers r) (hs_body r).
(** 179-181 [add_header], 578-580 the same on [HttpUpdateResponse] *)
Definition http_add_header (r : http_response) (h : bytes * bytes) : http_response :=
  mk_http_response (hs_status r) (hs_headers r ++ [h]) (hs_body r) (hs_upgrade r).
Definition update_add_header (r : http_update_response) (h : bytes * bytes) : http_update_response :=
  mk_http_update_response (us_status r) (us_headers r ++ [h]) (us_body r).

(** http_response.rs:436-449 [PartialEq for HttpResponse]; [sort] is the sort of the derived
    order of (String, String), the same as in RiHash.v; [==] on vectors compares element by element *)
Fixpoint pairs_eqb (a b : list (bytes * bytes)) : bool :=
  match a, b with
  | [], [] => true
  | x :: a', y :: b' => bytes_eqb (fst x) (fst y) && bytes_eqb (snd x) (snd y) && pairs_eqb a' b'
  | _, _ => false
  end.
Definition upgrade_eqb (a b : option bool) : bool :=
  match a, b with Some x, Some y => Bool.eqb x y | None, None => true | _, _ => false end.
Definition response_eqb (a b : http_response) : bool :=
  let ha := sort_pairs (hs_headers a) in
  let hb := sort_pairs (hs_headers b) in
  (hs_status a =? hs_status b) && pairs_eqb ha hb && bytes_eqb (hs_body a) (hs_body b) && upgrade_eqb (hs_upgrade a) (hs_upgrade b).
(** http_response.rs:493 derived [PartialEq] of [HttpUpdateResponse]; http_request.rs:88 of [HttpRequest], 639 of [HttpUpdateRequest] *)
Definition update_response_eqb (a b : http_update_response) : bool :=
  (us_status a =? us_status b) && pairs_eqb (us_headers a) (us_headers b) && bytes_eqb (us_body a) (us_body b).
Definition version_eqb (a b : option N) : bool :=
  match a, b with Some x, Some y => x =? y | None, None => true | _, _ => false end.
Definition request_eqb (a b : http_request) : bool :=
  bytes_eqb (hq_method a) (hq_method b) && bytes_eqb (hq_url a) (hq_url b) && pairs_eqb (hq_headers a) (hq_headers b) &&
  bytes_eqb (hq_body a) (hq_body b) && version_eqb (hq_version a) (hq_version b).

(** cel_types.rs:175-179 [Default for DefaultResponseCertification] *)
Definition default_response_cert : response_cert := CertifiedHeaders [].
(** cel_builder.rs:36-60 [DefaultResponseOnlyCelBuilder] *)
Definition response_only_build (calls : list response_cert) : cel :=
  CelResponseOnly (fold_left (fun _ c => c) calls default_response_cert).
(** cel_builder.rs:66-118 [DefaultFullCelExpressionBuilder] *)
Record full_builder := mk_full_builder { fu_headers : list bytes; fu_query : list bytes; fu_response : response_cert }.
Definition full_builder_new : full_builder := mk_full_builder [] [] default_response_cert.
Inductive full_setter := SetHeaders (l : list bytes) | SetQuery (l : list bytes) | SetResponse (c : response_cert).
Definition full_set (b : full_builder) (s : full_setter) : full_builder :=
  match s with
  | SetHeaders l => mk_full_builder l (fu_query b) (fu_response b)
  | SetQuery l => mk_full_builder (fu_headers b) l (fu_response b)
  | SetResponse c => mk_full_builder (fu_headers b) (fu_query b) c
  end.
Definition full_build (b : full_builder) : cel := CelFull (mk_request_cert (fu_headers b) (fu_query b)) (fu_response b).
