(** HTTP requests and responses and certification descriptions, as in
    /repo/packages/ic-http-certification/src/http/http_request.rs:60-80 ([HttpRequest]),
    http/http_response.rs ([HttpResponse]) and cel/cel_types.rs.
    Strings are their UTF-8 bytes; [Cow] is dropped; [certificate_version] and
    [upgrade] are dropped (no code modelled here reads them). *)
From Coq Require Import List NArith.
From Verif Require Import Bytes.

(** http_request.rs [HttpRequest]; [rq_method] is the method's name, see
    [Method::to_string] in request_hash.rs:16-19 *)
Record request := mk_request { rq_method : bytes; rq_url : bytes; rq_headers : list (bytes * bytes); rq_body : bytes }.
(** http_response.rs [HttpResponse]; [rs_status] is [status_code().as_u16()] *)
Record response := mk_response { rs_status : N; rs_headers : list (bytes * bytes); rs_body : bytes }.

(** cel_types.rs [DefaultRequestCertification] *)
Record request_cert := mk_request_cert { rc_headers : list bytes; rc_query : list bytes }.
(** cel_types.rs [DefaultResponseCertificationType] *)
Inductive response_cert :=
| CertifiedHeaders (l : list bytes)
| HeaderExclusions (l : list bytes).
(** cel_types.rs [CelExpression]/[DefaultCelExpression] *)
Inductive cel :=
| CelSkip
| CelResponseOnly (rs : response_cert)
| CelFull (rq : request_cert) (rs : response_cert).
