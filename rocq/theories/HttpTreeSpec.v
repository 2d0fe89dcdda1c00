(** Specification vocabulary for C51-C55 and C64: what an HTTP certification tree
    holds after a history, which entry answers a request, what a certification was made for. *)
From Coq Require Import List NArith.
From Coq Require Import Permutation.
From Verif Require Import Bytes HashTreeSpec Text HttpTypes HttpHash HttpSpec Cel CelSpec Nested NestedSpec V2 WildcardSpec VerifySpec HttpTree.
Import ListNotations.

(** The tree holds entry [en]: it was inserted and not removed since. *)
Definition held (ops : list http_op) (en : entry) : Prop := holds (map http_nop ops) (entry_tree_path en) [].
(** Something is certified at or below the tree path [p]. *)
Definition occupied (ops : list http_op) (p : list bytes) : Prop := exists q v, holds (map http_nop ops) (p ++ q) v.

(** The certification path answers requests for [path]: the exact path; or a
    wildcard that matches, when nothing is certified at the exact path or at a
    more specific wildcard. *)
Definition answers (ops : list http_op) (p : cert_path) (path : bytes) : Prop :=
  match p with
  | PExact p => request_parts p = request_parts path
  | PWildcard p =>
      matches (request_parts p) (request_parts path) /\
      ~ occupied ops (request_parts path ++ [bs "<$>"]) /\
      forall u, matches u (request_parts path) -> more_specific u (request_parts p) -> ~ occupied ops (u ++ [bs "<*>"])
  end.

(** For a wildcard: the request path neither ends in a reserved terminator nor
    starts with the reserved segment "http_expr". *)
Definition unreserved (p : cert_path) (path : bytes) : Prop :=
  match p with
  | PExact _ => True
  | PWildcard _ => ordinary_path path /\ forall r, request_parts path <> bs "http_expr" :: r
  end.

(** The response has exactly one CEL expression header, with value [expr]. *)
Definition single_expression (rs : response) (expr : bytes) : Prop :=
  exists a n b, rs_headers rs = a ++ (n, expr) :: b /\ same_name n (bs "IC-CertificateExpression") /\
    no_header (bs "IC-CertificateExpression") a /\ no_header (bs "IC-CertificateExpression") b.

(** [c] is what the certification constructors return for CEL expression [ce],
    request [rq] and response [rs]; a body hash given separately is that of the body. *)
Inductive made (H : bytes -> bytes) (uri_query : bytes -> option (option bytes)) : cel -> request -> response -> certification -> Prop :=
| MadeSkip rq rs : made H uri_query CelSkip rq rs (certify_skip H)
| MadeResponseOnly rc rq rs body_hash c :
    (body_hash = None \/ body_hash = Some (H (rs_body rs))) ->
    certify_response_only H rc rs body_hash = Some c -> made H uri_query (CelResponseOnly rc) rq rs c
| MadeFull qc rc rq rs body_hash c :
    (body_hash = None \/ body_hash = Some (H (rs_body rs))) ->
    certify_full H uri_query qc rc rq rs body_hash = Some c -> made H uri_query (CelFull qc rc) rq rs c.
(** the text a certification path was given as *)
Definition path_text (p : cert_path) : bytes := match p with PExact p | PWildcard p => p end.

(** Like [answers], but a wildcard may also be the request path with a slash
    added (the verifier accepts it, see C36). *)
Definition answers_or_slash (ops : list http_op) (p : cert_path) (path : bytes) : Prop :=
  match p with
  | PExact p => request_parts p = request_parts path
  | PWildcard p =>
      (matches (request_parts p) (request_parts path) \/ request_parts p = request_parts path ++ [[]]) /\
      ~ occupied ops (request_parts path ++ [bs "<$>"]) /\
      forall u, matches u (request_parts path) -> more_specific u (request_parts p) -> ~ occupied ops (u ++ [bs "<*>"])
  end.

(** Two responses agree on status, body and the headers [rc] covers, or the
    messages hashed for them contain an explicit collision. *)
Definition same_response (H : bytes -> bytes) (rc : response_cert) (r r0 : response) : Prop :=
  exists hs hs0, picks (covered rc) (rs_headers r) hs /\ picks (covered rc) (rs_headers r0) hs0 /\
  ((rs_status r = rs_status r0 /\ rs_body r = rs_body r0 /\ Permutation hs hs0) \/
   collision H (response_messages H r hs) (response_messages H r0 hs0)).
(** Two requests agree on method, body and the headers and query parameters [qc] covers. *)
Definition same_request (H : bytes -> bytes) (uri_query : bytes -> option (option bytes)) (qc : request_cert) (r r0 : request) : Prop :=
  exists q q0 hs hs0 fs fs0, uri_query (rq_url r) = Some q /\ uri_query (rq_url r0) = Some q0 /\
  picks (named_in (rc_headers qc)) (rq_headers r) hs /\ picks (named_in (rc_headers qc)) (rq_headers r0) hs0 /\
  covered_query qc q fs /\ covered_query qc q0 fs0 /\
  ((rq_method r = rq_method r0 /\ rq_body r = rq_body r0 /\ Permutation hs hs0 /\ fs = fs0) \/
   collision H (request_messages H r hs fs) (request_messages H r0 hs0 fs0)).
