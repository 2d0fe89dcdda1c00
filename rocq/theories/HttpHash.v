(** Model of /repo/packages/ic-http-certification/src/hash/{request_hash,response_hash}.rs. *)
From Coq Require Import List Arith NArith Lia Bool.
From Verif Require Import Bytes Text RiHash HttpTypes.
Import ListNotations.

(** response_hash.rs:6,9,11 and the literals of request_hash.rs:16,25 *)
Definition certificate_header_name : bytes := bs "IC-Certificate".
Definition cert_expr_header_name : bytes := bs "IC-CertificateExpression".
Definition status_pseudo_header : bytes := bs ":ic-cert-status".
Definition method_pseudo_header : bytes := bs ":ic-cert-method".
Definition query_pseudo_header : bytes := bs ":ic-cert-query".

Section HttpHash.
  Variable H : bytes -> bytes.
  (** [Uri::from_str(url)] followed by [query()] (http crate, not in /repo):
      [None] when the URL does not parse. *)
  Variable uri_query : bytes -> option (option bytes).

  Definition listed (l : list bytes) (name : bytes) : bool := existsb (fun x => eq_nocase x name) l.

  (** response_hash.rs:24-84 [filter_response_headers]; the first component is
      [headers], the second [certificate] (each certificate header overwrites it) *)
  Definition headers_filter (c : response_cert) (name : bytes) : bool :=
    match c with
    | CertifiedHeaders l => listed l name
    | HeaderExclusions l => negb (listed l name)
    end.
  Fixpoint filter_loop (c : response_cert) (hs : list (bytes * bytes)) (cert : option bytes)
    : list (bytes * bytes) * option bytes :=
    match hs with
    | [] => ([], cert)
    | (n, v) :: r =>
        if eq_nocase n certificate_header_name then filter_loop c r (Some v)
        else
          let (out, cert') := filter_loop c r cert in
          if eq_nocase n cert_expr_header_name then ((lower n, v) :: out, cert')
          else if headers_filter c n then ((lower n, v) :: out, cert')
          else (out, cert')
    end.
  Definition filter_response_headers (r : response) (c : response_cert) : list (bytes * bytes) * option bytes :=
    filter_loop c (rs_headers r) None.

  (** response_hash.rs:89-107 [response_headers_hash] *)
  Definition status_entries (status : N) (hs : list (bytes * bytes)) : list (bytes * value) :=
    map (fun h => (fst h, VString (snd h))) hs ++ [(status_pseudo_header, VNumber status)].
  Definition response_headers_hash (status : N) (hs : list (bytes * bytes)) : bytes :=
    ri_hash H (status_entries status hs).

  (** response_hash.rs:115-130 [response_hash] *)
  Definition response_hash (r : response) (c : response_cert) (body_hash : option bytes) : bytes :=
    let bh := match body_hash with Some h => h | None => H (rs_body r) end in
    H (response_headers_hash (rs_status r) (fst (filter_response_headers r c)) ++ bh).

  (** request_hash.rs:35-60 [get_filtered_headers] *)
  Definition filtered_request_headers (hs : list (bytes * bytes)) (c : request_cert) : list (bytes * value) :=
    map (fun h => (lower (fst h), VString (snd h))) (filter (fun h => listed (rc_headers c) (fst h)) hs).
  (** request_hash.rs:62-84 [get_filtered_query] *)
  Definition query_param_name (fragment : bytes) : bytes :=
    match split_on "="%byte fragment with p :: _ => p | [] => [] end.
  Definition filtered_query (q : bytes) (c : request_cert) : bytes :=
    join ["&"%byte] (filter (fun f => listed (rc_query c) (query_param_name f)) (split_on "&"%byte q)).
  (** request_hash.rs:8-33 [request_hash]; [None] is the MalformedUrl error *)
  Definition request_entries (r : request) (c : request_cert) (q : option bytes) : list (bytes * value) :=
    filtered_request_headers (rq_headers r) c ++
    [(method_pseudo_header, VString (rq_method r))] ++
    match q with Some q => [(query_pseudo_header, VString (filtered_query q c))] | None => [] end.
  Definition request_hash (r : request) (c : request_cert) : option bytes :=
    match uri_query (rq_url r) with
    | None => None
    | Some q => Some (H (ri_hash H (request_entries r c q) ++ H (rq_body r)))
    end.
End HttpHash.
