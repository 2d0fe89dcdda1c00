(** Which error a canister gets from certifying and serving: the same code as HttpTree.v and AssetRouter.v, with the
    error values of /repo/packages/ic-http-certification/src/error.rs and
    /repo/packages/ic-asset-certification/src/error.rs.  (Those files have one error; Props_CanisterErrors.v proves
    that forgetting the error values here gives exactly those.) *)
From Coq Require Import List Arith NArith Bool.
From Verif Require Import Bytes Text Utf8 HashTree RbTree Nested Cbor HttpTypes HttpHash Cel Wildcard V2 Header Verify HttpTree AssetRouter Errors.
Import ListNotations.
Local Open Scope N_scope.

(** ic-http-certification/src/error.rs:9-57, without [InvalidHttpStatusCode] that nothing in the package returns *)
Inductive canister_error :=
| UrlError (e : http_error)
| WildcardPathNotValidForRequestPath (wildcard_path request_path : bytes)
| CertificateExpressionHeaderMismatch (expected actual : bytes)
| CertificateExpressionHeaderMissing (expected : bytes)
| MultipleCertificateExpressionHeaders (expected : bytes).
(** ic-asset-certification/src/error.rs:5-25; of the error of the globset library only the pattern is kept *)
Inductive asset_error :=
| NoAssetMatchingRequestUrl (request_url : bytes)
| CertificationError (e : canister_error)
| GlobsetError (pattern : bytes)
| RequestError (text : bytes).

(** certification.rs:115-153 [validate_response] *)
Fixpoint validate_headers_e (hs : list (bytes * bytes)) (cel_expr : bytes) (found : bool) : res canister_error unit :=
  match hs with
  | [] => if found then ROk tt else RErr (CertificateExpressionHeaderMissing cel_expr)
  | (n, v) :: r =>
      if bytes_eqb (lower n) (lower cert_expr_header_name) then
        if bytes_eqb v cel_expr then
          if found then RErr (MultipleCertificateExpressionHeaders cel_expr) else validate_headers_e r cel_expr true
        else RErr (CertificateExpressionHeaderMismatch cel_expr v)
      else validate_headers_e r cel_expr found
  end.
Definition validate_response_e (rs : response) (cel_expr : bytes) : res canister_error unit := validate_headers_e (rs_headers rs) cel_expr false.

(** [str::parse::<usize>] (core::num): the three errors of an unsigned number and their texts *)
Inductive int_error := IntEmpty | IntInvalidDigit | IntPosOverflow.
Definition int_text (e : int_error) : bytes :=
  match e with
  | IntEmpty => bs "cannot parse integer from empty string"
  | IntInvalidDigit => bs "invalid digit found in string"
  | IntPosOverflow => bs "number too large to fit in target type"
  end.
Fixpoint digits_below_e (umod : N) (s : bytes) (acc : N) : res int_error N :=
  match s with
  | [] => ROk acc
  | b :: r => match digit b with
              | None => RErr IntInvalidDigit
              | Some d => if acc * 10 + d <? umod then digits_below_e umod r (acc * 10 + d) else RErr IntPosOverflow
              end
  end.
Definition parse_usize_e (umod : N) (s : bytes) : res int_error N :=
  match s with
  | [] => RErr IntEmpty
  | _ => match drop_opt "+" s with [] => RErr IntInvalidDigit | s' => digits_below_e umod s' 0 end
  end.
(** asset_router.rs:135-168 [parse_range_header_str]; the error is its text *)
Definition parse_range_e (umod : N) (range_str : bytes) : res bytes (N * option N) :=
  let s := trim range_str in
  let quoted := bs "'" ++ range_str ++ bs "'" in
  match strip_prefix (bs "bytes=") s with
  | None => RErr (bs "Invalid Range header " ++ quoted)
  | Some _ =>
      match split_on "-" (trim_with [bs "bytes="] (length s) s) with
      | [b; e] =>
          rok rb <- rmap_err (fun x => bs "Malformed range_begin in Range header " ++ quoted ++ bs ": " ++ int_text x) (parse_usize_e umod b);
          rok re <- match e with
                    | [] => ROk None
                    | _ => rok n <- rmap_err (fun x => bs "Malformed range_end in Range header " ++ quoted ++ bs ": " ++ int_text x) (parse_usize_e umod e); ROk (Some n)
                    end;
          if match re with Some x => x | None => umod - 1 end <? rb then RErr (bs "Invalid values in Range header " ++ quoted) else ROk (rb, re)
      | _ => RErr (bs "Invalid Range header " ++ quoted)
      end
  end.
(** asset_router.rs:191-199 [maybe_get_range_begin] *)
Definition maybe_get_range_begin_e (umod : N) (rq : request) : res asset_error (option N) :=
  match first_header (bs "range") (rq_headers rq) with
  | Some v => rok r <- rmap_err RequestError (parse_range_e umod v); ROk (Some (fst r))
  | None => ROk None
  end.

Section CanisterErrors.
  Variables (cs : N) (H : bytes -> bytes) (uri_path : bytes -> option bytes) (uri_query : bytes -> option (option bytes))
            (glob : bytes -> option (bytes -> bool)) (umod : N).

  (** hash/request_hash.rs:20-22 and http_request.rs:362-367: the error of [request_hash] *)
  Definition request_hash_e (rq : request) (qc : request_cert) : res canister_error bytes :=
    with_err (UrlError (MalformedUrl (rq_url rq))) (of_opt (request_hash H uri_query rq qc)).
  (** certification.rs:54-69 [response_only] *)
  Definition certify_response_only_e (rc : response_cert) (rs : response) (body_hash : option bytes) : res canister_error certification :=
    let cel_expr := print_cel (CelResponseOnly rc) in
    rok _ <- validate_response_e rs cel_expr;
    ROk (CResponseOnly (H cel_expr) (response_hash H rs rc body_hash)).
  (** certification.rs:73-90 [full] *)
  Definition certify_full_e (qc : request_cert) (rc : response_cert) (rq : request) (rs : response) (body_hash : option bytes) : res canister_error certification :=
    let cel_expr := print_cel (CelFull qc rc) in
    rok _ <- validate_response_e rs cel_expr;
    rok rqh <- request_hash_e rq qc;
    ROk (CFull (H cel_expr) rqh (response_hash H rs rc body_hash)).
  (** certification_tree.rs:74-108 [witness]; [http_witness] has one error *)
  Definition http_witness_e (t : ntree) (en : entry) (request_url : bytes) : res canister_error htree :=
    with_err (WildcardPathNotValidForRequestPath (match en_path en with PExact p | PWildcard p => p end) request_url) (http_witness H t en request_url).

  (** asset_router.rs:220-245 [serve_asset] and 394-458 [get_asset_for_request] *)
  Definition serve_asset_e (sort : list (bytes * N) -> list (bytes * N)) (st : router) (data_certificate : bytes) (rq : request) : res asset_error response :=
    let preferred := get_preferred_encodings sort rq in
    rok path <- rmap_err (fun e => CertificationError (UrlError e)) (get_path_e uri_path rq);
    rok range <- maybe_get_range_begin_e umod rq;
    match get_asset_for_request cs st path preferred range with
    | None => RErr (NoAssetMatchingRequestUrl path)
    | Some (_, c) =>
        rok w <- rmap_err CertificationError (http_witness_e (r_tree st) (ca_entry c) path);
        ROk (add_v2_certificate_header data_certificate (ca_response c) w (expr_path (en_path (ca_entry c))))
    end.

  (** asset_router.rs:852-887 [prepare_response_and_certification] *)
  Definition prepare_response_e (url : bytes) (status : N) (body : bytes) (additional : list (bytes * bytes))
      (request_headers : list bytes) : res asset_error (response * certification) :=
    let qc := mk_request_cert request_headers [] in
    let rc := HeaderExclusions [] in
    let headers := (bs "content-length", dec (N.of_nat (length body))) :: additional ++
                   [(cert_expr_header_name, print_cel (CelFull qc rc))] in
    let rq := mk_request (bs "GET") url [] [] in
    let rs := mk_response status headers body in
    rok c <- rmap_err CertificationError (certify_full_e qc rc rq rs None);
    ROk (rs, c).
  (** asset_router.rs:809-850 [prepare_asset_response_and_certification] *)
  Definition prepare_asset_response_e (a : asset) (additional : list (bytes * bytes)) (content_type : option bytes)
      (enc : option encoding) (range : option N) (status : option N) : res asset_error (response * certification) :=
    let headers := additional ++
      match content_type with Some t => [(bs "content-type", t)] | None => [] end ++
      match enc with Some e => [(bs "content-encoding", encoding_name e)] | None => [] end in
    match range with
    | Some b =>
        let total := N.of_nat (length (as_content a)) in
        let e := N.min (b + cs) total - 1 in
        prepare_response_e (as_url a) 206 (slice b (e + 1) (as_content a))
          (headers ++ [(bs "content-range", bs "bytes " ++ dec b ++ bs "-" ++ dec e ++ bs "/" ++ dec total)])
          [bs "range"]
    | None => prepare_response_e (as_url a) (match status with Some s => s | None => 200 end) (as_content a) headers []
    end.
  (** asset_router.rs:647-672 [prepare_static_asset], 723-748 [prepare_fallback_asset], 780-807 [prepare_redirect] *)
  Definition prepare_static_e (a : asset) (content_type : option bytes) (additional : list (bytes * bytes))
      (enc : option encoding) (range : option N) : res asset_error certified :=
    rok x <- prepare_asset_response_e a additional content_type enc range None;
    ROk (mk_certified (fst x) (mk_entry (PExact (as_url a)) (snd x))).
  Definition prepare_fallback_e (a : asset) (additional : list (bytes * bytes)) (content_type : option bytes)
      (fb : fallback_config) (enc : option encoding) : res asset_error certified :=
    rok x <- prepare_asset_response_e a additional content_type enc None (fb_status fb);
    ROk (mk_certified (fst x) (mk_entry (PWildcard (fb_scope fb)) (snd x))).
  Definition prepare_redirect_e (from to : bytes) (kind : redirect_kind) : res asset_error certified :=
    rok x <- prepare_response_e from (match kind with Permanent => 301 | Temporary => 307 end) [] [(bs "location", to)] [];
    ROk (mk_certified (fst x) (mk_entry (PExact from) (snd x))).

  (** A method on [&mut self] returning a Result: the state afterwards, also when it fails. *)
  Definition eact := router -> router * res asset_error unit.
  Definition edone : eact := fun st => (st, ROk tt).
  Definition eseq (a b : eact) : eact := fun st => let (st1, o) := a st in match o with ROk _ => b st1 | _ => (st1, o) end.
  Fixpoint eeach {A} (f : A -> eact) (l : list A) : eact := match l with [] => edone | x :: r => eseq (f x) (eeach f r) end.
  Definition eattempt {A} (o : res asset_error A) (f : A -> eact) : eact :=
    match o with ROk a => f a | RErr e => fun st => (st, RErr e) | RPanic => fun st => (st, RPanic) | RFuel => fun st => (st, RFuel) end.
  (** steps that cannot fail with an error: changes of the tree and of the maps *)
  Definition silent (a : act) : eact := fun st => (fst (a st), match snd (a st) with OOk u => ROk u | OFuel => RFuel | _ => RPanic end).

  (** asset_router.rs:576-614 [insert_static_asset] *)
  Definition insert_static_e (a : asset) (content_type : option bytes) (additional : list (bytes * bytes)) (enc : option encoding) : eact :=
    let insert_one range :=
      eattempt (prepare_static_e a content_type additional enc range) (fun c =>
        eseq (silent (tree_act H (HInsert (ca_entry c))))
             (silent (on_responses (m_insert key_eqb (mk_key (as_url a) (encoding_str enc) range) c)))) in
    let total := N.of_nat (length (as_content a)) in
    eseq (if cs <? total then eeach (fun b => insert_one (Some b)) (range_begins cs total) else edone) (insert_one None).
  (** asset_router.rs:616-645 [delete_static_asset] *)
  Definition delete_static_e (a : asset) (content_type : option bytes) (additional : list (bytes * bytes)) (enc : option encoding) : eact :=
    eattempt (prepare_static_e a content_type additional enc None) (fun c =>
      eseq (silent (tree_act H (HDelete (ca_entry c))))
      (eseq (silent (on_responses (m_remove key_eqb (mk_key (as_url a) (encoding_str enc) None))))
            (let len := N.of_nat (length (rs_body (ca_response c))) in
             if cs <? len
             then eeach (fun b => silent (on_responses (m_remove key_eqb (mk_key (as_url a) (encoding_str enc) (Some b))))) (range_begins cs len)
             else edone))).
  (** asset_router.rs:674-696 [insert_fallback_asset], 698-721 [delete_fallback_asset] *)
  Definition insert_fallback_e (a : asset) (content_type : option bytes) (additional : list (bytes * bytes)) (fb : fallback_config) (enc : option encoding) : eact :=
    eattempt (prepare_fallback_e a additional content_type fb enc) (fun c =>
      eseq (silent (tree_act H (HInsert (ca_entry c)))) (silent (on_fallbacks (m_insert key_eqb (mk_key (fb_scope fb) (encoding_str enc) None) c)))).
  Definition delete_fallback_e (a : asset) (content_type : option bytes) (additional : list (bytes * bytes)) (fb : fallback_config) (enc : option encoding) : eact :=
    eattempt (prepare_fallback_e a additional content_type fb enc) (fun c =>
      eseq (silent (tree_act H (HDelete (ca_entry c)))) (silent (on_fallbacks (m_remove key_eqb (mk_key (fb_scope fb) (encoding_str enc) None))))).
  (** asset_router.rs:750-764 [insert_redirect], 766-778 [delete_redirect] *)
  Definition insert_redirect_e (from to : bytes) (kind : redirect_kind) : eact :=
    eattempt (prepare_redirect_e from to kind) (fun c =>
      eseq (silent (tree_act H (HInsert (ca_entry c)))) (silent (on_responses (m_insert key_eqb (mk_key from None None) c)))).
  Definition delete_redirect_e (from to : bytes) (kind : redirect_kind) : eact :=
    eattempt (prepare_redirect_e from to kind) (fun c =>
      eseq (silent (tree_act H (HDelete (ca_entry c)))) (silent (on_responses (m_remove key_eqb (mk_key from None None))))).
  (** asset_router.rs:460-516 [certify_asset_impl], 518-574 [delete_asset_impl] *)
  Definition certify_asset_e (a : asset) (c : option config) (enc : option encoding) : eact :=
    match c with
    | Some (NPattern _ ct hs _) => insert_static_e a ct hs enc
    | Some (NFile _ ct hs fbs als _) =>
        eseq (insert_static_e a ct hs enc)
        (eseq (eeach (fun fb => insert_fallback_e a ct hs fb enc) fbs)
              (eeach (fun u => insert_static_e (aliased a u) ct hs enc) als))
    | _ => insert_static_e a None [] enc
    end.
  Definition delete_asset_e (a : asset) (c : option config) (enc : option encoding) : eact :=
    match c with
    | Some (NPattern _ ct hs _) => delete_static_e a ct hs enc
    | Some (NFile _ ct hs fbs als _) =>
        eseq (delete_static_e a ct hs enc)
        (eseq (eeach (fun fb => delete_fallback_e a ct hs fb enc) fbs)
              (eeach (fun u => delete_static_e (aliased a u) ct hs enc) als))
    | _ => delete_static_e a None [] enc
    end.
  (** asset_config.rs:541-577 [TryFrom<AssetConfig>], collected: the first error wins *)
  Definition normalize_e (c : asset_config) : res asset_error config :=
    match c with
    | ConfigFile p ct hs fbs als encs => ROk (NFile p ct hs fbs als encs)
    | ConfigPattern p ct hs encs => match glob p with Some m => ROk (NPattern m ct hs encs) | None => RErr (GlobsetError p) end
    | ConfigRedirect f t k => ROk (NRedirect f t k)
    end.
  Fixpoint normalize_all_e (l : list asset_config) : res asset_error (list config) :=
    match l with
    | [] => ROk []
    | c :: r => rok n <- normalize_e c; rok ns <- normalize_all_e r; ROk (n :: ns)
    end.
  (** asset_router.rs:291-312, 345-366 *)
  Definition asset_acts_e (f : asset -> option config -> option encoding -> eact) (m : list (bytes * asset)) (cfgs : list config) (a : asset) : eact :=
    let c := find (fun x => matches_asset x a) cfgs in
    eseq (eeach (fun x => match m_get bytes_eqb (as_path a ++ snd x) m with
                          | Some ea => f (aliased ea (as_url a)) c (Some (fst x))
                          | None => edone
                          end) (encodings_of c))
         (f a c None).
  (** asset_router.rs:276-320 [certify_assets], 330-376 [delete_assets] *)
  Definition certify_assets_e (order : list asset -> list asset) (assets : list asset) (configs : list asset_config) : eact :=
    eattempt (normalize_all_e configs) (fun cfgs =>
      let m := asset_map assets in
      eseq (eeach (asset_acts_e certify_asset_e m cfgs) (order (map snd m)))
           (eeach (fun c => match c with NRedirect f t k => insert_redirect_e f t k | _ => edone end) cfgs)).
  Definition delete_assets_e (order : list asset -> list asset) (assets : list asset) (configs : list asset_config) : eact :=
    eattempt (normalize_all_e configs) (fun cfgs =>
      let m := asset_map assets in
      eseq (eeach (asset_acts_e delete_asset_e m cfgs) (order (map snd m)))
           (eeach (fun c => match c with NRedirect f t k => delete_redirect_e f t k | _ => edone end) cfgs)).
End CanisterErrors.
