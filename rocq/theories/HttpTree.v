(** Model of /repo/packages/ic-http-certification/src/tree/{certification,certification_tree,
    certification_tree_entry,certification_tree_path}.rs and utils/{skip_certification,response_header}.rs. *)
From Coq Require Import List Arith NArith Lia Bool.
From Verif Require Import Bytes Text HashTree RbTree Nested Cbor HttpTypes HttpHash Cel Wildcard V2 Header.
Import ListNotations.

(** certification_tree_path.rs:10-14,29-49 [HttpCertificationPath], [exact], [wildcard] *)
Inductive cert_path := PExact (p : bytes) | PWildcard (p : bytes).

(** certification_tree_path.rs:77-91 [path_to_segments] *)
Definition path_to_segments (path terminator : bytes) : list bytes :=
  let segments := filter (fun e => negb (is_nil e)) (split_on "/" path) in
  let segments := if ends_with_slash path then segments ++ [[]] else segments in
  segments ++ [terminator].
(** certification_tree_path.rs:51-60 [to_tree_path] *)
Definition path_tree_path (p : cert_path) : list bytes :=
  match p with
  | PExact p => path_to_segments p exact_terminator
  | PWildcard p => path_to_segments p wildcard_terminator
  end.
(** certification_tree_path.rs:93-110 [path_to_string_segments] *)
Definition path_to_string_segments (path terminator : bytes) : list bytes :=
  let segments := [path_prefix] ++ filter (fun e => negb (is_nil e)) (split_on "/" path) in
  let segments := if ends_with_slash path then segments ++ [[]] else segments in
  segments ++ [terminator].
(** certification_tree_path.rs:66-75 [to_expr_path] *)
Definition expr_path (p : cert_path) : list bytes :=
  match p with
  | PExact p => path_to_string_segments p exact_terminator
  | PWildcard p => path_to_string_segments p wildcard_terminator
  end.

(** certification.rs:11-40 [HttpCertificationType], [HttpCertification] *)
Inductive certification :=
| CSkip (expr_hash : bytes)
| CResponseOnly (expr_hash response_hash : bytes)
| CFull (expr_hash request_hash response_hash : bytes).
(** certification.rs:92-113 [to_tree_path] *)
Definition cert_tree_path (c : certification) : list bytes :=
  match c with
  | CSkip eh => [eh]
  | CResponseOnly eh rsh => [eh; []; rsh]
  | CFull eh rqh rsh => [eh; rqh; rsh]
  end.

(** certification.rs:115-153 [validate_response]; [false] is any of its three errors.  The loop
    carries [found_header].  [to_lowercase] is ASCII here: no character outside
    ASCII lower-cases to a letter of the name compared with. *)
Fixpoint validate_headers (hs : list (bytes * bytes)) (cel_expr : bytes) (found : bool) : bool :=
  match hs with
  | [] => found
  | (n, v) :: r =>
      if bytes_eqb (lower n) (lower cert_expr_header_name) then
        if bytes_eqb v cel_expr then if found then false else validate_headers r cel_expr true
        else false
      else validate_headers r cel_expr found
  end.
Definition validate_response (rs : response) (cel_expr : bytes) : bool := validate_headers (rs_headers rs) cel_expr false.

(** certification_tree_entry.rs:19-48 [HttpCertificationTreeEntry], [to_tree_path] *)
Record entry := mk_entry { en_path : cert_path; en_certification : certification }.
Definition entry_tree_path (en : entry) : list bytes := path_tree_path (en_path en) ++ cert_tree_path (en_certification en).

Section HttpTree.
  Variables (H : bytes -> bytes) (uri_query : bytes -> option (option bytes)).

  (** certification.rs:45-50 [skip] *)
  Definition certify_skip : certification := CSkip (H (print_cel CelSkip)).
  (** certification.rs:54-69 [response_only]; [None] is the error *)
  Definition certify_response_only (rc : response_cert) (rs : response) (body_hash : option bytes) : option certification :=
    let cel_expr := print_cel (CelResponseOnly rc) in
    if validate_response rs cel_expr then Some (CResponseOnly (H cel_expr) (response_hash H rs rc body_hash)) else None.
  (** certification.rs:73-90 [full] *)
  Definition certify_full (qc : request_cert) (rc : response_cert) (rq : request) (rs : response) (body_hash : option bytes) : option certification :=
    let cel_expr := print_cel (CelFull qc rc) in
    if validate_response rs cel_expr then
      match request_hash H uri_query rq qc with
      | Some rqh => Some (CFull (H cel_expr) rqh (response_hash H rs rc body_hash))
      | None => None
      end
    else None.

  (** certification_tree.rs:43-45 [root_hash]; ic_certification::labeled_hash *)
  Definition http_root_hash (t : ntree) : bytes := labeled_hash H path_prefix (nhash H t).
  (** certification_tree.rs:50-68 [insert], [delete], [clear] *)
  Inductive http_op := HInsert (en : entry) | HDelete (en : entry) | HClear.
  Definition http_nop (o : http_op) : nop :=
    match o with
    | HInsert en => NInsert (entry_tree_path en) []
    | HDelete en => NDelete (entry_tree_path en)
    | HClear => NClear
    end.
  Definition http_run (ops : list http_op) : option ntree := nrun H (map http_nop ops) ndefault.

  Fixpoint merge_all (t : ntree) (acc : htree) (paths : list (list bytes)) : out htree :=
    match paths with
    | [] => OOk acc
    | p :: r =>
        match nwitness H p t with
        | None => OPanic
        | Some w => match merge acc w with None => OPanic | Some m => merge_all t m r end
        end
    end.
  (** certification_tree.rs:74-108 [witness] *)
  Definition http_witness (t : ntree) (en : entry) (request_url : bytes) : out htree :=
    ok w <- match en_path en with
            | PExact _ => match nwitness H (entry_tree_path en) t with Some w => OOk w | None => OPanic end
            | PWildcard _ =>
                let requested := path_tree_path (PExact request_url) in
                let responding := path_tree_path (en_path en) in
                if (length requested <? length responding)%nat then OErr
                else
                  match nwitness H requested t, nwitness H responding t with
                  | Some w1, Some w2 =>
                      match merge w1 w2 with
                      | None => OPanic
                      | Some w =>
                          match more_specific_wildcards_for requested responding with
                          | None => OFuel
                          | Some l => merge_all t w l
                          end
                      end
                  | _, _ => OPanic
                  end
            end;
    OOk (HLabeled path_prefix w).
End HttpTree.

(** response_header.rs:73-90 [add_v2_certificate_header]; http_response.rs:579-581 [add_header] *)
Definition add_header (rs : response) (h : bytes * bytes) : response :=
  mk_response (rs_status rs) (rs_headers rs ++ [h]) (rs_body rs).
Definition add_v2_certificate_header (data_certificate : bytes) (rs : response) (witness : htree) (e : list bytes) : response :=
  add_header rs (certificate_header_name, v2_certificate_header data_certificate witness e).

(** skip_certification.rs:78-90 [skip_certification_asset_tree] *)
Definition skip_tree (H : bytes -> bytes) : htree :=
  HLabeled (bs "http_expr") (HLabeled (bs "<*>") (HLabeled (H (print_cel CelSkip)) (HLeaf []))).
(** skip_certification.rs:74-76 [skip_certification_certified_data] *)
Definition skip_certified_data (H : bytes -> bytes) : bytes := digest H (skip_tree H).
(** skip_certification.rs:47-59 [add_skip_certification_header] *)
Definition add_skip_certification_header (H : bytes -> bytes) (data_certificate : bytes) (rs : response) : response :=
  add_header (add_v2_certificate_header data_certificate rs (skip_tree H) (expr_path (PWildcard [])))
    (cert_expr_header_name, print_cel CelSkip).
