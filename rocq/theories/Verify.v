(** Model of /repo/packages/ic-response-verification/src/verification/verify_request_response_pair.rs,
    verification/body.rs, validation/common_validation.rs and validation/v1_validation.rs, and of
    [HttpRequest::get_path] in /repo/packages/ic-http-certification/src/http/http_request.rs. *)
From Coq Require Import List Arith NArith Lia Bool.
From Verif Require Import Bytes Text Utf8 HashTree Cbor HttpTypes HttpHash Cel Wildcard V2 CertVerify Header.
Import ListNotations.
Local Open Scope N_scope.

(** urlencoding::decode_binary (crate urlencoding, not in /repo; from its published source):
    '%' followed by two hexadecimal digits is a byte, any other '%' stands for itself *)
Definition hex_val (b : byte) : option N :=
  let n := b2n b in
  if (48 <=? n) && (n <=? 57) then Some (n - 48)
  else if (65 <=? n) && (n <=? 70) then Some (n - 55)
  else if (97 <=? n) && (n <=? 102) then Some (n - 87)
  else None.
Fixpoint pct_decode (s : bytes) : bytes :=
  match s with
  | [] => []
  | b :: r =>
      match r with
      | x :: y :: r' =>
          match (if byte_eqb b "%" then hex_val x else None), hex_val y with
          | Some h, Some l => n2b (16 * h + l) :: pct_decode r'
          | _, _ => b :: pct_decode r
          end
      | _ => b :: pct_decode r
      end
  end.

(** types/verified_response.rs [VerifiedResponse], types/verification_result.rs [VerificationInfo] *)
Record verified := mk_verified { v_status : option N; v_headers : list (bytes * bytes); v_body : bytes }.
Record info := mk_info { i_response : option verified; i_version : N }.

(** common_validation.rs:3-24 [validate_tree] *)
Definition validate_tree (H : bytes -> bytes) (canister_id : bytes) (c : certificate) (t : htree) : bool :=
  match lookup_path [bs "canister"; canister_id; bs "certified_data"] (c_tree c) with
  | Found d => bytes_eqb d (digest H t)
  | _ => false
  end.

(** v1_validation.rs:3-24 [validate_body] *)
Definition validate_body (t : htree) (request_path sha : bytes) : bool :=
  match lookup_path [bs "http_assets"; request_path] t with
  | Found v => bytes_eqb sha v
  | _ =>
      match lookup_path [bs "http_assets"; bs "/index.html"] t with
      | Found v => bytes_eqb sha v
      | _ => false
      end
  end.

(** verify_request_response_pair.rs:39-43, [headers.get]: a HashMap keeps the last value of a
    lower-cased name.  [k.to_lowercase()] is ASCII here: no character outside
    ASCII lower-cases to a letter of the three names looked up. *)
Fixpoint header_get (name : bytes) (hs : list (bytes * bytes)) : option bytes :=
  match hs with
  | [] => None
  | (n, v) :: r =>
      match header_get name r with
      | Some x => Some x
      | None => if bytes_eqb (lower n) name then Some v else None
      end
  end.

Section Verify.
  Variables (umod cap_max : N) (checked : bool) (H : bytes -> bytes) (ple : bytes -> bytes -> bool)
            (vs : bytes -> bytes -> bytes -> bool).
  (** [Uri::from_str(url)] then [path()] / [query()] (http crate, not in /repo) *)
  Variables (uri_path : bytes -> option bytes) (uri_query : bytes -> option (option bytes)).
  (** reading a gzip or deflate stream to its end (flate2 crate, not in /repo); [None] is an io error *)
  Variables (gunzip inflate : bytes -> option bytes).

  (** http_request.rs:340-348 [get_path] *)
  Definition get_path (r : request) : out bytes :=
    match uri_path (rq_url r) with
    | None => OErr
    | Some p => let d := pct_decode p in if utf8_valid d then OOk d else OErr
    end.

  (** body.rs:7-28 [decode_body], [body_from_decoder] (whose loop concatenates the reads) *)
  Definition decode_body (body : bytes) (encoding : option bytes) : out bytes :=
    match encoding with
    | Some e =>
        if bytes_eqb e (bs "gzip") then of_opt (gunzip body)
        else if bytes_eqb e (bs "deflate") then of_opt (inflate body)
        else OOk body
    | None => OOk body
    end.

  (** verify_request_response_pair.rs:118-165 [v1_verification] *)
  Definition v1_verification (rq : request) (rs : response) (canister_id : bytes) (now offset : N)
      (t : htree) (c : certificate) (encoding : option bytes) (key : bytes) : out info :=
    ok _ <- verify_certificate umod cap_max checked H ple vs c canister_id key now offset;
    ok path <- get_path rq;
    ok decoded <- decode_body (rs_body rs) encoding;
    if negb (validate_tree H canister_id c t) then OErr
    else
      let v0 := validate_body t path (H decoded) in
      let v1 := match encoding with
                | Some _ => if v0 then v0 else validate_body t path (H (rs_body rs))
                | None => v0
                end in
      if v1 then OOk (mk_info (Some (mk_verified None [] (rs_body rs))) 1) else OErr.

  (** verify_request_response_pair.rs:181-272 [v2_verification] *)
  Definition v2_verification (rq : request) (rs : response) (canister_id : bytes) (now offset : N)
      (t : htree) (c : certificate) (e : list bytes) (expr_hash : bytes) (expr : cel) (key : bytes) : out info :=
    ok path <- get_path rq;
    ok _ <- verify_certificate umod cap_max checked H ple vs c canister_id key now offset;
    if negb (validate_tree H canister_id c t) then OErr
    else if negb (validate_expr_path e path t) then OErr
    else
      let finish (rqc : option request_cert) (rsc : response_cert) :=
        ok rqh <- match rqc with
                  | Some x => ok h <- of_opt (request_hash H uri_query rq x); OOk (Some h)
                  | None => OOk None
                  end;
        let body_hash := H (rs_body rs) in
        let fh := filter_response_headers rs rsc in
        let rsh := H (response_headers_hash H (rs_status rs) (fst fh) ++ body_hash) in
        if validate_hashes expr_hash rqh rsh e t expr then
          match snd fh with
          | None => OErr
          | Some ch => OOk (mk_info (Some (mk_verified (Some (rs_status rs)) (fst fh ++ [(certificate_header_name, ch)]) (rs_body rs))) 2)
          end
        else OErr in
      match expr with
      | CelSkip => match validate_expr_hash e expr_hash t with Some _ => OOk (mk_info None 2) | None => OErr end
      | CelResponseOnly rsc => finish None rsc
      | CelFull rqc rsc => finish (Some rqc) rsc
      end.

  (** verify_request_response_pair.rs:30-104 [verify_request_response_pair] *)
  Definition verify (rq : request) (rs : response) (canister_id : bytes) (now offset : N) (key : bytes) (min_version : N) : out info :=
    match header_get (lower certificate_header_name) (rs_headers rs) with
    | None => OErr
    | Some hv =>
        ok hd <- header_from umod cap_max hv;
        if h_version hd <? min_version then OErr
        else if h_version hd =? 1 then
          v1_verification rq rs canister_id now offset (h_tree hd) (h_cert hd) (header_get (bs "content-encoding") (rs_headers rs)) key
        else if h_version hd =? 2 then
          match header_get (lower cert_expr_header_name) (rs_headers rs) with
          | None => OErr
          | Some expr =>
              match h_expr_path hd with
              | None => OErr
              | Some e =>
                  ok c <- of_opt (cel_of_text expr);
                  v2_verification rq rs canister_id now offset (h_tree hd) (h_cert hd) e (H expr) c key
              end
          end
        else OErr
    end.
End Verify.
