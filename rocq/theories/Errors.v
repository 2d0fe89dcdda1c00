(** Which error the verifier reports: the same code as Verify.v, Header.v, V2.v
    and CertVerify.v, with the error values of
    /repo/packages/ic-response-verification/src/error.rs,
    /repo/packages/ic-certificate-verification/src/error.rs and
    /repo/packages/ic-http-certification/src/error.rs.  (The other model files
    have one error, [OErr]; Props_Errors.v proves that forgetting the error
    values here gives exactly those.) *)
From Coq Require Import List Arith NArith Bool.
From Verif Require Import Bytes Text Utf8 HashTree Cbor Base64 Leb128 HttpTypes HttpHash Cel Wildcard V2 CertVerify Header Verify.
Import ListNotations.
Local Open Scope N_scope.

(** ic-certificate-verification/src/error.rs:6-87.  The undecodable rest in
    [TimeDecodingFailed] and the CBOR error in [CCborDecodingFailed] are left out. *)
Inductive cert_error :=
| DerKeyLengthMismatch (expected actual : nat)
| DerPrefixMismatch (expected actual : bytes)
| TimeTooFarInTheFuture (certificate_time max_certificate_time : N)
| TimeTooFarInThePast (certificate_time min_certificate_time : N)
| PrincipalOutOfRange (canister_id : bytes) (canister_ranges : list (bytes * bytes))
| SubnetCanisterIdRangesNotFound (path : list bytes)
| SubnetPublicKeyNotFound (path : list bytes)
| MissingTimePathInTree (path : list bytes)
| TimeDecodingFailed
| SignatureVerificationFailed
| CCborDecodingFailed
| CertificateHasTooManyDelegations.
(** ic-http-certification/src/error.rs: the two that verification can meet *)
Inductive http_error := MalformedUrl (url : bytes) | Utf8ConversionError.
(** ic-response-verification/src/error.rs:13-182.  The payloads of [IoError],
    [CelError], [Base64DecodingError], [ParseIntError] and [CborDecodingFailed]
    (messages of the libraries) are left out. *)
Inductive rv_error :=
| IoError
| UnsupportedVerificationVersion (min_supported max_supported requested : N)
| RequestedVerificationVersionMismatch (min_requested requested : N)
| CelError
| Base64DecodingError
| ParseIntError
| InvalidTree
| InvalidExpressionPath
| UnexpectedExpressionPathPrefix (provided : list bytes)
| UnexpectedExpressionPathSuffix (provided : list bytes)
| ExactExpressionPathNotFoundInTree (provided : list bytes)
| ExactExpressionPathMismatch (provided : list bytes) (request_path : bytes)
| ExactExpressionPathMightExistInTree (provided potential : list bytes) (request_path : bytes)
| WildcardExpressionPathNotFoundInTree (provided : list bytes) (request_path : bytes)
| WildcardExpressionPathMismatch (provided : list bytes) (request_path : bytes)
| MoreSpecificWildcardExpressionMightExistInTree (provided more_specific : list bytes) (request_path : bytes)
| InvalidResponseBody
| InvalidResponseHashes
| MissingCertificate
| MissingTree
| MissingCertificateExpressionPath
| MissingCertificateExpression
| MissingCertification
| CborDecodingFailed
| CertificateVerificationFailed (e : cert_error)
| HttpCertificationError (e : http_error).

(** Result<A, E>, or a panic ([RFuel]: see [OFuel] in Cbor.v) *)
Inductive res (E A : Type) := ROk (a : A) | RErr (e : E) | RPanic | RFuel.
Arguments ROk {E A} a.
Arguments RErr {E A} e.
Arguments RPanic {E A}.
Arguments RFuel {E A}.
Definition rbind {E A B} (r : res E A) (f : A -> res E B) : res E B :=
  match r with ROk a => f a | RErr e => RErr e | RPanic => RPanic | RFuel => RFuel end.
Notation "'rok' x <- a ; b" := (rbind a (fun x => b)) (at level 100, x name, a at level 100, b at level 200, right associativity).
(** the [?] operator with [From]: errors of a callee become errors of the caller *)
Definition rmap_err {E E' A} (f : E -> E') (r : res E A) : res E' A :=
  match r with ROk a => ROk a | RErr e => RErr (f e) | RPanic => RPanic | RFuel => RFuel end.
(** a callee modelled with one error *)
Definition with_err {E A} (e : E) (o : out A) : res E A :=
  match o with OOk a => ROk a | OErr => RErr e | OPanic => RPanic | OFuel => RFuel end.
Definition forget {E A} (r : res E A) : out A :=
  match r with ROk a => OOk a | RErr _ => OErr | RPanic => OPanic | RFuel => OFuel end.

(** certificate_verification.rs:13-32 [extract_der] *)
Definition extract_der_e (buf : bytes) : res cert_error bytes :=
  let expected := (length der_prefix + key_length)%nat in
  if negb (Nat.eqb (length buf) expected) then RErr (DerKeyLengthMismatch expected (length buf))
  else
    let prefix := firstn (length der_prefix) buf in
    if negb (bytes_eqb prefix der_prefix) then RErr (DerPrefixMismatch der_prefix prefix)
    else ROk (skipn (length der_prefix) buf).

(** v2_validation.rs:95-132, the loop over the more specific wildcards and what
    follows it *)
Fixpoint first_might_exist (l : list (list bytes)) (t : htree) : option (list bytes) :=
  match l with
  | [] => None
  | w :: r => if path_might_exist (path_prefix :: w) t then Some (path_prefix :: w) else first_might_exist r t
  end.
(** v2_validation.rs:36-155 [validate_expr_path]; [from_utf8_lossy] of the
    segments is the identity, they are parts of UTF-8 strings cut at ASCII characters.
    ExactExpressionPathMismatch carries the segments of the request's exact path
    concatenated; WildcardExpressionPathMismatch the given path without its last segment. *)
Definition validate_expr_path_e (e : list bytes) (path : bytes) (t : htree) : res rv_error unit :=
  if negb (first_is e path_prefix) then RErr (UnexpectedExpressionPathPrefix e)
  else if negb (last_is e exact_terminator || last_is e wildcard_terminator) then RErr (UnexpectedExpressionPathSuffix e)
  else
    let parts := path_prefix :: request_parts path in
    let exact := parts ++ [exact_terminator] in
    if path_eqb e exact then
      if path_exists e t then ROk tt else RErr (ExactExpressionPathNotFoundInTree e)
    else if last_is e exact_terminator then RErr (ExactExpressionPathMismatch e (concat exact))
    else if path_might_exist exact t then RErr (ExactExpressionPathMightExistInTree e exact path)
    else if negb (wildcard_valid (removelast e) parts) then RErr (WildcardExpressionPathMismatch (removelast e) path)
    else
      match more_specific_wildcards_for parts e with
      | None => RFuel
      | Some l =>
          match first_might_exist l t with
          | Some w => RErr (MoreSpecificWildcardExpressionMightExistInTree e w path)
          | None => if path_exists e t then ROk tt else RErr (WildcardExpressionPathNotFoundInTree e path)
          end
      end.

Section Errors.
  Variables (umod cap_max : N) (checked : bool) (H : bytes -> bytes) (ple : bytes -> bytes -> bool)
            (vs : bytes -> bytes -> bytes -> bool).

  (** certificate_verification.rs:157-171 [verify_certificate_signature],
      signature_verification/mod.rs [verify_signature] *)
  Definition verify_certificate_signature_e (c : certificate) (der_key : bytes) : res cert_error unit :=
    let msg := ic_state_root_separator ++ digest H (c_tree c) in
    rok pk <- extract_der_e der_key;
    if vs pk (c_sig c) msg then ROk tt else RErr SignatureVerificationFailed.
  (** certificate_verification.rs:69-118 [verify_delegation] *)
  Definition verify_delegation_e (d : delegation) (canister_id root_key : bytes) : res cert_error bytes :=
    rok cert <- with_err CCborDecodingFailed (cert_from_cbor umod cap_max (d_cert d));
    match c_deleg cert with
    | Some _ => RErr CertificateHasTooManyDelegations
    | None =>
        rok _ <- verify_certificate_signature_e cert root_key;
        let ranges_path := [bs "subnet"; d_subnet d; bs "canister_ranges"] in
        match lookup_path ranges_path (c_tree cert) with
        | Found r =>
            if Nat.ltb 29 (length canister_id) then RPanic
            else
              rok ranges <- with_err CCborDecodingFailed (principals_from_cbor umod cap_max r);
              if negb (within_ranges ple canister_id ranges) then RErr (PrincipalOutOfRange canister_id ranges)
              else
                let key_path := [bs "subnet"; d_subnet d; bs "public_key"] in
                match lookup_path key_path (c_tree cert) with
                | Found k => ROk k
                | _ => RErr (SubnetPublicKeyNotFound key_path)
                end
        | _ => RErr (SubnetCanisterIdRangesNotFound ranges_path)
        end
    end.
  (** certificate_verification.rs:120-155 [verify_certificate_time] *)
  Definition verify_certificate_time_e (c : certificate) (now offset : N) : res cert_error unit :=
    match lookup_path [bs "time"] (c_tree c) with
    | Found enc =>
        match leb_read enc with
        | None => RErr TimeDecodingFailed
        | Some (t, _) =>
            rok mx <- with_err TimeDecodingFailed (add128 checked now offset);
            rok mn <- with_err TimeDecodingFailed (sub128 checked now offset);
            if mx <? t then RErr (TimeTooFarInTheFuture t mx)
            else if t <? mn then RErr (TimeTooFarInThePast t mn) else ROk tt
        end
    | _ => RErr (MissingTimePathInTree [bs "time"])
    end.
  (** certificate_verification.rs:50-67 [verify] *)
  Definition verify_certificate_e (c : certificate) (canister_id root_key : bytes) (now offset : N) : res cert_error unit :=
    rok _ <- verify_certificate_time_e c now offset;
    rok der_key <- match c_deleg c with
                   | Some d => verify_delegation_e d canister_id root_key
                   | None => ROk root_key
                   end;
    verify_certificate_signature_e c der_key.

  (** certificate_header.rs:117-127 and the decoding of each field *)
  Definition decode_b64_e (v : bytes) : res rv_error bytes := with_err Base64DecodingError (of_opt (b64_dec v)).
  Definition decode_certificate_e (v : bytes) : res rv_error certificate := rok b <- decode_b64_e v; with_err CborDecodingFailed (cert_from_cbor umod cap_max b).
  Definition decode_tree_e (v : bytes) : res rv_error htree := rok b <- decode_b64_e v; with_err CborDecodingFailed (tree_from_cbor umod cap_max b).
  Definition decode_expr_path_e (v : bytes) : res rv_error (list bytes) := rok b <- decode_b64_e v; with_err CborDecodingFailed (strings_from_cbor umod cap_max b).
  Definition decode_version_e (v : bytes) : res rv_error N := with_err ParseIntError (of_opt (parse_u8 v)).
  Definition fill_e {A} (slot : option A) (decode : bytes -> res rv_error A) (v : bytes) : res rv_error (option A) :=
    match slot with Some x => ROk (Some x) | None => rok a <- decode v; ROk (Some a) end.
  (** certificate_header.rs:37-98, one field *)
  Definition add_field_e (s : slots) (f : bytes) : res rv_error slots :=
    match header_field f with
    | None => ROk s
    | Some (name, v) =>
        if bytes_eqb name (bs "certificate") then
          rok c <- fill_e (s_cert s) decode_certificate_e v; ROk (mk_slots c (s_tree s) (s_version s) (s_path s))
        else if bytes_eqb name (bs "tree") then
          rok t <- fill_e (s_tree s) decode_tree_e v; ROk (mk_slots (s_cert s) t (s_version s) (s_path s))
        else if bytes_eqb name (bs "version") then
          rok n <- fill_e (s_version s) decode_version_e v; ROk (mk_slots (s_cert s) (s_tree s) n (s_path s))
        else if bytes_eqb name (bs "expr_path") then
          rok p <- fill_e (s_path s) decode_expr_path_e v; ROk (mk_slots (s_cert s) (s_tree s) (s_version s) p)
        else ROk s
    end.
  Fixpoint add_fields_e (s : slots) (fs : list bytes) : res rv_error slots :=
    match fs with [] => ROk s | f :: r => rok s1 <- add_field_e s f; add_fields_e s1 r end.
  (** certificate_header.rs:30-114 [CertificateHeader::from] *)
  Definition header_from_e (h : bytes) : res rv_error header :=
    rok s <- add_fields_e (mk_slots None None None None) (split_on "," h);
    match s_cert s with
    | None => RErr MissingCertificate
    | Some c =>
        match s_tree s with
        | None => RErr MissingTree
        | Some t => ROk (mk_header c t (match s_version s with Some n => n | None => 1 end) (s_path s))
        end
    end.

  Variables (uri_path : bytes -> option bytes) (uri_query : bytes -> option (option bytes)).
  Variables (gunzip inflate : bytes -> option bytes).
  (** http_request.rs:340-348 [get_path] *)
  Definition get_path_e (r : request) : res http_error bytes :=
    match uri_path (rq_url r) with
    | None => RErr (MalformedUrl (rq_url r))
    | Some p => let d := pct_decode p in if utf8_valid d then ROk d else RErr Utf8ConversionError
    end.
  (** body.rs:7-28 [decode_body] *)
  Definition decode_body_e (body : bytes) (encoding : option bytes) : res rv_error bytes :=
    match encoding with
    | Some e =>
        if bytes_eqb e (bs "gzip") then with_err IoError (of_opt (gunzip body))
        else if bytes_eqb e (bs "deflate") then with_err IoError (of_opt (inflate body))
        else ROk body
    | None => ROk body
    end.

  (** verify_request_response_pair.rs:118-165 [v1_verification] *)
  Definition v1_verification_e (rq : request) (rs : response) (canister_id : bytes) (now offset : N)
      (t : htree) (c : certificate) (encoding : option bytes) (key : bytes) : res rv_error info :=
    rok _ <- rmap_err CertificateVerificationFailed (verify_certificate_e c canister_id key now offset);
    rok path <- rmap_err HttpCertificationError (get_path_e rq);
    rok decoded <- decode_body_e (rs_body rs) encoding;
    if negb (validate_tree H canister_id c t) then RErr InvalidTree
    else
      let v0 := validate_body t path (H decoded) in
      let v1 := match encoding with
                | Some _ => if v0 then v0 else validate_body t path (H (rs_body rs))
                | None => v0
                end in
      if v1 then ROk (mk_info (Some (mk_verified None [] (rs_body rs))) 1) else RErr InvalidResponseBody.

  (** verify_request_response_pair.rs:181-272 [v2_verification]; hash/request_hash.rs:20-22:
      the only error of [request_hash] is that of [get_query] (http_request.rs:362-367) *)
  Definition v2_verification_e (rq : request) (rs : response) (canister_id : bytes) (now offset : N)
      (t : htree) (c : certificate) (e : list bytes) (expr_hash : bytes) (expr : cel) (key : bytes) : res rv_error info :=
    rok path <- rmap_err HttpCertificationError (get_path_e rq);
    rok _ <- rmap_err CertificateVerificationFailed (verify_certificate_e c canister_id key now offset);
    if negb (validate_tree H canister_id c t) then RErr InvalidTree
    else
      rok _ <- validate_expr_path_e e path t;
      let finish (rqc : option request_cert) (rsc : response_cert) :=
        rok rqh <- match rqc with
                   | Some x => rok h <- with_err (HttpCertificationError (MalformedUrl (rq_url rq))) (of_opt (request_hash H uri_query rq x)); ROk (Some h)
                   | None => ROk None
                   end;
        let body_hash := H (rs_body rs) in
        let fh := filter_response_headers rs rsc in
        let rsh := H (response_headers_hash H (rs_status rs) (fst fh) ++ body_hash) in
        if validate_hashes expr_hash rqh rsh e t expr then
          match snd fh with
          | None => RErr MissingCertification
          | Some ch => ROk (mk_info (Some (mk_verified (Some (rs_status rs)) (fst fh ++ [(certificate_header_name, ch)]) (rs_body rs))) 2)
          end
        else RErr InvalidResponseHashes in
      match expr with
      | CelSkip => match validate_expr_hash e expr_hash t with Some _ => ROk (mk_info None 2) | None => RErr InvalidExpressionPath end
      | CelResponseOnly rsc => finish None rsc
      | CelFull rqc rsc => finish (Some rqc) rsc
      end.

  (** verify_request_response_pair.rs:30-104 [verify_request_response_pair] *)
  Definition verify_e (rq : request) (rs : response) (canister_id : bytes) (now offset : N) (key : bytes) (min_version : N) : res rv_error info :=
    match header_get (lower certificate_header_name) (rs_headers rs) with
    | None => RErr MissingCertification
    | Some hv =>
        rok hd <- header_from_e hv;
        if h_version hd <? min_version then RErr (RequestedVerificationVersionMismatch min_version (h_version hd))
        else if h_version hd =? 1 then
          v1_verification_e rq rs canister_id now offset (h_tree hd) (h_cert hd) (header_get (bs "content-encoding") (rs_headers rs)) key
        else if h_version hd =? 2 then
          match header_get (lower cert_expr_header_name) (rs_headers rs) with
          | None => RErr MissingCertification
          | Some expr =>
              match h_expr_path hd with
              | None => RErr MissingCertificateExpressionPath
              | Some e =>
                  rok c <- with_err CelError (of_opt (cel_of_text expr));
                  v2_verification_e rq rs canister_id now offset (h_tree hd) (h_cert hd) e (H expr) c key
              end
          end
        else RErr (UnsupportedVerificationVersion 1 2 (h_version hd))
    end.
End Errors.
