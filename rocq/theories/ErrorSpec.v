(** Specification for C83 and C84: what is wrong when a given error is reported.
    In each group the checks are made in the order of the constructors. *)
From Coq Require Import List NArith Bool.
From Verif Require Import Bytes Text Utf8 HashTree HashTreeSpec Cbor CborSpec Leb128 Base64 HttpTypes HttpHash Cel V2 WildcardSpec
  CertVerify CertSpec Props_Cert Header HeaderSpec Verify VerifySpec Props_Verify Errors.
Import ListNotations.

Definition exact_of (path : bytes) : list bytes := bs "http_expr" :: request_parts path ++ [bs "<$>"].
Definition wild_of (v : list bytes) : list bytes := bs "http_expr" :: v ++ [bs "<*>"].
(** [v] matches the path (or is it with a slash added, which the code accepts, see C36) *)
Definition wild_ok (v : list bytes) (path : bytes) : Prop := matches v (request_parts path) \/ v = request_parts path ++ [[]].

(** The wildcards that must be absent before [v] is accepted: those matching the
    path that are more specific; and, for the path with a slash added, the path itself. *)
Definition tried (u v : list bytes) (path : bytes) : Prop :=
  (matches u (request_parts path) /\ more_specific u v) \/
  (u = request_parts path /\ v = request_parts path ++ [[]] /\ ~ dir (request_parts path)).

(** What is wrong with expression path [e] for a request to [path] and witness [t]. *)
Inductive path_fault (e : list bytes) (path : bytes) (t : htree) : rv_error -> Prop :=
| FPrefix : (forall r, e <> bs "http_expr" :: r) -> path_fault e path t (UnexpectedExpressionPathPrefix e)
| FSuffix r : e = bs "http_expr" :: r -> (forall q, e <> q ++ [bs "<$>"]) -> (forall q, e <> q ++ [bs "<*>"]) ->
    path_fault e path t (UnexpectedExpressionPathSuffix e)
| FExactMissing : e = exact_of path -> (forall s, lookup_subtree e t <> SFound s) ->
    path_fault e path t (ExactExpressionPathNotFoundInTree e)
| FExactOther q : e = bs "http_expr" :: q ++ [bs "<$>"] -> q <> request_parts path ->
    path_fault e path t (ExactExpressionPathMismatch e (concat (exact_of path)))
| FExactPossible v : e = wild_of v -> lookup_subtree (exact_of path) t <> SAbsent ->
    path_fault e path t (ExactExpressionPathMightExistInTree e (exact_of path) path)
| FWildOther v : e = wild_of v -> lookup_subtree (exact_of path) t = SAbsent -> ~ wild_ok v path ->
    path_fault e path t (WildcardExpressionPathMismatch (bs "http_expr" :: v) path)
| FMoreSpecific v u : e = wild_of v -> lookup_subtree (exact_of path) t = SAbsent -> wild_ok v path ->
    tried u v path -> lookup_subtree (wild_of u) t <> SAbsent ->
    (forall u', tried u' v path -> more_specific u' u -> lookup_subtree (wild_of u') t = SAbsent) ->
    path_fault e path t (MoreSpecificWildcardExpressionMightExistInTree e (wild_of u) path)
| FWildMissing v : e = wild_of v -> lookup_subtree (exact_of path) t = SAbsent -> wild_ok v path ->
    (forall u, tried u v path -> lookup_subtree (wild_of u) t = SAbsent) ->
    (forall s, lookup_subtree e t <> SFound s) ->
    path_fault e path t (WildcardExpressionPathNotFoundInTree e path).

(** A key that is not a DER-wrapped BLS key, a signature that is not valid. *)
Inductive signature_fault (H : bytes -> bytes) (vs : bytes -> bytes -> bytes -> bool) (c : certificate) (key : bytes) : cert_error -> Prop :=
| SLength : length key <> 133 -> signature_fault H vs c key (DerKeyLengthMismatch 133 (length key))
| SPrefix pre pk : key = pre ++ pk -> length pre = 37 -> length pk = 96 -> pre <> der_header ->
    signature_fault H vs c key (DerPrefixMismatch der_header pre)
| SInvalid pk : der_of key pk -> vs pk (c_sig c) (state_root_message (digest H (c_tree c))) = false ->
    signature_fault H vs c key SignatureVerificationFailed.

Section CertFault.
  Variables (umod cap_max : N) (H : bytes -> bytes) (ple : bytes -> bytes -> bool) (vs : bytes -> bytes -> bytes -> bool).
  Definition not_found (p : list bytes) (t : htree) : Prop := forall v, lookup_path p t <> Found v.
  Inductive delegation_fault (d : delegation) (canister_id root_key : bytes) : cert_error -> Prop :=
  | DCbor : cert_from_cbor umod cap_max (d_cert d) = OErr -> delegation_fault d canister_id root_key CCborDecodingFailed
  | DNested dc d' : cert_from_cbor umod cap_max (d_cert d) = OOk dc -> c_deleg dc = Some d' ->
      delegation_fault d canister_id root_key CertificateHasTooManyDelegations
  | DSignature dc x : cert_from_cbor umod cap_max (d_cert d) = OOk dc -> c_deleg dc = None -> signature_fault H vs dc root_key x ->
      delegation_fault d canister_id root_key x
  | DNoRanges dc : cert_from_cbor umod cap_max (d_cert d) = OOk dc -> c_deleg dc = None -> signed_by H vs root_key dc ->
      not_found (subnet_path (d_subnet d) (bs "canister_ranges")) (c_tree dc) ->
      delegation_fault d canister_id root_key (SubnetCanisterIdRangesNotFound (subnet_path (d_subnet d) (bs "canister_ranges")))
  | DRangesCbor dc enc : cert_from_cbor umod cap_max (d_cert d) = OOk dc -> c_deleg dc = None -> signed_by H vs root_key dc ->
      lookup_path (subnet_path (d_subnet d) (bs "canister_ranges")) (c_tree dc) = Found enc -> principals_from_cbor umod cap_max enc = OErr ->
      delegation_fault d canister_id root_key CCborDecodingFailed
  | DOutOfRange dc enc ranges : cert_from_cbor umod cap_max (d_cert d) = OOk dc -> c_deleg dc = None -> signed_by H vs root_key dc ->
      lookup_path (subnet_path (d_subnet d) (bs "canister_ranges")) (c_tree dc) = Found enc -> principals_from_cbor umod cap_max enc = OOk ranges ->
      (forall lo hi, In (lo, hi) ranges -> ~ (ple lo canister_id = true /\ ple canister_id hi = true)) ->
      delegation_fault d canister_id root_key (PrincipalOutOfRange canister_id ranges)
  | DNoKey dc enc ranges lo hi : cert_from_cbor umod cap_max (d_cert d) = OOk dc -> c_deleg dc = None -> signed_by H vs root_key dc ->
      lookup_path (subnet_path (d_subnet d) (bs "canister_ranges")) (c_tree dc) = Found enc -> principals_from_cbor umod cap_max enc = OOk ranges ->
      In (lo, hi) ranges -> ple lo canister_id = true -> ple canister_id hi = true ->
      not_found (subnet_path (d_subnet d) (bs "public_key")) (c_tree dc) ->
      delegation_fault d canister_id root_key (SubnetPublicKeyNotFound (subnet_path (d_subnet d) (bs "public_key"))).
  (** the time a certificate states *)
  Definition states_time (c : certificate) (t : N) : Prop :=
    exists enc rest, lookup_path [bs "time"] (c_tree c) = Found enc /\ leb_read enc = Some (t, rest).
  Definition time_in (c : certificate) (now offset : N) : Prop := exists t, states_time c t /\ (now - offset <= t <= now + offset)%N.
  Inductive cert_fault (c : certificate) (canister_id root_key : bytes) (now offset : N) : cert_error -> Prop :=
  | CNoTime : not_found [bs "time"] (c_tree c) -> cert_fault c canister_id root_key now offset (MissingTimePathInTree [bs "time"])
  | CBadTime enc : lookup_path [bs "time"] (c_tree c) = Found enc -> leb_read enc = None -> cert_fault c canister_id root_key now offset TimeDecodingFailed
  | CFuture t : states_time c t -> (now + offset < t)%N -> cert_fault c canister_id root_key now offset (TimeTooFarInTheFuture t (now + offset))
  | CPast t : states_time c t -> (t < now - offset)%N -> cert_fault c canister_id root_key now offset (TimeTooFarInThePast t (now - offset))
  | CDelegation d x : time_in c now offset -> c_deleg c = Some d -> delegation_fault d canister_id root_key x -> cert_fault c canister_id root_key now offset x
  | CSignature key x : time_in c now offset ->
      (c_deleg c = None /\ key = root_key \/ exists d, c_deleg c = Some d /\ delegation_valid umod cap_max H ple vs canister_id root_key d key) ->
      signature_fault H vs c key x -> cert_fault c canister_id root_key now offset x.

  (** ** The certificate header *)
  (** [v] is not a version number *)
  Definition not_a_version (v : bytes) : Prop := forall n, (n <= 255)%N -> forall ds, v = ds \/ v = bs "+" ++ ds -> ~ decimal ds n.
  (** what is wrong with a field *)
  Inductive field_fault : bytes -> bytes -> rv_error -> Prop :=
  | FfBase64 n v : In n [bs "certificate"; bs "tree"; bs "expr_path"] -> b64_dec v = None -> field_fault n v Base64DecodingError
  | FfCertificate v b : b64_dec v = Some b -> cert_from_cbor umod cap_max b = OErr -> field_fault (bs "certificate") v CborDecodingFailed
  | FfTree v b : b64_dec v = Some b -> tree_from_cbor umod cap_max b = OErr -> field_fault (bs "tree") v CborDecodingFailed
  | FfExprPath v b : b64_dec v = Some b -> strings_from_cbor umod cap_max b = OErr -> field_fault (bs "expr_path") v CborDecodingFailed
  | FfVersion v : not_a_version v -> field_fault (bs "version") v ParseIntError.
  (** the field decodes, or is not one that is decoded *)
  Definition field_fine (n v : bytes) : Prop :=
    (n = bs "certificate" -> exists c, decode_certificate umod cap_max v = OOk c) /\
    (n = bs "tree" -> exists t, decode_tree umod cap_max v = OOk t) /\
    (n = bs "version" -> exists k, decode_version v = OOk k) /\
    (n = bs "expr_path" -> exists p, decode_expr_path umod cap_max v = OOk p).
  (** [f], coming after [l], is the first field called [n] and says [v] *)
  Definition live (l : list bytes) (f n v : bytes) : Prop := says f n v /\ forall g u, In g l -> ~ says g n u.
  Definition all_fine (fs : list bytes) : Prop := forall l f r n v, fs = l ++ f :: r -> live l f n v -> field_fine n v.
  Inductive header_fault (h : bytes) : rv_error -> Prop :=
  | HField l f r n v x : split_on "," h = l ++ f :: r -> all_fine l -> live l f n v -> field_fault n v x -> header_fault h x
  | HNoCertificate : all_fine (split_on "," h) -> no_field h (bs "certificate") -> header_fault h MissingCertificate
  | HNoTree : all_fine (split_on "," h) -> (exists v, first_field h (bs "certificate") v) -> no_field h (bs "tree") -> header_fault h MissingTree.
End CertFault.

(** ** The whole verification *)
Section Fault.
  Variables (umod cap_max : N) (checked : bool) (H : bytes -> bytes) (ple : bytes -> bytes -> bool) (vs : bytes -> bytes -> bytes -> bool)
            (uri_path : bytes -> option bytes) (uri_query : bytes -> option (option bytes)) (gunzip inflate : bytes -> option bytes)
            (rq : request) (rs : response) (canister_id : bytes) (now offset : N) (key : bytes) (min_version : N).
  Definition genuine (hd : header) : Prop := verify_certificate umod cap_max checked H ple vs (h_cert hd) canister_id key now offset = OOk tt.
  (** the witness has the root hash the certificate certifies for the canister *)
  Definition witness_certified (hd : header) : Prop :=
    lookup_path (certified_data_path canister_id) (c_tree (h_cert hd)) = Found (digest H (h_tree hd)).
  Inductive url_fault : http_error -> Prop :=
  | UMalformed : uri_path (rq_url rq) = None -> url_fault (MalformedUrl (rq_url rq))
  | UUtf8 p d : uri_path (rq_url rq) = Some p -> pct_decodes p d -> utf8_valid d = false -> url_fault Utf8ConversionError.
  Inductive v1_fault (hd : header) : rv_error -> Prop :=
  | V1Certificate x : cert_fault umod cap_max H ple vs (h_cert hd) canister_id key now offset x -> v1_fault hd (CertificateVerificationFailed x)
  | V1Url x : genuine hd -> url_fault x -> v1_fault hd (HttpCertificationError x)
  | V1Body path enc : genuine hd -> path_of uri_path rq path -> encoding_of (rs_headers rs) enc ->
      (forall d, ~ decoded_body gunzip inflate enc (rs_body rs) d) -> v1_fault hd IoError
  | V1Tree path enc d : genuine hd -> path_of uri_path rq path -> encoding_of (rs_headers rs) enc -> decoded_body gunzip inflate enc (rs_body rs) d ->
      ~ witness_certified hd -> v1_fault hd InvalidTree
  | V1Mismatch path enc d : genuine hd -> path_of uri_path rq path -> encoding_of (rs_headers rs) enc -> decoded_body gunzip inflate enc (rs_body rs) d ->
      witness_certified hd -> ~ shown_sha (h_tree hd) path (H d) -> ~ shown_sha (h_tree hd) path (H (rs_body rs)) ->
      v1_fault hd InvalidResponseBody.
  Inductive v2_fault (hd : header) : rv_error -> Prop :=
  | V2NoExpression : no_header (bs "IC-CertificateExpression") (rs_headers rs) -> v2_fault hd MissingCertification
  | V2NoPath expr : last_header (bs "IC-CertificateExpression") (rs_headers rs) expr -> h_expr_path hd = None -> v2_fault hd MissingCertificateExpressionPath
  | V2Cel expr e : last_header (bs "IC-CertificateExpression") (rs_headers rs) expr -> h_expr_path hd = Some e -> cel_of_text expr = None -> v2_fault hd CelError
  | V2Checks expr e c x : last_header (bs "IC-CertificateExpression") (rs_headers rs) expr -> h_expr_path hd = Some e -> cel_of_text expr = Some c ->
      check_fault hd expr e c x -> v2_fault hd x
  with check_fault (hd : header) : bytes -> list bytes -> cel -> rv_error -> Prop :=
  | V2Url expr e c x : url_fault x -> check_fault hd expr e c (HttpCertificationError x)
  | V2Certificate expr e c path x : path_of uri_path rq path -> cert_fault umod cap_max H ple vs (h_cert hd) canister_id key now offset x ->
      check_fault hd expr e c (CertificateVerificationFailed x)
  | V2Tree expr e c path : path_of uri_path rq path -> genuine hd -> ~ witness_certified hd -> check_fault hd expr e c InvalidTree
  | V2Path expr e c path x : path_of uri_path rq path -> genuine hd -> witness_certified hd -> path_fault e path (h_tree hd) x -> check_fault hd expr e c x
  | V2Skip expr e path : path_of uri_path rq path -> genuine hd -> witness_certified hd -> validate_expr_path e path (h_tree hd) = true ->
      (forall s, lookup_subtree (e ++ [H expr]) (h_tree hd) <> SFound s) -> check_fault hd expr e CelSkip InvalidExpressionPath
  | V2Query expr e qc rc path : path_of uri_path rq path -> genuine hd -> witness_certified hd -> validate_expr_path e path (h_tree hd) = true ->
      uri_query (rq_url rq) = None -> check_fault hd expr e (CelFull qc rc) (HttpCertificationError (MalformedUrl (rq_url rq)))
  | V2Response expr e rc path : path_of uri_path rq path -> genuine hd -> witness_certified hd -> validate_expr_path e path (h_tree hd) = true ->
      lookup_subtree (e ++ [H expr; []; response_hash H rs rc None]) (h_tree hd) <> SFound (HLeaf []) ->
      check_fault hd expr e (CelResponseOnly rc) InvalidResponseHashes
  | V2Full expr e qc rc path h : path_of uri_path rq path -> genuine hd -> witness_certified hd -> validate_expr_path e path (h_tree hd) = true ->
      request_hash H uri_query rq qc = Some h ->
      lookup_subtree (e ++ [H expr; h; response_hash H rs rc None]) (h_tree hd) <> SFound (HLeaf []) ->
      check_fault hd expr e (CelFull qc rc) InvalidResponseHashes.
  Inductive fault : rv_error -> Prop :=
  | NoHeader : no_header (bs "IC-Certificate") (rs_headers rs) -> fault MissingCertification
  | BadHeader v x : last_header (bs "IC-Certificate") (rs_headers rs) v -> header_fault umod cap_max v x -> fault x
  | OldVersion v hd : last_header (bs "IC-Certificate") (rs_headers rs) v -> header_from umod cap_max v = OOk hd -> (h_version hd < min_version)%N ->
      fault (RequestedVerificationVersionMismatch min_version (h_version hd))
  | Version1 v hd x : last_header (bs "IC-Certificate") (rs_headers rs) v -> header_from umod cap_max v = OOk hd -> (min_version <= h_version hd)%N ->
      h_version hd = 1%N -> v1_fault hd x -> fault x
  | Version2 v hd x : last_header (bs "IC-Certificate") (rs_headers rs) v -> header_from umod cap_max v = OOk hd -> (min_version <= h_version hd)%N ->
      h_version hd = 2%N -> v2_fault hd x -> fault x
  | OtherVersion v hd : last_header (bs "IC-Certificate") (rs_headers rs) v -> header_from umod cap_max v = OOk hd -> (min_version <= h_version hd)%N ->
      h_version hd <> 1%N -> h_version hd <> 2%N -> fault (UnsupportedVerificationVersion 1 2 (h_version hd)).
End Fault.
