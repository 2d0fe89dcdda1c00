(** Model of the errors JavaScript sees: /repo/packages/ic-response-verification/src/error.rs:187-350
    and /repo/packages/ic-response-verification-wasm/src/lib.rs:45-72.  An error code is its number in the
    enum (wasm_bindgen exports C-like enums by number).  The message is not modelled. *)
From Coq Require Import List NArith Bool.
From Verif Require Import Bytes Cbor HttpTypes Verify Errors JsBindings.
Import ListNotations.
Local Open Scope N_scope.

(** error.rs:187-252 [ResponseVerificationJsErrorCode] *)
Inductive js_error_code :=
| JsIoError
| JsUnsupportedVerificationVersion
| JsRequestedVerificationVersionMismatch
| JsCelError
| JsBase64DecodingError
| JsParseIntError
| JsInvalidTree
| JsInvalidExpressionPath
| JsUnexpectedExpressionPathPrefix
| JsUnexpectedExpressionPathSuffix
| JsExactExpressionPathNotFoundInTree
| JsExactExpressionPathMismatch
| JsExactExpressionPathMightExistInTree
| JsWildcardExpressionPathNotFoundInTree
| JsWildcardExpressionPathMismatch
| JsMoreSpecificWildcardExpressionMightExistInTree
| JsInvalidResponseBody
| JsInvalidResponseHashes
| JsMissingCertificate
| JsMissingTree
| JsMissingCertificateExpressionPath
| JsMissingCertificateExpression
| JsMissingCertification
| JsCborDecodingFailed
| JsCertificateVerificationFailed
| JsHttpCertificationError.
(** the discriminants *)
Definition discriminant (c : js_error_code) : N :=
  match c with
  | JsIoError => 0
  | JsUnsupportedVerificationVersion => 1
  | JsRequestedVerificationVersionMismatch => 2
  | JsCelError => 3
  | JsBase64DecodingError => 4
  | JsParseIntError => 5
  | JsInvalidTree => 6
  | JsInvalidExpressionPath => 7
  | JsUnexpectedExpressionPathPrefix => 8
  | JsUnexpectedExpressionPathSuffix => 9
  | JsExactExpressionPathNotFoundInTree => 10
  | JsExactExpressionPathMismatch => 11
  | JsExactExpressionPathMightExistInTree => 12
  | JsWildcardExpressionPathNotFoundInTree => 13
  | JsWildcardExpressionPathMismatch => 14
  | JsMoreSpecificWildcardExpressionMightExistInTree => 15
  | JsInvalidResponseBody => 16
  | JsInvalidResponseHashes => 17
  | JsMissingCertificate => 18
  | JsMissingTree => 19
  | JsMissingCertificateExpressionPath => 20
  | JsMissingCertificateExpression => 21
  | JsMissingCertification => 22
  | JsCborDecodingFailed => 23
  | JsCertificateVerificationFailed => 24
  | JsHttpCertificationError => 25
  end.
(** error.rs:270-350 [From<ResponseVerificationError> for ResponseVerificationJsError] *)
Definition js_code_of (e : rv_error) : js_error_code :=
  match e with
  | IoError => JsIoError
  | UnsupportedVerificationVersion _ _ _ => JsUnsupportedVerificationVersion
  | RequestedVerificationVersionMismatch _ _ => JsRequestedVerificationVersionMismatch
  | CelError => JsCelError
  | Base64DecodingError => JsBase64DecodingError
  | ParseIntError => JsParseIntError
  | InvalidTree => JsInvalidTree
  | InvalidExpressionPath => JsInvalidExpressionPath
  | UnexpectedExpressionPathPrefix _ => JsUnexpectedExpressionPathPrefix
  | UnexpectedExpressionPathSuffix _ => JsUnexpectedExpressionPathSuffix
  | ExactExpressionPathNotFoundInTree _ => JsExactExpressionPathNotFoundInTree
  | ExactExpressionPathMismatch _ _ => JsExactExpressionPathMismatch
  | ExactExpressionPathMightExistInTree _ _ _ => JsExactExpressionPathMightExistInTree
  | WildcardExpressionPathNotFoundInTree _ _ => JsWildcardExpressionPathNotFoundInTree
  | WildcardExpressionPathMismatch _ _ => JsWildcardExpressionPathMismatch
  | MoreSpecificWildcardExpressionMightExistInTree _ _ _ => JsMoreSpecificWildcardExpressionMightExistInTree
  | InvalidResponseBody => JsInvalidResponseBody
  | InvalidResponseHashes => JsInvalidResponseHashes
  | MissingCertificate => JsMissingCertificate
  | MissingTree => JsMissingTree
  | MissingCertificateExpressionPath => JsMissingCertificateExpressionPath
  | MissingCertificateExpression => JsMissingCertificateExpression
  | MissingCertification => JsMissingCertification
  | CborDecodingFailed => JsCborDecodingFailed
  | CertificateVerificationFailed _ => JsCertificateVerificationFailed
  | HttpCertificationError _ => JsHttpCertificationError
  end.
Section Entry.
  Variables (method_ok : bytes -> bool) (umod cap_max : N) (checked : bool) (H : bytes -> bytes) (ple : bytes -> bytes -> bool)
            (vs : bytes -> bytes -> bytes -> bool) (uri_path : bytes -> option bytes) (uri_query : bytes -> option (option bytes))
            (gunzip inflate : bytes -> option bytes).
  (** lib.rs:45-72 [verify_request_response_pair]: [RErr n] throws an error with the code [n]; [RPanic] is a trap *)
  Definition wasm_verify_e (rq rs : jsval) (canister_id : bytes) (now offset : N) (key : bytes) (min_version : N) : res N jsval :=
    match request_from_js method_ok rq, response_from_js rs with
    | OOk q, OOk r =>
        match verify_e umod cap_max checked H ple vs uri_path uri_query gunzip inflate q r canister_id now offset key min_version with
        | ROk i => ROk (js_of_info i)
        | RErr e => RErr (discriminant (js_code_of e))
        | RPanic => RPanic
        | RFuel => RFuel
        end
    | OFuel, _ => RFuel
    | OOk _, OFuel => RFuel
    | _, _ => RPanic
    end.
End Entry.
