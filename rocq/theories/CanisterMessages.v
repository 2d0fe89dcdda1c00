(** Model of the texts ([Display], derived by thiserror from the #[error(..)] attributes) of the errors of
    /repo/packages/ic-certificate-verification/src/error.rs:6-80,
    /repo/packages/ic-http-certification/src/error.rs:9-57 (the errors of CanisterErrors.v) and
    /repo/packages/ic-asset-certification/src/error.rs:5-25, and of the bytes that [TimeDecodingFailed] carries.
    The texts of principals ([Display] and [Debug] of candid's Principal), of FromUtf8Error and of globset's errors
    are parameters. *)
From Coq Require Import List NArith Bool.
From Verif Require Import Bytes Text Leb128 HashTree Cbor AssetRouter Errors Messages CanisterErrors.
Import ListNotations.
Local Open Scope N_scope.

(** [{:?}] of a [Vec<u8>] and of a [Vec<Vec<u8>>] *)
Definition debug_bytes (l : bytes) : bytes := debug_vec (map (fun b => dec (b2n b)) l).
Definition debug_path (p : list bytes) : bytes := debug_vec (map debug_bytes p).
Section CertMessages.
  Variables (shown debugged : bytes -> bytes) (timestamp : bytes).
  Definition debug_range (r : bytes * bytes) : bytes := bs "(" ++ debugged (fst r) ++ bs ", " ++ debugged (snd r) ++ bs ")".
  (** ic-certificate-verification/src/error.rs:6-80; [timestamp] is the payload of [TimeDecodingFailed] *)
  Definition cert_message (e : cert_error) : bytes :=
    match e with
    | DerKeyLengthMismatch expected actual =>
        bs "BLS DER-encoded public key must be " ++ dec (N.of_nat expected) ++ bs " bytes long, but is " ++ dec (N.of_nat actual) ++ bs " bytes long"
    | DerPrefixMismatch expected actual =>
        bs "BLS DER-encoded public key is invalid. Expected the following prefix: " ++ debug_bytes expected ++ bs ", but got " ++ debug_bytes actual
    | TimeTooFarInTheFuture t mx =>
        bs "Certificate time is too far in the future. Received " ++ dec t ++ bs ", expected " ++ dec mx ++ bs " or earlier"
    | TimeTooFarInThePast t mn =>
        bs "Certificate time is too far in the past. Received " ++ dec t ++ bs ", expected " ++ dec mn ++ bs " or later"
    | PrincipalOutOfRange id ranges =>
        bs "Canister ID " ++ shown id ++ bs " is not within the certificate's range: " ++ debug_vec (map debug_range ranges)
    | SubnetCanisterIdRangesNotFound p => bs "Subnet canister ID ranges not found in certificate at path: " ++ debug_path p
    | SubnetPublicKeyNotFound p => bs "Subnet public key not found in certificate at path: " ++ debug_path p
    | MissingTimePathInTree p => bs "Time not found in certificate at path: " ++ debug_path p
    | TimeDecodingFailed => bs "Certificate time decoding failed due to an overflow: " ++ debug_bytes timestamp
    | SignatureVerificationFailed => bs "Signature verification failed"
    | CCborDecodingFailed => bs "CBOR decoding failed"
    | CertificateHasTooManyDelegations => bs "The certificate contained more than one delegation"
    end.
End CertMessages.

(** What the reader of Leb128.v leaves unread: leb128 0.2.5 reads an overflowing number to its last byte before it
    reports the overflow.  At the end of the input nothing is left. *)
Fixpoint leb_skip (i : bytes) : bytes := match i with [] => [] | b :: r => if b2n b <? 128 then r else leb_skip r end.
Fixpoint leb_left_f (i : bytes) (shift : N) : bytes :=
  match i with
  | [] => []
  | b :: r =>
      if (shift =? 63) && negb (b2n b =? 0) && negb (b2n b =? 1) then if b2n b <? 128 then r else leb_skip r
      else if b2n b <? 128 then r else leb_left_f r (shift + 7)
  end.
Definition leb_left (i : bytes) : bytes := leb_left_f i 0.
(** certificate_verification.rs:128-141: [leb128::read::unsigned(&mut encoded_certificate_time)] moves
    [encoded_certificate_time] to what it leaves, and [timestamp] is that slice *)
Definition time_failure (c : certificate) : option bytes :=
  match lookup_path [bs "time"] (c_tree c) with
  | Found enc => match leb_read enc with None => Some (leb_left enc) | Some _ => None end
  | _ => None
  end.

Section CanisterMessages.
  Variables (utf8_text : bytes) (glob_text : bytes -> bytes).
  (** ic-http-certification/src/error.rs:9-57 *)
  Definition canister_message (e : canister_error) : bytes :=
    match e with
    | UrlError e => http_message utf8_text e
    | WildcardPathNotValidForRequestPath w r =>
        bs "Wildcard path """ ++ w ++ bs """ is too specific for request path """ ++ r ++ bs """, use a less specific wildcard path"
    | CertificateExpressionHeaderMismatch expected actual =>
        bs "The IC-CertificateExpression header in the response did not match the Cel expression used to certify the response. Expected: """ ++ expected ++
        bs """, Actual: """ ++ actual ++ quote
    | CertificateExpressionHeaderMissing expected =>
        bs "The IC-CertificateExpression header was missing from the response. Expected: """ ++ expected ++ quote
    | MultipleCertificateExpressionHeaders expected =>
        bs "The IC-CertificateExpression header in the response contained multiple values. Expected only one: """ ++ expected ++ quote
    end.
  (** ic-asset-certification/src/error.rs:5-25 *)
  Definition asset_message (e : asset_error) : bytes :=
    match e with
    | NoAssetMatchingRequestUrl u => bs "No asset was found matching the current request url: " ++ u
    | CertificationError e => bs "HTTP Certification Error: """ ++ canister_message e ++ quote
    | GlobsetError p => bs "Glob error: " ++ glob_text p
    | RequestError t => bs "Request error: " ++ t
    end.
End CanisterMessages.
