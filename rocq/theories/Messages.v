(** Model of the texts of the verifier's errors ([Display], derived by thiserror from the #[error(..)] attributes
    of /repo/packages/ic-response-verification/src/error.rs:13-182 and /repo/packages/ic-http-certification/src/error.rs:9-17),
    which JavaScript callers get as [message] (error.rs:262-266, 344-349).

    [{:?}] of a string ([Debug] of [str], core::fmt) writes it in quotes, with a backslash before quotes and
    backslashes, \0 \t \r \n, and \u{..} for characters that are not printable or extend a grapheme: those tables of
    the standard library are the parameter [plain].  [{:?}] of a [Vec] writes the elements between brackets.
    The texts of errors of other libraries inside [IoError] and [Utf8ConversionError] are the parameters [io_text]
    and [utf8_text]; the other errors from libraries are not shown by their messages. *)
From Coq Require Import List NArith Bool Hexadecimal.
From Verif Require Import Bytes Text Utf8 Utf8Spec AssetRouter Errors JsErrors Cbor HttpTypes Verify JsBindings.
Import ListNotations.
Local Open Scope N_scope.

(** lower-case hexadecimal digits, core::char::EscapeUnicode *)
Fixpoint hex_bytes (u : Hexadecimal.uint) : bytes :=
  match u with
  | Hexadecimal.Nil => []
  | Hexadecimal.D0 u => "0"%byte :: hex_bytes u | Hexadecimal.D1 u => "1"%byte :: hex_bytes u | Hexadecimal.D2 u => "2"%byte :: hex_bytes u | Hexadecimal.D3 u => "3"%byte :: hex_bytes u
  | Hexadecimal.D4 u => "4"%byte :: hex_bytes u | Hexadecimal.D5 u => "5"%byte :: hex_bytes u | Hexadecimal.D6 u => "6"%byte :: hex_bytes u | Hexadecimal.D7 u => "7"%byte :: hex_bytes u
  | Hexadecimal.D8 u => "8"%byte :: hex_bytes u | Hexadecimal.D9 u => "9"%byte :: hex_bytes u | Hexadecimal.Da u => "a"%byte :: hex_bytes u | Hexadecimal.Db u => "b"%byte :: hex_bytes u
  | Hexadecimal.Dc u => "c"%byte :: hex_bytes u | Hexadecimal.Dd u => "d"%byte :: hex_bytes u | Hexadecimal.De u => "e"%byte :: hex_bytes u | Hexadecimal.Df u => "f"%byte :: hex_bytes u
  end.
Definition hex (c : N) : bytes := hex_bytes (N.to_hex_uint c).
Definition quote : bytes := bs """".
Definition backslash : bytes := bs "\".
(** the characters of a string; strings are UTF-8 *)
Definition chars (s : bytes) : list N := match utf8_decode s with Some cs => cs | None => [] end.
(** [{:?}] of a [Vec] *)
Definition debug_vec (l : list bytes) : bytes := bs "[" ++ join (bs ", ") l ++ bs "]".
Section Messages.
  Variables (plain : N -> bool) (io_text utf8_text : bytes).
  (** char::escape_debug_ext as used by [Debug] of [str]: double quotes escaped, single quotes not *)
  Definition debug_char (c : N) : bytes :=
    if c =? 0 then backslash ++ bs "0"
    else if c =? 9 then backslash ++ bs "t"
    else if c =? 13 then backslash ++ bs "r"
    else if c =? 10 then backslash ++ bs "n"
    else if c =? 34 then backslash ++ quote
    else if c =? 92 then backslash ++ backslash
    else if plain c then utf8_of c
    else backslash ++ bs "u{" ++ hex c ++ bs "}".
  Definition debug_str (s : bytes) : bytes := quote ++ flat_map debug_char (chars s) ++ quote.
  Definition debug_strs (l : list bytes) : bytes := debug_vec (map debug_str l).

  (** ic-http-certification/src/error.rs:9-17 *)
  Definition http_message (e : http_error) : bytes :=
    match e with
    | MalformedUrl url => bs "Failed to parse url: """ ++ url ++ quote
    | Utf8ConversionError => bs "Error converting UTF8 string bytes: """ ++ utf8_text ++ quote
    end.
  (** ic-response-verification/src/error.rs:13-182; the quotes after http_expr and <*> in two of the texts are
      missing in the source too *)
  Definition message (e : rv_error) : bytes :=
    match e with
    | IoError => bs "IO error: """ ++ io_text ++ quote
    | UnsupportedVerificationVersion mn mx v =>
        bs "The requested verification version " ++ dec v ++ bs " is not supported, the current supported range is " ++ dec mn ++ bs "-" ++ dec mx
    | RequestedVerificationVersionMismatch mn v =>
        bs "The requested verification version " ++ dec v ++ bs " is lower than the minimum requested version " ++ dec mn
    | CelError => bs "Cel parser error"
    | Base64DecodingError => bs "Base64 decoding error"
    | ParseIntError => bs "Error parsing int"
    | InvalidTree => bs "Invalid tree root hash"
    | InvalidExpressionPath => bs "Invalid expression path"
    | UnexpectedExpressionPathPrefix p =>
        bs "The expression path provided by the ""IC-Certificate"" response header (" ++ debug_strs p ++ bs ") has an unexpected prefix and should start with ""http_expr"
    | UnexpectedExpressionPathSuffix p =>
        bs "The expression path provided by the ""IC-Certificate"" response header (" ++ debug_strs p ++ bs ") has an unexpected suffix and should end with ""<$>"" or ""<*>"
    | ExactExpressionPathNotFoundInTree p =>
        bs "The exact expression path provided by the ""IC-Certificate"" response header (" ++ debug_strs p ++ bs ") was not found in the tree"
    | ExactExpressionPathMismatch p r =>
        bs "The exact expression path provided by the ""IC-Certificate"" response header (" ++ debug_strs p ++ bs ") is not valid for the request path (" ++ debug_str r ++ bs ")"
    | ExactExpressionPathMightExistInTree p q r =>
        bs "A wildcard expression path was provided by the ""IC-Certificate"" response header (" ++ debug_strs p ++ bs "), but a potential exact expression path (" ++ debug_strs q ++
        bs ") is valid for the request path (" ++ debug_str r ++ bs ") and might exist in the tree"
    | WildcardExpressionPathNotFoundInTree p r =>
        bs "The wildcard expression path provided by the ""IC-Certificate"" response header (" ++ debug_strs p ++ bs ") is valid for the request path (" ++ debug_str r ++ bs "), but was not found in the tree"
    | WildcardExpressionPathMismatch p r =>
        bs "The wildcard expression path provided by the ""IC-Certificate"" response header (" ++ debug_strs p ++ bs ") is not valid for the request path (" ++ debug_str r ++ bs ")"
    | MoreSpecificWildcardExpressionMightExistInTree p q r =>
        bs "A more specific wildcard expression path (" ++ debug_strs q ++ bs ") than the one provided by the ""IC-Certificate"" response header (" ++ debug_strs p ++
        bs ") that is valid for the request path (" ++ debug_str r ++ bs ") might exist in the tree"
    | InvalidResponseBody => bs "Invalid response body"
    | InvalidResponseHashes => bs "Invalid response hashes"
    | MissingCertificate => bs "Certificate not found"
    | MissingTree => bs "Tree not found"
    | MissingCertificateExpressionPath => bs "Certificate expression path not found"
    | MissingCertificateExpression => bs "Certificate expression not found"
    | MissingCertification => bs "Certification values not found"
    | CborDecodingFailed => bs "CBOR decoding failed"
    | CertificateVerificationFailed _ => bs "Certificate verification failed"
    | HttpCertificationError e => bs "HTTP Certification error: """ ++ http_message e ++ quote
    end.
  (** error.rs:262-350 [ResponseVerificationJsError]: the code and the message of what is thrown *)
  Definition js_error_of (e : rv_error) : N * bytes := (discriminant (js_code_of e), message e).
  (** ic-response-verification-wasm/src/lib.rs:45-72, with the thrown error *)
  Definition wasm_verify_m method_ok umod cap_max checked H ple vs uri_path uri_query gunzip inflate (rq rs : jsval) (canister_id : bytes) (now offset : N) (key : bytes) (min_version : N) : res (N * bytes) jsval :=
    match request_from_js method_ok rq, response_from_js rs with
    | OOk q, OOk r =>
        match verify_e umod cap_max checked H ple vs uri_path uri_query gunzip inflate q r canister_id now offset key min_version with
        | ROk i => ROk (js_of_info i)
        | RErr e => RErr (js_error_of e)
        | RPanic => RPanic
        | RFuel => RFuel
        end
    | OFuel, _ => RFuel
    | OOk _, OFuel => RFuel
    | _, _ => RPanic
    end.
End Messages.
