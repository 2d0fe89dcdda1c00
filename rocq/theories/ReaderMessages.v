(** Model of the texts ([Display], derived by thiserror) of the errors of the two readers,
    /repo/packages/ic-cbor/src/error.rs:3-40 (the errors of CborErrors.v) and
    /repo/packages/ic-response-verification/src/cel/error.rs:4-96 (the errors of CelErrors.v), and of the derived [Debug]
    texts of the values found, /repo/packages/ic-cbor/src/cbor_parser.rs:14-86 and
    /repo/packages/ic-response-verification/src/cel/parser.rs:14-26.
    A [HashMap] is printed in the order it is iterated in: here, the order of the list.  The texts of nom's and
    the standard library's errors are parameters. *)
From Coq Require Import List NArith ZArith Bool.
From Verif Require Import Bytes Text Utf8 HashTree Cbor Cel AssetRouter Errors Messages CanisterMessages CborErrors CelErrors.
Import ListNotations.
Local Open Scope N_scope.

(** [{:?}] of a [HashMap] whose keys and values are written as given *)
Definition debug_entries (l : list (bytes * bytes)) : bytes := bs "{" ++ join (bs ", ") (map (fun kv => fst kv ++ bs ": " ++ snd kv) l) ++ bs "}".
Definition zdec (z : Z) : bytes := if (z <? 0)%Z then bs "-" ++ dec (Z.to_N (- z)) else dec (Z.to_N z).

Section ReaderMessages.
  Variables (plain : N -> bool).
  (** cbor_parser.rs:14-28 *)
  Definition debug_uint (u : cuint) : bytes :=
    match u with
    | U8 n => bs "UInt8(" ++ dec n ++ bs ")" | U16 n => bs "UInt16(" ++ dec n ++ bs ")"
    | U32 n => bs "UInt32(" ++ dec n ++ bs ")" | U64 n => bs "UInt64(" ++ dec n ++ bs ")"
    end.
  Definition debug_sint (s : csint) : bytes :=
    match s with
    | I8 z => bs "Int8(" ++ zdec z ++ bs ")" | I16 z => bs "Int16(" ++ zdec z ++ bs ")"
    | I32 z => bs "Int32(" ++ zdec z ++ bs ")" | I64 z => bs "Int64(" ++ zdec z ++ bs ")"
    end.
  (** cbor_parser.rs:61-68 *)
  Definition debug_tag (t : ctag) : bytes :=
    match t with TEmpty => bs "Empty" | TFork => bs "Fork" | TLabelled => bs "Labelled" | TLeaf => bs "Leaf" | TPruned => bs "Pruned" end.
  (** cbor_parser.rs:70-86 *)
  Fixpoint debug_cval (v : cval) : bytes :=
    match v with
    | CUnsigned u => bs "Unsigned(" ++ debug_uint u ++ bs ")"
    | CSigned s => bs "Signed(" ++ debug_sint s ++ bs ")"
    | CBytes b => bs "ByteString(" ++ debug_bytes b ++ bs ")"
    | CArray l => bs "Array(" ++ debug_vec (map debug_cval l) ++ bs ")"
    | CMap m => bs "Map(" ++ debug_entries (map (fun kv => (debug_str plain (fst kv), debug_cval (snd kv))) m) ++ bs ")"
    | CTag t => bs "HashTree(" ++ debug_tag t ++ bs ")"
    end.
  (** cel/parser.rs:14-26 *)
  Fixpoint debug_cv (v : cv) : bytes :=
    match v with
    | CvString s => bs "String(" ++ debug_str plain s ++ bs ")"
    | CvArray l => bs "Array(" ++ debug_vec (map debug_cv l) ++ bs ")"
    | CvObject n m => bs "Object(" ++ debug_str plain n ++ bs ", " ++ debug_entries (map (fun kv => (debug_str plain (fst kv), debug_cv (snd kv))) m) ++ bs ")"
    | CvFunction n l => bs "Function(" ++ debug_str plain n ++ bs ", " ++ debug_vec (map debug_cv l) ++ bs ")"
    end.
  (** ic-cbor/src/error.rs:3-40; [nom_text] is the text of nom's error, [utf8_text] and [slice_text] those of
      FromUtf8Error and TryFromSliceError *)
  Definition cbor_message (nom_text utf8_text slice_text : bytes) (e : cbor_error) : bytes :=
    match e with
    | MalformedCbor => bs "Invalid cbor: " ++ nom_text
    | MalformedCborCanisterRanges => bs "Invalid cbor canister ranges"
    | UnexpectedCborNodeType t v => bs "Expected node with to have type " ++ debug_str plain t ++ bs ", found " ++ debug_str plain (debug_cval v)
    | CborUtf8ConversionError => bs "Error converting UTF8 string bytes: " ++ utf8_text
    | MalformedCertificate m => bs "Failed to parse certificate: """ ++ m ++ quote
    | MalformedHashTree m => bs "Failed to parse hash tree: """ ++ m ++ quote
    | IncorrectPrunedDataLength => bs "Invalid pruned data: """ ++ slice_text ++ quote
    | UnexpectedEndOfInput => bs "UnexpectedEndOfInput"
    end.
  (** cel/error.rs:4-96 *)
  Definition cel_message (nom_text : bytes) (e : cel_error) : bytes :=
    match e with
    | UnrecognizedFunction n => quote ++ n ++ bs """ is not a supported CEL function, only default_certification is currently supported"
    | MissingFunctionParameter f ty n i =>
        bs "Parameter at position " ++ dec i ++ bs " for function " ++ debug_str plain f ++ bs " is missing, expected " ++ debug_str plain n ++ bs " with type " ++ debug_str plain ty
    | IncorrectFunctionParameterType f n ty found i =>
        bs "Parameter at position " ++ dec i ++ bs " for function " ++ debug_str plain f ++ bs " has the wrong type, expected " ++ debug_str plain n ++ bs " " ++ debug_str plain ty ++ bs " found " ++ debug_str plain found
    | UnexpectedNodeType n ty v => bs "Expected node with name " ++ debug_str plain n ++ bs " to have type " ++ debug_str plain ty ++ bs ", found " ++ debug_str plain (debug_cv v)
    | UnexpectedNodeName ty n found => bs "Expected node with type " ++ debug_str plain ty ++ bs " to have name " ++ debug_str plain n ++ bs ", found " ++ debug_str plain found
    | MissingObjectProperty o p => bs "Expected object " ++ debug_str plain o ++ bs " to have property " ++ debug_str plain p
    | ExtraneousRequestCertificationProperty => bs "The request_certification object must only specify one of the no_request_certification or request_certification properties, not both"
    | MissingRequestCertificationProperty => bs "The request_certification object must specify at least one of the no_request_certification or request_certification properties"
    | ExtraneousResponseCertificationProperty => bs "The response_certification object must only specify one of the certified_response_headers or response_header_exclusions properties, not both"
    | MissingResponseCertificationProperty => bs "The response_certification object must specify at least one of the certified_response_headers or response_header_exclusions properties"
    | ExtraneousValidationArgsProperty => bs "The ValidationArgs parameter must only specify one of the no_certification or certification properties, not both"
    | MissingValidationArgsProperty => bs "The ValidationArgs parameter must specify at least one of the no_certification or certification properties"
    | CelSyntaxException => bs "Cel Syntax Expception: " ++ nom_text
    end.
End ReaderMessages.
