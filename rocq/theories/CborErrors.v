(** Which error ic-cbor reports: the conversions of Cbor.v with the error values of
    /repo/packages/ic-cbor/src/error.rs:3-40.  (Cbor.v has one error, [OErr]; Props_CborErrors.v proves that
    forgetting the error values here gives exactly that.)
    The text of nom's error in [MalformedCbor] and the payloads of [Utf8ConversionError] and
    [IncorrectPrunedDataLength] (errors of the standard library) are left out; [found_type] is the [Debug] text of the
    value found, here the value itself. *)
From Coq Require Import List Arith NArith Bool.
From Verif Require Import Bytes Utf8 HashTree Cbor Errors.
Import ListNotations.
Local Open Scope N_scope.

(** error.rs:3-40 [CborError] *)
Inductive cbor_error :=
| MalformedCbor
| MalformedCborCanisterRanges
| UnexpectedCborNodeType (expected_type : bytes) (found : cval)
| CborUtf8ConversionError
| MalformedCertificate (message : bytes)
| MalformedHashTree (message : bytes)
| IncorrectPrunedDataLength
| UnexpectedEndOfInput.

(** cbor_parse_hash_tree.rs:18-86 [parsed_cbor_to_tree] *)
Fixpoint to_tree_e (v : cval) : res cbor_error htree :=
  match v with
  | CArray (CTag TEmpty :: _) => ROk HEmpty
  | CArray (CTag TLeaf :: CBytes d :: _) => ROk (HLeaf d)
  | CArray (CTag TLeaf :: _) => RErr (MalformedHashTree (bs "Missing ByteString for Leaf node"))
  | CArray (CTag TPruned :: CBytes d :: _) => if Nat.eqb (length d) 32 then ROk (HPruned d) else RErr IncorrectPrunedDataLength
  | CArray (CTag TPruned :: _) => RErr (MalformedHashTree (bs "Missing ByteString for Pruned node"))
  | CArray (CTag TLabelled :: CBytes d :: c :: _) => rok t <- to_tree_e c; ROk (HLabeled d t)
  | CArray (CTag TLabelled :: _) => RErr (MalformedHashTree (bs "Missing ByteString or child node for Labelled node"))
  | CArray (CTag TFork :: l :: r :: _) => rok tl <- to_tree_e l; rok tr <- to_tree_e r; ROk (HFork tl tr)
  | CArray (CTag TFork :: _) => RErr (MalformedHashTree (bs "Missing child nodes for Fork node"))
  | CArray _ => RErr (MalformedHashTree (bs "Expected Hash Tree cbor tag"))
  | _ => RErr (MalformedHashTree (bs "Expected Array cbor tag"))
  end.

(** cbor_parse_certificate.rs:16-68 [parsed_cbor_to_certificate] *)
Definition to_certificate_e (v : cval) : res cbor_error certificate :=
  match v with
  | CMap m =>
      match map_get (bs "tree") m with
      | None => RErr (MalformedCertificate (bs "Expected Tree when parsing Certificate Cbor"))
      | Some tv =>
          rok t <- to_tree_e tv;
          match map_get (bs "signature") m with
          | Some (CBytes s) =>
              match map_get (bs "delegation") m with
              | Some (CMap dm) =>
                  match map_get (bs "subnet_id") dm with
                  | Some (CBytes a) =>
                      match map_get (bs "certificate") dm with
                      | Some (CBytes c) => ROk (mk_cert t s (Some (mk_deleg a c)))
                      | _ => RErr (MalformedCertificate (bs "Expected Delegation Map to contain a Certificate when parsing Certificate Cbor"))
                      end
                  | _ => RErr (MalformedCertificate (bs "Expected Delegation Map to contain a Subnet ID when parsing Certificate Cbor"))
                  end
              | _ => ROk (mk_cert t s None)
              end
          | _ => RErr (MalformedCertificate (bs "Expected Signature when parsing Certificate Cbor"))
          end
      end
  | _ => RErr (MalformedCertificate (bs "Expected Map when parsing Certificate Cbor"))
  end.

(** cbor_parser.rs:218-238; [Principal::from_slice] panics above 29 bytes *)
Fixpoint to_ranges_e (l : list cval) : res cbor_error (list (bytes * bytes)) :=
  match l with
  | [] => ROk []
  | CArray (CBytes a :: CBytes b :: _) :: r =>
      if Nat.leb (length a) 29 && Nat.leb (length b) 29 then rok rs <- to_ranges_e r; ROk ((a, b) :: rs) else RPanic
  | _ :: _ => RErr MalformedCborCanisterRanges
  end.
(** cbor_parser.rs:251-265 *)
Fixpoint to_strings_e (l : list cval) : res cbor_error (list bytes) :=
  match l with
  | [] => ROk []
  | CBytes s :: r => if utf8_valid s then rok ss <- to_strings_e r; ROk (s :: ss) else RErr CborUtf8ConversionError
  | x :: _ => RErr (UnexpectedCborNodeType (bs "ByteString") x)
  end.

Section CborErrors.
  Variables umod cap_max : N.
  Definition parse_cbor_e (i : bytes) : res cbor_error cval := with_err MalformedCbor (parse_cbor umod cap_max i).
  (** cbor_parse_hash_tree.rs:11-17 *)
  Definition tree_from_cbor_e (i : bytes) : res cbor_error htree := rok v <- parse_cbor_e i; to_tree_e v.
  (** cbor_parse_certificate.rs:8-14 *)
  Definition cert_from_cbor_e (i : bytes) : res cbor_error certificate := rok v <- parse_cbor_e i; to_certificate_e v.
  (** cbor_parser.rs:211-239 [parse_cbor_principals_array] *)
  Definition principals_from_cbor_e (i : bytes) : res cbor_error (list (bytes * bytes)) :=
    rok v <- parse_cbor_e i; match v with CArray l => to_ranges_e l | _ => RErr MalformedCborCanisterRanges end.
  (** cbor_parser.rs:241-266 [parse_cbor_string_array] *)
  Definition strings_from_cbor_e (i : bytes) : res cbor_error (list bytes) :=
    rok v <- parse_cbor_e i; match v with CArray l => to_strings_e l | _ => RErr (UnexpectedCborNodeType (bs "Array") v) end.
End CborErrors.
