(** Specification side of the CBOR properties: RFC 8949 section 3 headers. *)
From Coq Require Import List Arith NArith ZArith Lia Bool.
From Verif Require Import Bytes HashTree Cbor.
Import ListNotations.
Local Open Scope N_scope.

(** The five ways RFC 8949 encodes the argument of a data item (not only the
    shortest one). *)
Inductive rfc_arg := Imm (n : N) | Arg1 (n : N) | Arg2 (n : N) | Arg4 (n : N) | Arg8 (n : N).
Definition arg_value (a : rfc_arg) : N := match a with Imm n | Arg1 n | Arg2 n | Arg4 n | Arg8 n => n end.
(** width in bits of the integer the argument is stored in *)
Definition arg_bits (a : rfc_arg) : N := match a with Imm _ | Arg1 _ => 8 | Arg2 _ => 16 | Arg4 _ => 32 | Arg8 _ => 64 end.
Definition arg_valid (a : rfc_arg) : Prop :=
  match a with Imm n => n <= 23 | Arg1 n => n < 2 ^ 8 | Arg2 n => n < 2 ^ 16 | Arg4 n => n < 2 ^ 32 | Arg8 n => n < 2 ^ 64 end.
(** big-endian bytes *)
Fixpoint big_endian (k : nat) (n : N) : bytes :=
  match k with O => [] | S k' => n2b (n / 256 ^ N.of_nat k') :: big_endian k' n end.
Definition rfc_head (major : N) (a : rfc_arg) : bytes :=
  match a with
  | Imm n => [n2b (32 * major + n)]
  | Arg1 n => n2b (32 * major + 24) :: big_endian 1 n
  | Arg2 n => n2b (32 * major + 25) :: big_endian 2 n
  | Arg4 n => n2b (32 * major + 26) :: big_endian 4 n
  | Arg8 n => n2b (32 * major + 27) :: big_endian 8 n
  end.

(** The number a parsed value stands for (hash tree tags are the numbers 0-4). *)
Definition number (v : cval) : option Z :=
  match v with
  | CUnsigned u => Some (Z.of_N (uval u))
  | CSigned s => Some (sval s)
  | CTag TEmpty => Some 0%Z | CTag TFork => Some 1%Z | CTag TLabelled => Some 2%Z
  | CTag TLeaf => Some 3%Z | CTag TPruned => Some 4%Z
  | _ => None
  end.

(** Hashes of pruned nodes have 32 bytes (in Rust by type). *)
Fixpoint hashes32 (t : htree) : Prop :=
  match t with
  | HFork l r => hashes32 l /\ hashes32 r
  | HLabeled _ t => hashes32 t
  | HPruned h => length h = 32%nat
  | _ => True
  end.
(** The byte strings (labels, values) in a tree. *)
Fixpoint strings_of (t : htree) : list bytes :=
  match t with
  | HFork l r => strings_of l ++ strings_of r
  | HLabeled k t => k :: strings_of t
  | HLeaf v => [v]
  | _ => []
  end.
Definition short (m : N) (b : bytes) : Prop := N.of_nat (length b) < m.
