(** Model of the [Debug] text of hash trees: /repo/packages/ic-certification/src/hash_tree/mod.rs:178-184, 322-379,
    for the plain format [{:?}]; [{:#?}] has the same pieces with line breaks and indentation.
    [debug_tuple] and [debug_struct] (core::fmt) write the fields between parentheses or braces, separated by a comma
    and a space. *)
From Coq Require Import List NArith Bool.
From Verif Require Import Bytes Utf8 HashTree Labels AssetRouter Messages.
Import ListNotations.
Local Open Scope N_scope.

(** hex-0.4 [encode]: lower case *)
Definition low_digit (n : N) : byte := n2b (if n <? 10 then 48 + n else 87 + n).
Definition hex_encode (v : bytes) : bytes := flat_map (fun b => [low_digit (b2n b / 16); low_digit (b2n b mod 16)]) v.
(** mod.rs:344-357 [readable_print] *)
Definition readable_print (v : bytes) : bytes :=
  if utf8_valid v && forallb ascii_graphic v then v
  else if N.of_nat (length v) <=? 32 then bs "0x" ++ hex_encode v
  else dec (N.of_nat (length v)) ++ bs " bytes".
Section Debug.
  Variable (plain : N -> bool).
  (** mod.rs:359-377 *)
  Fixpoint node_debug (t : htree) : bytes :=
    match t with
    | HEmpty => bs "Empty"
    | HFork l r => bs "Fork(" ++ node_debug l ++ bs ", " ++ node_debug r ++ bs ")"
    | HLeaf v => bs "Leaf(" ++ readable_print v ++ bs ")"
    | HLabeled l n => bs "Label(" ++ debug_str plain (readable_print l) ++ bs ", " ++ node_debug n ++ bs ")"
    | HPruned h => bs "Pruned(" ++ hex_encode h ++ bs ")"
    end.
  (** mod.rs:178-184 *)
  Definition tree_debug (t : htree) : bytes := bs "HashTree { root: " ++ node_debug t ++ bs " }".
End Debug.
