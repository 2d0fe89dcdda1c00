(** Specification of [NestedTree] as a map of paths, and of merging. *)
From Coq Require Import List NArith Bool.
From Verif Require Import Bytes HashTree Nested.
Import ListNotations.

Definition path := list bytes.
(** [p] is a prefix of [q] (as sequences of labels) *)
Definition is_prefix (p q : path) : Prop := exists r, q = p ++ r.

(** A map of paths after a history of operations: the latest insertion at
    exactly [q], unless a later operation removed it. *)
Inductive holds : list nop -> path -> bytes -> Prop :=
| HoldsNew ops p v : holds (ops ++ [NInsert p v]) p v
| HoldsIns ops p v q w :
    holds ops q w -> ~ is_prefix p q -> ~ is_prefix q p -> holds (ops ++ [NInsert p v]) q w
| HoldsDel ops p q w :
    holds ops q w -> ~ is_prefix p q -> holds (ops ++ [NDelete p]) q w.
