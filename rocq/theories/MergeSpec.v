(** Specification for merging two arbitrary hash trees, position by position.
    Nothing here mentions how the merge is computed. *)
From Coq Require Import List NArith Bool.
From Verif Require Import Bytes HashTree.
Import ListNotations.

(** One step down a tree. *)
Inductive step := GoLeft | GoRight | GoUnder.

(** What a single node says, without its children. *)
Inductive node :=
| IsEmpty
| IsFork
| IsLabel (k : bytes)
| IsLeaf (v : bytes)
| IsPruned (h : bytes).

Definition node_of (t : htree) : node :=
  match t with
  | HEmpty => IsEmpty
  | HFork _ _ => IsFork
  | HLabeled k _ => IsLabel k
  | HLeaf v => IsLeaf v
  | HPruned h => IsPruned h
  end.

(** The node at a position, if the tree has one there. *)
Fixpoint node_at (p : list step) (t : htree) : option node :=
  match p, t with
  | [], _ => Some (node_of t)
  | GoLeft :: p, HFork l _ => node_at p l
  | GoRight :: p, HFork _ r => node_at p r
  | GoUnder :: p, HLabeled _ t => node_at p t
  | _, _ => None
  end.

(** Two nodes at the same position contradict each other: they differ although
    neither is a placeholder, or they are pruned with different hashes.  A
    pruned node is a placeholder for anything, an empty node for anything but a
    pruned node. *)
Definition contradict (x y : node) : Prop :=
  match x, y with
  | IsPruned g, IsPruned h => g <> h
  | IsPruned _, _ | _, IsPruned _ => False
  | IsEmpty, _ | _, IsEmpty => False
  | _, _ => x <> y
  end.

(** The node of the overlay at one position. *)
Definition better (x y : option node) : option node :=
  match x, y with
  | None, _ => y
  | _, None => x
  | Some (IsPruned _), _ => y
  | _, Some (IsPruned _) => x
  | Some IsEmpty, _ => y
  | _, _ => x
  end.
