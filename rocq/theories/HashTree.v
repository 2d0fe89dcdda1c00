(** Model of packages/ic-certification/src/hash_tree/mod.rs *)
From Coq Require Import List NArith Bool.
From Verif Require Import Bytes.
Import ListNotations.

(** hash_tree/mod.rs:312-319 [HashTreeNode].  [HashTree] (mod.rs:172-175) is a
    wrapper around its root node and is identified with it.  [Pruned] carries a
    [Hash = [u8; 32]]; the model uses [bytes], and [hashes32] below is the type
    invariant. *)
Inductive htree :=
| HEmpty
| HFork (l r : htree)
| HLabeled (lbl : bytes) (t : htree)
| HLeaf (v : bytes)
| HPruned (h : bytes).

(** Type invariant of Rust's [[u8; 32]] in [Pruned]. *)
Fixpoint hashes32 (t : htree) : bool :=
  match t with
  | HEmpty | HLeaf _ => true
  | HFork l r => hashes32 l && hashes32 r
  | HLabeled _ t => hashes32 t
  | HPruned h => Nat.eqb (length h) 32
  end.

(** mod.rs:377-390 [domain_sep]: one length byte, then the separator. *)
Definition dsep (s : bytes) : bytes := n2b (N.of_nat (length s)) :: s.
Definition sep_empty : bytes := dsep (bs "ic-hashtree-empty").
Definition sep_fork : bytes := dsep (bs "ic-hashtree-fork").
Definition sep_labeled : bytes := dsep (bs "ic-hashtree-labeled").
Definition sep_leaf : bytes := dsep (bs "ic-hashtree-leaf").

Section Digest.
  Variable H : bytes -> bytes.

  (** rb_tree/mod.rs:12-39 [labeled_hash], [fork_hash], [leaf_hash] are the
      same functions as the arms of [digest]. *)
  Definition empty_hash : bytes := H sep_empty.
  Definition fork_hash (l r : bytes) : bytes := H (sep_fork ++ l ++ r).
  Definition labeled_hash (lbl h : bytes) : bytes := H (sep_labeled ++ lbl ++ h).
  Definition leaf_hash (v : bytes) : bytes := H (sep_leaf ++ v).

  (** mod.rs:394-421 [digest]. *)
  Fixpoint digest (t : htree) : bytes :=
    match t with
    | HEmpty => empty_hash
    | HFork l r => fork_hash (digest l) (digest r)
    | HLabeled lbl t => labeled_hash lbl (digest t)
    | HLeaf v => leaf_hash v
    | HPruned h => h
    end.
End Digest.

(** mod.rs:291-309 [LookupLabelResult]. *)
Inductive llr :=
| LAbsent | LUnknown | LLess | LGreater | LFound (t : htree).

(** mod.rs:431-466 [lookup_label]. *)
Fixpoint lookup_label (label : bytes) (t : htree) : llr :=
  match t with
  | HLabeled l node =>
      match bcmp label l with
      | Gt => LGreater
      | Eq => LFound node
      | Lt => LLess
      end
  | HFork l r =>
      match lookup_label label l with
      | LGreater =>
          match lookup_label label r with
          | LLess => LAbsent
          | res => res
          end
      | LUnknown =>
          match lookup_label label r with
          | LLess => LUnknown
          | res => res
          end
      | res => res
      end
  | HPruned _ => LUnknown
  | HEmpty | HLeaf _ => LAbsent
  end.

(** mod.rs:139-155 [LookupResult]. *)
Inductive lookup_result :=
| Absent | Unknown | Found (v : bytes) | Error.

(** mod.rs:476-497 [lookup_path] (the path iterator is a list). *)
Fixpoint lookup_path (path : list bytes) (t : htree) : lookup_result :=
  match path with
  | seg :: rest =>
      match lookup_label seg t with
      | LFound node => lookup_path rest node
      | LUnknown => Unknown
      | LAbsent | LGreater | LLess => Absent
      end
  | [] =>
      match t with
      | HLeaf v => Found v
      | HEmpty => Absent
      | HPruned _ => Unknown
      | HLabeled _ _ | HFork _ _ => Error
      end
  end.

(** mod.rs:157-169 [SubtreeLookupResult]. *)
Inductive subtree_result :=
| SAbsent | SUnknown | SFound (t : htree).

(** mod.rs:508-525 [lookup_subtree]. *)
Fixpoint lookup_subtree (path : list bytes) (t : htree) : subtree_result :=
  match path with
  | seg :: rest =>
      match lookup_label seg t with
      | LFound node => lookup_subtree rest node
      | LUnknown => SUnknown
      | LAbsent | LGreater | LLess => SAbsent
      end
  | [] => SFound t
  end.

(** mod.rs:527-541 [list_paths] (with the accumulated path as argument;
    [HashTree::list_paths], mod.rs:217-219, starts with the empty path). *)
Fixpoint list_paths_from (path : list bytes) (t : htree) : list (list bytes) :=
  match t with
  | HEmpty => []
  | HFork l r => list_paths_from path l ++ list_paths_from path r
  | HLeaf _ => [path]
  | HLabeled l node => list_paths_from (path ++ [l]) node
  | HPruned _ => []
  end.
Definition list_paths (t : htree) : list (list bytes) := list_paths_from [] t.
