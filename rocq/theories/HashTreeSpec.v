(** Specification-level notions about hash trees, independent of the code. *)
From Coq Require Import List NArith Bool Sorted.
From Verif Require Import Bytes HashTree.
Import ListNotations.

(** ** Pruning *)
Section Prunes.
  Variable H : bytes -> bytes.
  (** [prunes t w]: [w] is [t] with some subtrees replaced by pruned nodes
      carrying the digest of the replaced subtree. *)
  Inductive prunes : htree -> htree -> Prop :=
  | PrEmpty : prunes HEmpty HEmpty
  | PrLeaf v : prunes (HLeaf v) (HLeaf v)
  | PrSame h : prunes (HPruned h) (HPruned h)
  | PrFork l r l' r' : prunes l l' -> prunes r r' -> prunes (HFork l r) (HFork l' r')
  | PrLabeled lbl t t' : prunes t t' -> prunes (HLabeled lbl t) (HLabeled lbl t')
  | PrPruned t : prunes t (HPruned (digest H t)).

  (** The messages hashed while computing [digest t]. *)
  Fixpoint preimages (t : htree) : list bytes :=
    match t with
    | HEmpty => [sep_empty]
    | HFork l r => (sep_fork ++ digest H l ++ digest H r) :: preimages l ++ preimages r
    | HLabeled lbl t => (sep_labeled ++ lbl ++ digest H t) :: preimages t
    | HLeaf v => [sep_leaf ++ v]
    | HPruned _ => []
    end.

  (** Two lists of hashed messages contain an explicit collision. *)
  Definition collision (xs ys : list bytes) : Prop :=
    exists x y, In x xs /\ In y ys /\ x <> y /\ H x = H y.
End Prunes.

(** No pruned node: a full tree. *)
Fixpoint full (t : htree) : bool :=
  match t with
  | HEmpty | HLeaf _ => true
  | HFork l r => full l && full r
  | HLabeled _ t => full t
  | HPruned _ => false
  end.

(** [consistent a b]: the two trees agree wherever neither is pruned. *)
Fixpoint consistent (a b : htree) : Prop :=
  match a, b with
  | HPruned _, _ => True
  | _, HPruned _ => True
  | HEmpty, HEmpty => True
  | HLeaf v, HLeaf v' => v = v'
  | HFork l r, HFork l' r' => consistent l l' /\ consistent r r'
  | HLabeled x t, HLabeled x' t' => x = x' /\ consistent t t'
  | _, _ => False
  end.

(** ** The interface specification's view of a tree
    (IC interface specification, "Lookup"): forks are flattened. *)
Fixpoint flatten_forks (t : htree) : list htree :=
  match t with
  | HEmpty => []
  | HFork l r => flatten_forks l ++ flatten_forks r
  | _ => [t]
  end.

Definition child (k : bytes) (e : htree) : option htree :=
  match e with HLabeled l t => if bytes_eqb k l then Some t else None | _ => None end.
Definition lt_entry (k : bytes) (e : htree) : bool :=   (* l < k *)
  match e with HLabeled l _ => match bcmp l k with Lt => true | _ => false end | _ => false end.
Definition gt_entry (k : bytes) (e : htree) : bool :=   (* k < l *)
  match e with HLabeled l _ => match bcmp k l with Lt => true | _ => false end | _ => false end.

Fixpoint first_child (k : bytes) (es : list htree) : option htree :=
  match es with
  | [] => None
  | e :: r => match child k e with Some t => Some t | None => first_child k r end
  end.
Fixpoint adjacent (k : bytes) (es : list htree) : bool :=
  match es with
  | a :: ((b :: _) as r) => (lt_entry k a && gt_entry k b) || adjacent k r
  | _ => false
  end.

Inductive find_result := FAbsent | FUnknown | FFound (t : htree).
(** [find_label] of the interface specification, clause by clause. *)
Definition find_label (k : bytes) (es : list htree) : find_result :=
  match first_child k es with
  | Some t => FFound t                                     (* _ . Labeled k t . _ *)
  | None =>
      if adjacent k es then FAbsent                        (* _ . Labeled l1 . Labeled l2 . _ , l1<k<l2 *)
      else if match es with e :: _ => gt_entry k e | [] => false end
      then FAbsent                                         (* Labeled l2 . _ , k<l2 *)
      else if match rev es with e :: _ => lt_entry k e | [] => false end
      then FAbsent                                         (* _ . Labeled l1 , l1<k *)
      else match es with
           | [HLeaf _] => FAbsent
           | [] => FAbsent
           | _ => FUnknown
           end
  end.

(** [lookup] of the interface specification. *)
Fixpoint spec_lookup (path : list bytes) (t : htree) : lookup_result :=
  match path with
  | [] => match t with
          | HEmpty => Absent
          | HLeaf v => Found v
          | HPruned _ => Unknown
          | _ => Error
          end
  | k :: rest =>
      match find_label k (flatten_forks t) with
      | FFound t' => spec_lookup rest t'
      | FAbsent => Absent
      | FUnknown => Unknown
      end
  end.

(** ** Well-formed trees *)

(** The labels at the top of a tree, in order. *)
Fixpoint labels (t : htree) : list bytes :=
  match t with
  | HFork l r => labels l ++ labels r
  | HLabeled l _ => [l]
  | _ => []
  end.

Definition fork_child_ok (t : htree) : bool :=
  match t with HEmpty | HLeaf _ => false | _ => true end.

(** Labels strictly increasing from left to right at every level; no empty
    node or bare leaf directly under a fork. *)
Fixpoint wf (t : htree) : Prop :=
  match t with
  | HEmpty | HLeaf _ | HPruned _ => True
  | HLabeled _ t => wf t
  | HFork l r =>
      wf l /\ wf r /\ fork_child_ok l = true /\ fork_child_ok r = true /\
      (forall a b, In a (labels l) -> In b (labels r) -> blt a b)
  end.

(** The entries of a tree: what a path leads to, by any chain of forks. *)
Inductive child_at : bytes -> htree -> htree -> Prop :=
| ChHere k t : child_at k (HLabeled k t) t
| ChLeft k l r t : child_at k l t -> child_at k (HFork l r) t
| ChRight k l r t : child_at k r t -> child_at k (HFork l r) t.

(** [at_path p t s]: the subtree of [t] at path [p] is [s]. *)
Inductive at_path : list bytes -> htree -> htree -> Prop :=
| AtNil t : at_path [] t t
| AtCons k p t c s : child_at k t c -> at_path p c s -> at_path (k :: p) t s.
