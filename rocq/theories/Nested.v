(** Model of packages/ic-certification/src/nested_rb_tree.rs.

    Leaf values are byte strings ([AsHashTree for Vec<u8>] and [for Hash],
    rb_tree/mod.rs:38-56: a leaf node); other user-defined leaf value types are not modelled. *)
From Coq Require Import List NArith Bool.
From Verif Require Import Bytes HashTree RbTree.
Import ListNotations.

(** nested_rb_tree.rs:9-13 [NestedTree] *)
Inductive ntree :=
| NLeaf (v : bytes)
| NNested (t : rb ntree).

(** nested_rb_tree.rs:15-19 [Default] *)
Definition ndefault : ntree := NNested E.

Section Nested.
  Variable H : bytes -> bytes.

  (** nested_rb_tree.rs:34-39 [root_hash] *)
  Definition nhash (t : ntree) : bytes :=
    match t with
    | NLeaf v => leaf_hash H v
    | NNested t => root_hash H ntree t
    end.
  (** nested_rb_tree.rs:41-46 [as_hash_tree] *)
  Fixpoint nhtree (t : ntree) : htree :=
    match t with
    | NLeaf v => HLeaf v
    | NNested t => full_witness_tree H ntree (fun k c => HLabeled k (nhtree c)) t
    end.

  (** nested_rb_tree.rs:50-64 [get] *)
  Fixpoint nget (path : list bytes) (t : ntree) : option bytes :=
    match path with
    | key :: rest =>
        match t with
        | NLeaf _ => None
        | NNested tr => match get ntree key tr with Some c => nget rest c | None => None end
        end
    | [] => match t with NLeaf v => Some v | NNested _ => None end
    end.

  (** nested_rb_tree.rs:66-79 [contains_leaf] *)
  Fixpoint contains_leaf (path : list bytes) (t : ntree) : bool :=
    match path with
    | key :: rest =>
        match t with
        | NLeaf _ => false
        | NNested tr => match get ntree key tr with Some c => contains_leaf rest c | None => false end
        end
    | [] => match t with NLeaf _ => true | NNested _ => false end
    end.

  (** nested_rb_tree.rs:81-94 [contains_path] *)
  Fixpoint contains_path (path : list bytes) (t : ntree) : bool :=
    match path with
    | key :: rest =>
        match t with
        | NLeaf _ => false
        | NNested tr => match get ntree key tr with Some c => contains_path rest c | None => false end
        end
    | [] => true
    end.

  (** nested_rb_tree.rs:96-115 [insert].  The closure given to [modify] may
      itself panic in the model, so it is run first on the child [modify] will
      find.  The code's two re-entrant calls ([clear] then [insert]; insert an
      empty child then [insert]) are unfolded. *)
  Fixpoint ninsert (path : list bytes) (v : bytes) (t : ntree) : option ntree :=
    match path with
    | key :: rest =>
        let tr := match t with NLeaf _ => E | NNested tr => tr end in
        do tr1 <- (match get ntree key tr with
                   | Some _ => Some tr
                   | None => insert H ntree nhash key ndefault tr
                   end);
        match get ntree key tr1 with
        | Some c =>
            do c' <- ninsert rest v c;
            Some (NNested (modify H ntree nhash key (fun _ => c') tr1))
        | None => None
        end
    | [] => Some (NLeaf v)
    end.

  (** nested_rb_tree.rs:117-142 [delete] ([clear], 144-146, resets to [default]) *)
  Fixpoint ndelete (path : list bytes) (t : ntree) : option ntree :=
    match path with
    | key :: rest =>
        match t with
        | NLeaf _ => Some t
        | NNested tr =>
            do tr1 <- (match get ntree key tr with
                       | Some c => do c' <- ndelete rest c;
                                   Some (modify H ntree nhash key (fun _ => c') tr)
                       | None => Some tr
                       end);
            match get ntree key tr1 with
            | Some (NNested sub) =>
                if is_empty ntree sub then
                  do tr2 <- delete H ntree nhash key tr1; Some (NNested tr2)
                else Some (NNested tr1)
            | _ => Some (NNested tr1)
            end
        end
    | [] => Some ndefault
    end.

  (** nested_rb_tree.rs:148-159 [witness]; the continuation is run first (it is
      only used on the child found at [key]). *)
  Fixpoint nwitness (path : list bytes) (t : ntree) : option htree :=
    match path with
    | key :: rest =>
        match t with
        | NLeaf v => Some (HLeaf v)
        | NNested tr =>
            match get ntree key tr with
            | Some c =>
                do w <- nwitness rest c;
                nested_witness H ntree nhash key (fun _ => w) tr
            | None => nested_witness H ntree nhash key (fun _ => HEmpty) tr
            end
        end
    | [] => Some (nhtree t)
    end.

  Inductive nop :=
  | NInsert (p : list bytes) (v : bytes)
  | NDelete (p : list bytes)
  | NClear.
  Definition nstep (t : ntree) (o : nop) : option ntree :=
    match o with
    | NInsert p v => ninsert p v t
    | NDelete p => ndelete p t
    | NClear => Some ndefault
    end.
  Fixpoint nrun (ops : list nop) (t : ntree) : option ntree :=
    match ops with
    | [] => Some t
    | o :: r => do t' <- nstep t o; nrun r t'
    end.
End Nested.

(** nested_rb_tree.rs:162-200 [merge_hash_trees]; [None] is a panic. *)
Fixpoint merge (l r : htree) : option htree :=
  match l, r with
  | HPruned a, HPruned b => if bytes_eqb a b then Some (HPruned a) else None
  | HPruned _, r => Some r
  | l, HPruned _ => Some l
  | HFork l1 l2, HFork r1 r2 => do a <- merge l1 r1; do b <- merge l2 r2; Some (HFork a b)
  | HLabeled x l, HLabeled y r =>
      if bytes_eqb x y then do a <- merge l r; Some (HLabeled x a) else None
  | HEmpty, HEmpty => Some HEmpty
  | HEmpty, r => Some r
  | l, HEmpty => Some l
  | HLeaf a, HLeaf b => if bytes_eqb a b then Some (HLeaf a) else None
  | _, _ => None
  end.
