(** Model of packages/ic-certification/src/rb_tree/mod.rs.

    [option rb] is used for functions that can panic (failed [unwrap]s and
    [debug_assert!]s): [None] is a panic (or fuel exhaustion, for the two
    functions on fuel). *)
From Coq Require Import List NArith Bool.
From Verif Require Import Bytes HashTree.
Import ListNotations.

(** mod.rs:9-13 *)
Inductive color := Red | Black.
(** mod.rs:20-25 [Color::flip] *)
Definition flip (c : color) : color := match c with Red => Black | Black => Red end.

(** mod.rs:86-103 [NodeRef] / [Node]: [E] is [None]; [T c l k v r h] is a node
    with its cached [subtree_hash] [h].  Keys ([K: AsRef<[u8]>]) are their bytes. *)
Inductive rb (V : Type) :=
| E
| T (c : color) (l : rb V) (k : bytes) (v : V) (r : rb V) (h : bytes).
Arguments E {V}.
Arguments T {V} c l k v r h.

(** mod.rs:71-84 [KeyBound] *)
Inductive kbound := Exact (k : bytes) | Neighbor (k : bytes).
Definition kb_key (b : kbound) : bytes := match b with Exact k => k | Neighbor k => k end.

Definition obind {A B} (o : option A) (f : A -> option B) : option B :=
  match o with Some a => f a | None => None end.
Notation "'do' x <- o ; e" := (obind o (fun x => e)) (at level 60, x name, o at level 59, right associativity).
(** [debug_assert!(b)] / a guarded [unwrap]. *)
Definition assert_ (b : bool) {A} (k : option A) : option A := if b then k else None.

(** mod.rs:883-899 [three_way_fork]; needs [fork_hash]. *)
Definition three_way_fork (H : bytes -> bytes) (l m r : htree) : htree :=
  match l, m, r with
  | HEmpty, m, HEmpty => m
  | l, m, HEmpty => HFork l m
  | HEmpty, m, r => HFork m r
  | HPruned lh, HPruned mh, HPruned rh => HPruned (fork_hash H lh (fork_hash H mh rh))
  | l, HPruned mh, HPruned rh => HFork l (HPruned (fork_hash H mh rh))
  | l, m, r => HFork l (HFork m r)
  end.

Section RbTree.
  Variable H : bytes -> bytes.
  Variable V : Type.
  (** mod.rs:29-36 trait [AsHashTree]. *)
  Variable vhash : V -> bytes.      (* root_hash *)
  Variable vtree : V -> htree.      (* as_hash_tree *)

  Notation rb := (rb V).

  (** mod.rs:119-121 [data_hash] *)
  Definition data_hash (k : bytes) (v : V) : bytes := labeled_hash H k (vhash v).

  (** mod.rs:175-184 [compute_subtree_hash] *)
  Definition compute_subtree_hash (l : rb) (k : bytes) (v : V) (r : rb) : bytes :=
    let h := data_hash k v in
    match l, r with
    | E, E => h
    | T _ _ _ _ _ lh, E => fork_hash H lh h
    | E, T _ _ _ _ _ rh => fork_hash H h rh
    | T _ _ _ _ _ lh, T _ _ _ _ _ rh => fork_hash H lh (fork_hash H h rh)
    end.

  (** A node after [update_subtree_hash] (mod.rs:171-173). *)
  Definition upd (c : color) (l : rb) (k : bytes) (v : V) (r : rb) : rb :=
    T c l k v r (compute_subtree_hash l k v r).

  (** mod.rs:106-117 [Node::new] *)
  Definition new_node (k : bytes) (v : V) : rb := T Red E k v E (data_hash k v).

  (** mod.rs:123-135 [left_hash_tree], [right_hash_tree], applied to the child *)
  Definition child_hash_tree (t : rb) : htree :=
    match t with E => HEmpty | T _ _ _ _ _ h => HPruned h end.

  (** mod.rs:148-158 *)
  Definition data_tree (k : bytes) (v : V) : htree := HLabeled k (vtree v).
  Definition witness_tree (k : bytes) (v : V) : htree := HLabeled k (HPruned (vhash v)).

  (** mod.rs:160-169 [full_witness_tree] ([f] only uses key and value of the node) *)
  Section Full.
    Variable f : bytes -> V -> htree.
    Fixpoint full_witness_tree (t : rb) : htree :=
      match t with
      | E => HEmpty
      | T _ l k v r _ => three_way_fork H (full_witness_tree l) (f k v) (full_witness_tree r)
      end.
  End Full.

  (** mod.rs:59-68 [root_hash], [as_hash_tree] of [RbTree]. *)
  Definition root_hash (t : rb) : bytes :=
    match t with E => digest H HEmpty | T _ _ _ _ _ h => h end.
  Definition as_hash_tree (t : rb) : htree := full_witness_tree data_tree t.

  (** mod.rs:137-146, 489-494 [visit], [for_each]: the sequence of callbacks. *)
  Fixpoint elems (t : rb) : list (bytes * V) :=
    match t with
    | E => []
    | T _ l k v r _ => elems l ++ (k, v) :: elems r
    end.

  (** mod.rs:352-355 [is_empty] *)
  Definition is_empty (t : rb) : bool := match t with E => true | _ => false end.

  (** mod.rs:360-370 [get] *)
  Fixpoint get (key : bytes) (t : rb) : option V :=
    match t with
    | E => None
    | T _ l k v r _ =>
        match bcmp key k with
        | Eq => Some v
        | Lt => get key l
        | Gt => get key r
        end
    end.

  (** The number of nodes [get] visits. *)
  Fixpoint get_steps (key : bytes) (t : rb) : nat :=
    match t with
    | E => 0
    | T _ l k v r _ =>
        S match bcmp key k with
          | Eq => 0
          | Lt => get_steps key l
          | Gt => get_steps key r
          end
    end.

  (** mod.rs:373-397 [modify] *)
  Fixpoint modify (key : bytes) (f : V -> V) (t : rb) : rb :=
    match t with
    | E => E
    | T c l k v r _ =>
        match bcmp key k with
        | Eq => upd c l k (f v) r
        | Lt => upd c (modify key f l) k v r
        | Gt => upd c l k v (modify key f r)
        end
    end.

  (** ** Rotations and balancing *)

  (** mod.rs:902-904 *)
  Definition is_red (t : rb) : bool :=
    match t with T Red _ _ _ _ _ => true | _ => false end.
  Definition is_some (t : rb) : bool := match t with E => false | _ => true end.
  Definition left_of (t : rb) : rb := match t with E => E | T _ l _ _ _ _ => l end.
  Definition right_of (t : rb) : rb := match t with E => E | T _ _ _ _ r _ => r end.

  (** mod.rs:922-937 [rotate_right] *)
  Definition rotate_right (h : rb) : option rb :=
    match h with
    | T c (T Red xl xk xv xr _) k v r _ =>
        Some (upd c xl xk xv (upd Red xr k v r))
    | _ => None
    end.

  (** mod.rs:939-954 [rotate_left] *)
  Definition rotate_left (h : rb) : option rb :=
    match h with
    | T c l k v (T Red xl xk xv xr _) _ =>
        Some (upd c (upd Red l k v xl) xk xv xr)
    | _ => None
    end.

  (** mod.rs:956-960 [flip_colors] *)
  Definition flip_colors (h : rb) : option rb :=
    match h with
    | T c (T lc ll lk lv lr lh) k v (T rc rl rk rv rr rh) hh =>
        Some (T (flip c) (T (flip lc) ll lk lv lr lh) k v (T (flip rc) rl rk rv rr rh) hh)
    | _ => None
    end.

  (** mod.rs:906-919 [balance] *)
  Definition balance (h : rb) : option rb :=
    do h1 <- (if is_red (right_of h) && negb (is_red (left_of h)) then rotate_left h else Some h);
    do h2 <- (if is_red (left_of h1) && is_red (left_of (left_of h1)) then rotate_right h1 else Some h1);
    if is_red (left_of h2) && is_red (right_of h2) then flip_colors h2 else Some h2.

  (** mod.rs:735-758 [insert::go] *)
  Fixpoint insert_go (k : bytes) (v : V) (t : rb) : option rb :=
    match t with
    | E => Some (new_node k v)
    | T c l k' v' r _ =>
        match bcmp k k' with
        | Eq => balance (upd c l k' v r)
        | Lt => do l' <- insert_go k v l; balance (upd c l' k' v' r)
        | Gt => do r' <- insert_go k v r; balance (upd c l k' v' r')
        end
    end.

  Definition set_color (c : color) (t : rb) : rb :=
    match t with E => E | T _ l k v r h => T c l k v r h end.

  (** mod.rs:734-769 [insert] (the [cfg(test)] assertion is not compiled into
      the library; that it always holds is theorem C09). *)
  Definition insert (k : bytes) (v : V) (t : rb) : option rb :=
    do t' <- insert_go k v t; Some (set_color Black t').

  (** mod.rs:773-783 [move_red_left] *)
  Definition move_red_left (h : rb) : option rb :=
    do h1 <- flip_colors h;
    match h1 with
    | T c l k v r hh =>
        if is_red (left_of r) then
          do r' <- rotate_right r;
          do h2 <- rotate_left (T c l k v r' hh);
          flip_colors h2
        else Some h1
    | E => None
    end.

  (** mod.rs:785-794 [move_red_right] *)
  Definition move_red_right (h : rb) : option rb :=
    do h1 <- flip_colors h;
    if is_red (left_of (left_of h1)) then
      do h2 <- rotate_right h1; flip_colors h2
    else Some h1.

  (** Number of nodes, used as fuel only. *)
  Fixpoint size (t : rb) : nat :=
    match t with E => 0 | T _ l _ _ r _ => S (size l + size r) end.

  (** mod.rs:806-820 [delete_min]: the recursive calls are on restructured
      trees, so it recurses on fuel; [size] many steps always suffice. *)
  Fixpoint delete_min (fuel : nat) (h : rb) : option rb :=
    match fuel with
    | O => None
    | S fuel' =>
        match left_of h with
        | E => assert_ (is_some h && negb (is_some (right_of h))) (Some E)
        | _ =>
            do h1 <- (if negb (is_red (left_of h)) && negb (is_red (left_of (left_of h)))
                      then move_red_left h else Some h);
            match h1 with
            | T c l k v r _ =>
                assert_ (is_some l)
                  (do l' <- delete_min fuel' l;
                   balance (upd c l' k v r))
            | E => None
            end
        end
    end.

  (** mod.rs:797-804 and 846-850: [min] finds the leftmost node [m] of the right
      subtree; key and value of the deleted node and of [m] are swapped.  The
      cached hash of [m] is left as it is (stale). *)
  Fixpoint swap_min (k : bytes) (v : V) (t : rb) : option (bytes * V * rb) :=
    match t with
    | E => None
    | T c E mk mv r h => Some (mk, mv, T c E k v r h)
    | T c l mk mv r h =>
        match swap_min k v l with
        | Some (k', v', l') => Some (k', v', T c l' mk mv r h)
        | None => None
        end
    end.

  (** mod.rs:822-857 [delete::go] *)
  Fixpoint delete_go (fuel : nat) (key : bytes) (h : rb) : option rb :=
    match fuel with
    | O => None
    | S fuel' =>
        match h with
        | E => None
        | T _ l0 k0 _ _ _ =>
            match bcmp key k0 with
            | Lt =>
                assert_ (is_some l0)
                  (do h1 <- (if negb (is_red l0) && negb (is_red (left_of l0))
                             then move_red_left h else Some h);
                   match h1 with
                   | T c l k v r _ =>
                       assert_ (is_some l)
                         (do l' <- delete_go fuel' key l;
                          balance (upd c l' k v r))
                   | E => None
                   end)
            | _ =>
                do h1 <- (if is_red l0 then rotate_right h else Some h);
                match h1 with
                | E => None
                | T _ l1 k1 _ r1 _ =>
                    if bytes_eqb key k1 && negb (is_some r1) then
                      assert_ (negb (is_some l1)) (Some E)
                    else
                      assert_ (is_red r1 || is_some r1)
                      (do h2 <- (if negb (is_red r1) && negb (is_red (left_of r1))
                                 then move_red_right h1 else Some h1);
                       match h2 with
                       | E => None
                       | T c l k v r _ =>
                           assert_ (is_some r)
                             (if bytes_eqb key k then
                                match swap_min k v r with
                                | None => None
                                | Some (mk, mv, r') =>
                                    do r'' <- delete_min fuel' r';
                                    balance (upd c l mk mv r'')
                                end
                              else
                                do r' <- delete_go fuel' key r;
                                balance (upd c l k v r'))
                       end)
                end
            end
        end
    end.

  (** mod.rs:772-880 [delete] *)
  Definition delete (key : bytes) (t : rb) : option rb :=
    match get key t with
    | None => Some t
    | Some _ =>
        let t1 := if negb (is_red (left_of t)) && negb (is_red (right_of t))
                  then set_color Red t else t in
        do t2 <- delete_go (S (size t1)) key t1;
        let t3 := set_color Black t2 in
        assert_ (match get key t3 with None => true | Some _ => false end) (Some t3)
    end.

  (** ** Witnesses *)

  Section Witness.
    Variable f : bytes -> V -> htree.

    (** mod.rs:496-531 [witness_range_above] *)
    Fixpoint witness_range_above (lo : kbound) (t : rb) : htree :=
      match t with
      | E => HEmpty
      | T _ l k v r _ =>
          match bcmp k (kb_key lo) with
          | Eq => three_way_fork H (child_hash_tree l)
                    (match lo with Exact _ => f k v | Neighbor _ => witness_tree k v end)
                    (full_witness_tree f r)
          | Lt => three_way_fork H (child_hash_tree l) (HPruned (data_hash k v))
                    (witness_range_above lo r)
          | Gt => three_way_fork H (witness_range_above lo l) (f k v) (full_witness_tree f r)
          end
      end.

    (** mod.rs:533-568 [witness_range_below] *)
    Fixpoint witness_range_below (hi : kbound) (t : rb) : htree :=
      match t with
      | E => HEmpty
      | T _ l k v r _ =>
          match bcmp k (kb_key hi) with
          | Eq => three_way_fork H (full_witness_tree f l)
                    (match hi with Exact _ => f k v | Neighbor _ => witness_tree k v end)
                    (child_hash_tree r)
          | Gt => three_way_fork H (witness_range_below hi l) (HPruned (data_hash k v))
                    (child_hash_tree r)
          | Lt => three_way_fork H (full_witness_tree f l) (f k v) (witness_range_below hi r)
          end
      end.

    (** mod.rs:570-637 [witness_range_between] without its [debug_assert!]
        (see [range_witness]). *)
    Fixpoint witness_range_between (lo hi : kbound) (t : rb) : htree :=
      match t with
      | E => HEmpty
      | T _ l k v r h =>
          match bcmp (kb_key lo) k, bcmp k (kb_key hi) with
          | Lt, Lt => three_way_fork H (witness_range_between lo hi l) (f k v)
                        (witness_range_between lo hi r)
          | Eq, Eq => three_way_fork H (child_hash_tree l)
                        (match lo, hi with
                         | Exact _, _ => f k v
                         | _, Exact _ => f k v
                         | _, _ => witness_tree k v
                         end)
                        (child_hash_tree r)
          | _, Eq => three_way_fork H (witness_range_between lo hi l)
                        (match hi with Exact _ => f k v | Neighbor _ => witness_tree k v end)
                        (child_hash_tree r)
          | Eq, _ => three_way_fork H (child_hash_tree l)
                        (match lo with Exact _ => f k v | Neighbor _ => witness_tree k v end)
                        (witness_range_between lo hi r)
          | Lt, Gt => three_way_fork H (witness_range_between lo hi l)
                        (HPruned (data_hash k v)) (child_hash_tree r)
          | Gt, Lt => three_way_fork H (child_hash_tree l)
                        (HPruned (data_hash k v)) (witness_range_between lo hi r)
          | Gt, Gt => HPruned h
          end
      end.

    (** mod.rs:399-411 [range_witness] with the [debug_assert!] of
        mod.rs:576-581 ([None] = panic). *)
    Definition range_witness (lo hi : option kbound) (t : rb) : option htree :=
      match lo, hi with
      | None, None => Some (full_witness_tree f t)
      | Some l, None => Some (witness_range_above l t)
      | None, Some r => Some (witness_range_below r t)
      | Some l, Some r =>
          match bcmp (kb_key l) (kb_key r) with
          | Gt => None
          | _ => Some (witness_range_between l r t)
          end
      end.
  End Witness.

  Definition or_else {A} (a b : option A) : option A :=
    match a with Some x => Some x | None => b end.

  (** mod.rs:639-654 [lower_bound] *)
  Fixpoint lower_bound (key : bytes) (t : rb) : option kbound :=
    match t with
    | E => None
    | T _ l k _ r _ =>
        match bcmp k key with
        | Lt => or_else (lower_bound key r) (Some (Neighbor k))
        | Eq => Some (Exact k)
        | Gt => lower_bound key l
        end
    end.

  (** mod.rs:656-671 [upper_bound] *)
  Fixpoint upper_bound (key : bytes) (t : rb) : option kbound :=
    match t with
    | E => None
    | T _ l k _ r _ =>
        match bcmp k key with
        | Lt => upper_bound key r
        | Eq => Some (Exact k)
        | Gt => or_else (upper_bound key l) (Some (Neighbor k))
        end
    end.

  (** mod.rs:673-694 [right_prefix_neighbor] *)
  Fixpoint right_prefix_neighbor (prefix : bytes) (t : rb) : option kbound :=
    match t with
    | E => None
    | T _ l k _ r _ =>
        match bcmp k prefix with
        | Gt => if bprefix prefix k then right_prefix_neighbor prefix r
                else or_else (right_prefix_neighbor prefix l) (Some (Neighbor k))
        | Lt | Eq => right_prefix_neighbor prefix r
        end
    end.

  (** mod.rs:696-731 [lookup_and_build_witness] *)
  Section Build.
    Variable f : V -> htree.
    Fixpoint lookup_and_build_witness (key : bytes) (t : rb) : option htree :=
      match t with
      | E => None
      | T _ l k v r _ =>
          match bcmp key k with
          | Eq => Some (three_way_fork H (child_hash_tree l) (HLabeled k (f v)) (child_hash_tree r))
          | Lt => do sub <- lookup_and_build_witness key l;
                  Some (three_way_fork H sub (HPruned (data_hash k v)) (child_hash_tree r))
          | Gt => do sub <- lookup_and_build_witness key r;
                  Some (three_way_fork H (child_hash_tree l) (HPruned (data_hash k v)) sub)
          end
      end.
  End Build.

  (** mod.rs:425-434 [nested_witness] *)
  Definition nested_witness (key : bytes) (f : V -> htree) (t : rb) : option htree :=
    match lookup_and_build_witness f key t with
    | Some w => Some w
    | None => range_witness witness_tree (lower_bound key t) (upper_bound key t) t
    end.

  (** mod.rs:418-420 [witness] *)
  Definition witness (key : bytes) (t : rb) : option htree := nested_witness key vtree t.

  (** mod.rs:439-472 *)
  Definition keys (t : rb) : htree := full_witness_tree witness_tree t.
  Definition key_range (first last : bytes) (t : rb) : option htree :=
    range_witness witness_tree (lower_bound first t) (upper_bound last t) t.
  Definition value_range (first last : bytes) (t : rb) : option htree :=
    range_witness data_tree (lower_bound first t) (upper_bound last t) t.
  Definition keys_with_prefix (prefix : bytes) (t : rb) : option htree :=
    range_witness witness_tree (lower_bound prefix t) (right_prefix_neighbor prefix t) t.

  (** ** Iterator, mod.rs:187-265.
      [parents] is a stack, top first.  The code decides whether the popped
      node was its parent's left child by comparing pointers; the model records
      with each stack entry whether it was pushed as a left child ([true]). *)
  Inductive visit := VPre | VIn | VPost.
  Definition iter_state := (visit * list (rb * bool))%type.

  (** mod.rs:475-486 [iter] *)
  Definition iter_init (t : rb) : iter_state :=
    (VPre, match t with E => [] | _ => [(t, false)] end).

  (** mod.rs:214-251 [step]; [None] when it returns [false]. *)
  Definition iter_step (s : iter_state) : option iter_state :=
    match s with
    | (_, []) => None
    | (VPre, (tip, b) :: ps) =>
        match left_of tip with
        | E => Some (VIn, (tip, b) :: ps)
        | l => Some (VPre, (l, true) :: (tip, b) :: ps)
        end
    | (VIn, (tip, b) :: ps) =>
        match right_of tip with
        | E => Some (VPost, (tip, b) :: ps)
        | r => Some (VPre, (r, false) :: (tip, b) :: ps)
        end
    | (VPost, (tip, b) :: ps) =>
        match ps with
        | [] => Some (VPost, [])
        | _ => Some ((if b then VIn else VPost), ps)
        end
    end.

  (** mod.rs:257-264 [next], on fuel: [None] is fuel exhaustion. *)
  Fixpoint iter_next (fuel : nat) (s : iter_state) : option (option (bytes * V) * iter_state) :=
    match fuel with
    | O => None
    | S fuel' =>
        match iter_step s with
        | None => Some (None, s)
        | Some s' =>
            match s' with
            | (VIn, (T _ _ k v _ _, _) :: _) => Some (Some (k, v), s')
            | (VIn, _) => Some (None, s')
            | _ => iter_next fuel' s'
            end
        end
    end.

  (** Drain the iterator: call [next] until it returns [None]. *)
  Fixpoint iter_collect (n : nat) (fuel : nat) (s : iter_state) : option (list (bytes * V)) :=
    match n with
    | O => None
    | S n' =>
        match iter_next fuel s with
        | None => None
        | Some (None, _) => Some []
        | Some (Some e, s') => do r <- iter_collect n' fuel s'; Some (e :: r)
        end
    end.

  (** ** Histories *)
  Inductive op :=
  | OpInsert (k : bytes) (v : V)
  | OpDelete (k : bytes)
  | OpModify (k : bytes) (f : V -> V).

  Definition step (t : rb) (o : op) : option rb :=
    match o with
    | OpInsert k v => insert k v t
    | OpDelete k => delete k t
    | OpModify k f => Some (modify k f t)
    end.
  Fixpoint run (ops : list op) (t : rb) : option rb :=
    match ops with
    | [] => Some t
    | o :: ops' => do t' <- step t o; run ops' t'
    end.
End RbTree.
