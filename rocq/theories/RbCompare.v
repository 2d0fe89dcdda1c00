(** Model of the comparison and construction of whole [RbTree]s,
    packages/ic-certification/src/rb_tree/mod.rs:274-327. *)
From Coq Require Import List NArith Bool.
From Verif Require Import Bytes HashTree RbTree.
Import ListNotations.

Section Compare.
  Variable V : Type.
  (** [V: PartialEq] and [V: Ord]; keys compare as their bytes. *)
  Variable veq : V -> V -> bool.
  Variable vcmp : V -> V -> comparison.

  (** [==] and [cmp] of the tuples [(&K, &V)] the iterator yields *)
  Definition entry_eq (a b : bytes * V) : bool := bytes_eqb (fst a) (fst b) && veq (snd a) (snd b).
  Definition entry_cmp (a b : bytes * V) : comparison :=
    match bcmp (fst a) (fst b) with Eq => vcmp (snd a) (snd b) | c => c end.

  (** [Iterator::eq] on the two iterators (mod.rs:279-281): both are advanced in
      lockstep and are dropped at the first difference.  [None] is fuel
      exhaustion. *)
  Fixpoint iter_eq (n fuel : nat) (s1 s2 : iter_state V) : option bool :=
    match n with
    | O => None
    | S n' =>
        match iter_next V fuel s1 with
        | None => None
        | Some (None, _) =>
            match iter_next V fuel s2 with
            | None => None
            | Some (None, _) => Some true
            | Some (Some _, _) => Some false
            end
        | Some (Some a, s1') =>
            match iter_next V fuel s2 with
            | None => None
            | Some (None, _) => Some false
            | Some (Some b, s2') => if entry_eq a b then iter_eq n' fuel s1' s2' else Some false
            end
        end
    end.
  (** [Iterator::cmp] (mod.rs:296-308; [partial_cmp] is the same for total orders) *)
  Fixpoint iter_cmp (n fuel : nat) (s1 s2 : iter_state V) : option comparison :=
    match n with
    | O => None
    | S n' =>
        match iter_next V fuel s1 with
        | None => None
        | Some (None, _) =>
            match iter_next V fuel s2 with
            | None => None
            | Some (None, _) => Some Eq
            | Some (Some _, _) => Some Lt
            end
        | Some (Some a, s1') =>
            match iter_next V fuel s2 with
            | None => None
            | Some (None, _) => Some Gt
            | Some (Some b, s2') =>
                match entry_cmp a b with
                | Eq => iter_cmp n' fuel s1' s2'
                | c => Some c
                end
            end
        end
    end.

  (** mod.rs:274-282, 292-308: [t1 == t2], [t1.cmp(&t2)]; a tree with [m] nodes is
      walked in [3 m] steps, so this much fuel is always enough. *)
  Definition tree_eq (t1 t2 : rb V) : option bool :=
    let n := S (3 * (size V t1 + size V t2)) in iter_eq n n (iter_init V t1) (iter_init V t2).
  Definition tree_cmp (t1 t2 : rb V) : option comparison :=
    let n := S (3 * (size V t1 + size V t2)) in iter_cmp n n (iter_init V t1) (iter_init V t2).

  (** mod.rs:310-326 [from_iter] *)
  Fixpoint insert_all (H : bytes -> bytes) (vhash : V -> bytes) (l : list (bytes * V)) (t : rb V) : option (rb V) :=
    match l with
    | [] => Some t
    | (k, v) :: l' => match insert H V vhash k v t with Some t' => insert_all H vhash l' t' | None => None end
    end.
  Definition from_iter (H : bytes -> bytes) (vhash : V -> bytes) (l : list (bytes * V)) : option (rb V) :=
    insert_all H vhash l E.
End Compare.
