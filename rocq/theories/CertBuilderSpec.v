(** Specification vocabulary for C79: what a sequence of builder calls asks for,
    hash trees that arrange a labelled tree, and key pairs that sign correctly. *)
From Coq Require Import List NArith Sorted.
From Verif Require Import Bytes HashTree Cbor CertSpec CertBuilder.
Import ListNotations.
Local Open Scope N_scope.

(** The argument of the last call of a kind, if any. *)
Fixpoint last_some {A B} (f : A -> option B) (l : list A) : option B :=
  match l with
  | [] => None
  | x :: r => match last_some f r with Some y => Some y | None => f x end
  end.
Definition asked_time (calls : list cb_call) : option N :=
  last_some (fun c => match c with WithTime t => Some t | _ => None end) calls.
Definition asked_delegation (calls : list cb_call) : option (N * list (N * N)) :=
  last_some (fun c => match c with WithDelegation s r => Some (s, r) | _ => None end) calls.
Definition asked_nested (calls : list cb_call) : option (N * list (N * N)) :=
  last_some (fun c => match c with WithNestedDelegation s r => Some (s, r) | _ => None end) calls.

(** [arranges l t]: [t] is a hash tree of the labelled tree [l]: an inner node's
    children, in order, are the labelled nodes under some nesting of forks. *)
Inductive arranges : ltree -> htree -> Prop :=
| ArLeaf v : arranges (LLeaf v) (HLeaf v)
| ArEmpty : arranges (LSub []) HEmpty
| ArNode kids t : row kids t -> arranges (LSub kids) t
with row : list (bytes * ltree) -> htree -> Prop :=
| RowOne k c t : arranges c t -> row [(k, c)] (HLabeled k t)
| RowFork a b x y : row a x -> row b y -> row (a ++ b) (HFork x y).

(** [leaf_at p l v]: in [l], path [p] leads to a leaf holding [v]. *)
Inductive leaf_at : list bytes -> ltree -> bytes -> Prop :=
| LaHere v : leaf_at [] (LLeaf v) v
| LaDown k p kids c v : In (k, c) kids -> leaf_at p c v -> leaf_at (k :: p) (LSub kids) v.

(** Labels strictly increasing in every inner node (ic_crypto_tree_hash::FlatMap). *)
Inductive sorted_ltree : ltree -> Prop :=
| SlLeaf v : sorted_ltree (LLeaf v)
| SlSub kids : StronglySorted blt (map fst kids) -> Forall (fun kc => sorted_ltree (snd kc)) kids -> sorted_ltree (LSub kids).

(** Key pairs whose signatures verify. *)
Definition keys_sign (vs : bytes -> bytes -> bytes -> bool) (pub : nat -> bytes) (sign : nat -> bytes -> bytes) : Prop :=
  forall i, exists pk, der_of (pub i) pk /\ forall m, vs pk (sign i m) m = true.
