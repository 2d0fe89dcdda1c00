(** Specification for C118: which data items stand for hash trees, certificates, lists of
    canister ranges and lists of strings. *)
From Coq Require Import List NArith Bool.
From Verif Require Import Bytes Utf8 HashTree Cbor CborSpec CborGrammar.
Import ListNotations.
Local Open Scope N_scope.

Fixpoint untagged (i : item) : item := match i with ITagged _ _ i => untagged i | _ => i end.
(** tags are ignored everywhere; the number is written in one or two bytes *)
Definition is_small (n : N) (i : item) : Prop := untagged i = INumber (Imm n) \/ untagged i = INumber (Arg1 n).
Definition is_string (s : bytes) (i : item) : Prop := exists text a, untagged i = IString text a s.
Definition is_array (l : list item) (i : item) : Prop := exists a, untagged i = IArray a l.
Definition is_map (l : list (item * item)) (i : item) : Prop := exists a, untagged i = IMap a l.

(** [empty], [fork], [labeled], [leaf], [pruned]: arrays beginning with 0 to 4; what follows the
    parts of a node is ignored *)
Inductive is_tree : htree -> item -> Prop :=
| TEmptyNode n more i : is_array (n :: more) i -> is_small 0 n -> is_tree HEmpty i
| TForkNode n l r more tl tr i : is_array (n :: l :: r :: more) i -> is_small 1 n -> is_tree tl l -> is_tree tr r -> is_tree (HFork tl tr) i
| TLabeledNode n k c more s t i : is_array (n :: k :: c :: more) i -> is_small 2 n -> is_string s k -> is_tree t c -> is_tree (HLabeled s t) i
| TLeafNode n d more s i : is_array (n :: d :: more) i -> is_small 3 n -> is_string s d -> is_tree (HLeaf s) i
| TPrunedNode n d more s i : is_array (n :: d :: more) i -> is_small 4 n -> is_string s d -> length s = 32%nat -> is_tree (HPruned s) i.

(** the entry of a map with a key: the last one *)
Definition entry (key : bytes) (l : list (item * item)) (x : item) : Prop :=
  exists before k after, l = before ++ (k, x) :: after /\ is_string key k /\ Forall (fun kv => ~ is_string key (fst kv)) after.

Definition is_certificate (c : certificate) (i : item) : Prop :=
  exists l, is_map l i /\
  (exists x, entry (bs "tree") l x /\ is_tree (c_tree c) x) /\
  (exists x, entry (bs "signature") l x /\ is_string (c_sig c) x) /\
  match c_deleg c with
  | Some d => exists x m, entry (bs "delegation") l x /\ is_map m x /\
      (exists y, entry (bs "subnet_id") m y /\ is_string (d_subnet d) y) /\
      (exists y, entry (bs "certificate") m y /\ is_string (d_cert d) y)
  | None => forall x, entry (bs "delegation") l x -> forall m, ~ is_map m x
  end.

(** canister ranges: arrays of arrays of two ids (at most 29 bytes each), and maybe more *)
Definition is_range_item (r : bytes * bytes) (i : item) : Prop :=
  exists a b more, is_array (a :: b :: more) i /\ is_string (fst r) a /\ is_string (snd r) b.
Definition is_ranges (rs : list (bytes * bytes)) (i : item) : Prop :=
  exists l, is_array l i /\ Forall2 is_range_item rs l /\ Forall (fun r => (length (fst r) <= 29)%nat /\ (length (snd r) <= 29)%nat) rs.
Definition is_strings (ss : list bytes) (i : item) : Prop :=
  exists l, is_array l i /\ Forall2 is_string ss l /\ Forall (fun s => utf8_valid s = true) ss.
