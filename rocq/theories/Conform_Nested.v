(** * Conformance of the model with the unit tests of
    /repo/packages/ic-certification/src/nested_rb_tree.rs:265-607 and
    ic-certificate-verification/src/signature_verification/tests.rs:82-122.
    See Conform_Core.v. *)
From Coq Require Import List NArith Bool String Strings.Byte.
From Verif Require Import Bytes HashTree RbTree Nested Toy SigCache.
Import ListNotations.
Definition p (l : list string) : list bytes := map bs l.
Definition observe (t : option ntree) (gets leaves paths : list (list string)) : option (list (option bytes) * list bool * list bool) :=
  option_map (fun t => (map (fun l => nget (p l) t) gets, map (fun l => contains_leaf (p l) t) leaves, map (fun l => contains_path (p l) t) paths)) t.
Local Open Scope string_scope.
Example nested_tree_operation_1 :
  observe (nrun toy [NInsert (p ["one"; "two"]) [x02]; NInsert (p ["one"; "three"]) [x03]] ndefault)
    [["one"; "two"]; ["one"; "three"]; ["one"; "two"; "three"]; ["one"; "three"; "two"]; ["one"]]
    [["one"; "two"]; ["one"; "three"]; ["one"; "two"; "three"]; ["one"; "three"; "two"]; ["one"]]
    [["one"; "two"]; ["one"; "three"]; ["one"; "two"; "three"]; ["one"; "three"; "two"]; ["one"]]
  = Some ([Some [x02]; Some [x03]; None; None; None], [true; true; false; false; false], [true; true; false; false; true]).
Proof. vm_compute. reflexivity. Qed.
Example nested_tree_operation_2 :
  observe (nrun toy [NInsert (p ["one"; "two"]) [x02]; NInsert (p ["one"; "three"]) [x03]; NDelete (p ["one"; "two"; "three"])] ndefault)
    [["one"; "two"]; ["one"; "three"]; ["one"; "two"; "three"]; ["one"; "three"; "two"]; ["one"]]
    [["one"; "two"]; ["one"; "three"]; ["one"; "two"; "three"]; ["one"; "three"; "two"]; ["one"]]
    [["one"; "two"]; ["one"; "three"]; ["one"; "two"; "three"]; ["one"; "three"; "two"]; ["one"]]
  = Some ([Some [x02]; Some [x03]; None; None; None], [true; true; false; false; false], [true; true; false; false; true]).
Proof. vm_compute. reflexivity. Qed.
Example nested_tree_operation_3 :
  observe (nrun toy [NInsert (p ["one"; "two"]) [x02]; NInsert (p ["one"; "three"]) [x03]; NDelete (p ["one"; "two"; "three"]); NDelete (p ["one"; "three"])] ndefault)
    [["one"; "two"]; ["one"; "three"]; ["one"; "two"; "three"]; ["one"; "three"; "two"]; ["one"]]
    [["one"; "two"]; ["one"; "three"]; ["one"; "two"; "three"]; ["one"; "three"; "two"]; ["one"]]
    [["one"; "two"]; ["one"; "three"]; ["one"; "two"; "three"]; ["one"; "three"; "two"]; ["one"]]
  = Some ([Some [x02]; None; None; None; None], [true; false; false; false; false], [true; false; false; false; true]).
Proof. vm_compute. reflexivity. Qed.
Example nested_tree_operation_4 :
  observe (nrun toy [NInsert (p ["one"; "two"]) [x02]; NInsert (p ["one"; "three"]) [x03]; NDelete (p ["one"; "two"; "three"]); NDelete (p ["one"; "three"]); NDelete (p ["one"])] ndefault)
    [["one"; "two"]; ["one"; "three"]; ["one"; "two"; "three"]; ["one"; "three"; "two"]; ["one"]]
    [["one"; "two"]; ["one"; "three"]; ["one"; "two"; "three"]; ["one"; "three"; "two"]; ["one"]]
    [["one"; "two"]; ["one"; "three"]; ["one"; "two"; "three"]; ["one"; "three"; "two"]; ["one"]]
  = Some ([None; None; None; None; None], [false; false; false; false; false], [false; false; false; false; false]).
Proof. vm_compute. reflexivity. Qed.
Example delete_removes_empty_subpaths_1 :
  observe (nrun toy [NInsert (p ["one"; "two"; "three"; "four"]) [x04]; NInsert (p ["one"; "two"; "three"; "five"]) [x05]; NInsert (p ["one"; "two"; "six"]) [x06]; NInsert (p ["one"; "seven"]) [x07]] ndefault)
    []
    [["one"; "two"; "three"; "four"]; ["one"; "two"; "three"; "five"]; ["one"; "two"; "six"]; ["one"; "seven"]]
    [["one"; "two"; "three"; "four"]; ["one"; "two"; "three"; "five"]; ["one"; "two"; "three"]; ["one"; "two"; "six"]; ["one"; "two"]; ["one"; "seven"]; ["one"]]
  = Some ([], [true; true; true; true], [true; true; true; true; true; true; true]).
Proof. vm_compute. reflexivity. Qed.
Example delete_removes_empty_subpaths_2 :
  observe (nrun toy [NInsert (p ["one"; "two"; "three"; "four"]) [x04]; NInsert (p ["one"; "two"; "three"; "five"]) [x05]; NInsert (p ["one"; "two"; "six"]) [x06]; NInsert (p ["one"; "seven"]) [x07]; NDelete (p ["one"; "two"; "three"; "four"])] ndefault)
    []
    [["one"; "two"; "three"; "four"]; ["one"; "two"; "three"; "five"]; ["one"; "two"; "six"]; ["one"; "seven"]]
    [["one"; "two"; "three"; "four"]; ["one"; "two"; "three"; "five"]; ["one"; "two"; "three"]; ["one"; "two"; "six"]; ["one"; "two"]; ["one"; "seven"]; ["one"]]
  = Some ([], [false; true; true; true], [false; true; true; true; true; true; true]).
Proof. vm_compute. reflexivity. Qed.
Example delete_removes_empty_subpaths_3 :
  observe (nrun toy [NInsert (p ["one"; "two"; "three"; "four"]) [x04]; NInsert (p ["one"; "two"; "three"; "five"]) [x05]; NInsert (p ["one"; "two"; "six"]) [x06]; NInsert (p ["one"; "seven"]) [x07]; NDelete (p ["one"; "two"; "three"; "four"]); NDelete (p ["one"; "two"; "three"; "five"])] ndefault)
    []
    [["one"; "two"; "three"; "four"]; ["one"; "two"; "three"; "five"]; ["one"; "two"; "six"]; ["one"; "seven"]]
    [["one"; "two"; "three"; "four"]; ["one"; "two"; "three"; "five"]; ["one"; "two"; "three"]; ["one"; "two"; "six"]; ["one"; "two"]; ["one"; "seven"]; ["one"]]
  = Some ([], [false; false; true; true], [false; false; false; true; true; true; true]).
Proof. vm_compute. reflexivity. Qed.
Example delete_removes_empty_subpaths_4 :
  observe (nrun toy [NInsert (p ["one"; "two"; "three"; "four"]) [x04]; NInsert (p ["one"; "two"; "three"; "five"]) [x05]; NInsert (p ["one"; "two"; "six"]) [x06]; NInsert (p ["one"; "seven"]) [x07]; NDelete (p ["one"; "two"; "three"; "four"]); NDelete (p ["one"; "two"; "three"; "five"]); NDelete (p ["one"; "two"; "six"])] ndefault)
    []
    [["one"; "two"; "three"; "four"]; ["one"; "two"; "three"; "five"]; ["one"; "two"; "six"]; ["one"; "seven"]]
    [["one"; "two"; "three"; "four"]; ["one"; "two"; "three"; "five"]; ["one"; "two"; "three"]; ["one"; "two"; "six"]; ["one"; "two"]; ["one"; "seven"]; ["one"]]
  = Some ([], [false; false; false; true], [false; false; false; false; false; true; true]).
Proof. vm_compute. reflexivity. Qed.
Example delete_removes_empty_subpaths_5 :
  observe (nrun toy [NInsert (p ["one"; "two"; "three"; "four"]) [x04]; NInsert (p ["one"; "two"; "three"; "five"]) [x05]; NInsert (p ["one"; "two"; "six"]) [x06]; NInsert (p ["one"; "seven"]) [x07]; NDelete (p ["one"; "two"; "three"; "four"]); NDelete (p ["one"; "two"; "three"; "five"]); NDelete (p ["one"; "two"; "six"]); NDelete (p ["one"; "seven"])] ndefault)
    []
    [["one"; "two"; "three"; "four"]; ["one"; "two"; "three"; "five"]; ["one"; "two"; "six"]; ["one"; "seven"]]
    [["one"; "two"; "three"; "four"]; ["one"; "two"; "three"; "five"]; ["one"; "two"; "three"]; ["one"; "two"; "six"]; ["one"; "two"]; ["one"; "seven"]; ["one"]]
  = Some ([], [false; false; false; false], [false; false; false; false; false; false; false]).
Proof. vm_compute. reflexivity. Qed.
(** nested_rb_tree.rs [merge_hash_trees_merge_witness] *)
Definition four : option ntree :=
  nrun toy [NInsert (p ["one"; "two"]) [x01]; NInsert (p ["one"; "three"]) [x02]; NInsert (p ["two"; "two"]) [x03]; NInsert (p ["two"; "three"]) [x04]] ndefault.
Definition merged : option htree :=
  do t <- four; do a <- nwitness toy (p ["one"; "two"]) t; do b <- nwitness toy (p ["two"; "three"]) t; merge a b.
Example merge_hash_trees_merge_witness :
  (option_map (fun w => map (fun l => lookup_path (p l) w) [["one"; "two"]; ["one"; "three"]; ["two"; "three"]; ["two"; "two"]]) merged
     = Some [Found [x01]; Unknown; Found [x04]; Unknown])
  /\ (do w <- merged; merge HEmpty w) = merged /\ (do w <- merged; merge w HEmpty) = merged.
Proof. vm_compute. split; [reflexivity|split; reflexivity]. Qed.
(** [merge_hash_trees_operation], [merge_hash_trees_inconsistent_structure] *)
Definition pruned_a : htree := HPruned (repeat x00 32).
Definition pruned_b : htree := HPruned (repeat x01 32).
Definition labeled_a : htree := HLabeled (bs "foo") pruned_a.
Definition labeled_b : htree := HLabeled (bs "bar") pruned_a.
Definition leaf_a : htree := HLeaf (repeat x00 32).
Definition leaf_b : htree := HLeaf (repeat x01 32).
Definition fork_a : htree := HFork leaf_a leaf_b.
Example merge_hash_trees_operation :
  map (fun c => merge (fst c) (snd c))
    [(HEmpty, labeled_a); (labeled_a, HEmpty); (HEmpty, leaf_a); (leaf_a, HEmpty); (pruned_a, pruned_a); (pruned_a, labeled_a); (labeled_a, pruned_a); (pruned_a, leaf_a); (leaf_a, pruned_a); (HEmpty, pruned_a); (pruned_a, HEmpty); (HEmpty, HEmpty); (fork_a, fork_a); (leaf_a, leaf_a)]
  = [Some labeled_a; Some labeled_a; Some leaf_a; Some leaf_a; Some pruned_a; Some labeled_a; Some labeled_a; Some leaf_a; Some leaf_a; Some HEmpty; Some HEmpty; Some HEmpty; Some fork_a; Some leaf_a].
Proof. vm_compute. reflexivity. Qed.
Example merge_hash_trees_inconsistent_structure :
  map (fun c => merge (fst c) (snd c))
    [(pruned_a, pruned_b); (labeled_a, labeled_b); (leaf_a, leaf_b); (leaf_a, fork_a); (fork_a, leaf_a); (labeled_a, fork_a); (fork_a, labeled_a); (leaf_a, fork_a); (fork_a, leaf_a)]
  = repeat None 9.
Proof. vm_compute. reflexivity. Qed.

(** signature_verification/tests.rs:82-122 [should_have_signature_cache_update_lru_status_after_cache_hit]:
    a run is a list of insertions and of lookups with their expected answers *)
Inductive cop := Ins (k : string) | Has (k : string) (expected : bool).
Fixpoint cache_run (cap : nat) (l : list cop) (s : st (lru cap)) : bool :=
  match l with
  | [] => true
  | Ins k :: r => cache_run cap r (set (lru cap) (bs k) s)
  | Has k b :: r => let (h, s') := get (lru cap) (bs k) s in Bool.eqb h b && cache_run cap r s'
  end.
Example should_have_signature_cache_update_lru_status_after_cache_hit :
  cache_run 3 [Ins "1"; Ins "2"; Ins "3"; Has "1" true; Has "2" true; Has "3" true; Has "4" false; Ins "4";
               Has "4" true; Has "3" true; Has "2" true; Has "1" false; Ins "1";
               Has "1" true; Has "2" true; Has "3" true; Has "4" false] ([] : list bytes) = true.
Proof. vm_compute. reflexivity. Qed.
(** tests.rs:22-80 [should_have_signature_cache_behave_like_a_lru_cache], with 10 entries instead of 1000 and
    without the statistics, which are not modelled *)
Definition old_keys : list string := ["a"; "b"; "c"; "d"; "e"; "f"; "g"; "h"; "i"; "j"].
Definition new_keys : list string := ["k"; "l"; "m"; "n"; "o"; "p"; "q"; "r"; "s"; "t"].
Example should_have_signature_cache_behave_like_a_lru_cache :
  cache_run 10 (flat_map (fun k => [Has k false; Ins k; Has k true; Has k true]) old_keys
                ++ map (fun k => Has k true) old_keys
                ++ flat_map (fun i => let k := nth i new_keys "" in
                     [Has k false; Ins k; Has k true] ++ map (fun k => Has k false) (firstn i old_keys))
                     (List.seq 0 10)
                ++ map (fun k => Has k false) old_keys)%list ([] : list bytes) = true.
Proof. vm_compute. reflexivity. Qed.
