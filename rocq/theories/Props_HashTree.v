(** Properties C01-C07: hash trees. *)
From Coq Require Import List NArith Bool Sorted.
From Verif Require Import Bytes Sha256 HashTree HashTreeSpec HashTreeProofs HashTreeSpecProofs.
Import ListNotations.

(** The example tree of the interface specification (hash_tree/tests). *)
Definition example_tree : htree :=
  HFork
    (HFork (HLabeled (bs "a") (HFork (HFork (HLabeled (bs "x") (HLeaf (bs "hello"))) HEmpty)
                                     (HLabeled (bs "y") (HLeaf (bs "world")))))
           (HLabeled (bs "b") (HLeaf (bs "good"))))
    (HFork (HLabeled (bs "c") HEmpty) (HLabeled (bs "d") (HLeaf (bs "morning")))).
(** The same data without the empty node under a fork. *)
Definition example_wf : htree :=
  HFork
    (HFork (HLabeled (bs "a") (HFork (HLabeled (bs "x") (HLeaf (bs "hello")))
                                     (HLabeled (bs "y") (HLeaf (bs "world")))))
           (HLabeled (bs "b") (HLeaf (bs "good"))))
    (HFork (HLabeled (bs "c") HEmpty) (HLabeled (bs "d") (HLeaf (bs "morning")))).
Definition example_pruned : htree :=
  HFork
    (HFork (HLabeled (bs "a") (HFork (HPruned (digest sha256 (HLabeled (bs "x") (HLeaf (bs "hello")))))
                                     (HLabeled (bs "y") (HLeaf (bs "world")))))
           (HPruned (digest sha256 (HLabeled (bs "b") (HLeaf (bs "good"))))))
    (HFork (HLabeled (bs "c") HEmpty) (HPruned (digest sha256 (HLabeled (bs "d") (HLeaf (bs "morning")))))).

(** The digest published in the interface specification. *)
Example example_tree_digest :
  digest sha256 example_tree = unhex "eb5c5b2195e62d996b84c9bcc8259d19a83786a2f59e0878cec84c811f669aa0".
Proof. vm_compute. reflexivity. Qed.
Example example_wf_ok : wf example_wf /\ full example_wf = true /\ hashes32 example_wf = true.
Proof.
  split; [|split; reflexivity].
  cbn [wf example_wf fork_child_ok labels app].
  repeat split; intros a b I J; simpl in I, J;
  repeat match goal with X : _ \/ _ |- _ => destruct X | X : False |- _ => destruct X end; subst; reflexivity.
Qed.
Example example_prunes : prunes sha256 example_wf example_pruned.
Proof. unfold example_wf, example_pruned. repeat (apply PrPruned || constructor). Qed.
Example example_pruned_found : lookup_path [bs "a"; bs "y"] example_pruned = Found (bs "world").
Proof. reflexivity. Qed.
Example example_pruned_absent : lookup_path [bs "a"; bs "z"] example_pruned = Absent.
Proof. reflexivity. Qed.
Example example_pruned_unknown : lookup_path [bs "d"] example_pruned = Unknown.
Proof. reflexivity. Qed.
Example sha256_is_32 : forall x, length (sha256 x) = 32.
Proof. exact sha256_length. Qed.

(** C01 *)
Theorem C01_pruning_preserves_digest :
  forall (H : bytes -> bytes) (t w : htree), prunes H t w -> digest H w = digest H t.
Proof. exact prunes_digest. Qed.
Print Assumptions C01_pruning_preserves_digest.

(** C02 *)
Theorem C02_digest_is_binding :
  forall (H : bytes -> bytes), (forall x, length (H x) = 32) ->
  forall t1 t2, hashes32 t1 = true -> hashes32 t2 = true ->
  digest H t1 = digest H t2 ->
  consistent t1 t2 \/ collision H (preimages H t1) (preimages H t2).
Proof. exact binding. Qed.
Print Assumptions C02_digest_is_binding.

(** If one of the two trees is full, the other is a pruning of it. *)
Theorem C02_full_tree_determines_witness :
  forall (H : bytes -> bytes), (forall x, length (H x) = 32) ->
  forall t w, full t = true -> hashes32 w = true ->
  digest H t = digest H w ->
  prunes H t w \/ collision H (preimages H t) (preimages H w).
Proof. exact digest_eq_prunes. Qed.
Print Assumptions C02_full_tree_determines_witness.

(** C03: values and subtrees found in a witness are those of the full tree. *)
Theorem C03_found_is_sound :
  forall (H : bytes -> bytes) (t w : htree) (p : list bytes) (v : bytes),
  wf t -> full t = true -> prunes H t w ->
  lookup_path p w = Found v -> lookup_path p t = Found v.
Proof.
  intros H t w p v W F P L. generalize (lookup_path_sound H p t w W F P). rewrite L.
  intro A. apply lookup_path_at_iff; assumption.
Qed.
Print Assumptions C03_found_is_sound.

Theorem C03_found_subtree_is_sound :
  forall (H : bytes -> bytes) (t w : htree) (p : list bytes) (s : htree),
  wf t -> full t = true -> prunes H t w ->
  lookup_subtree p w = SFound s -> exists s', lookup_subtree p t = SFound s' /\ prunes H s' s.
Proof.
  intros H t w p s W F P L. generalize (lookup_subtree_sound H p t w W F P). rewrite L.
  intros (c & A & Q). exists c. split; [|exact Q]. apply lookup_subtree_complete; assumption.
Qed.
Print Assumptions C03_found_subtree_is_sound.

(** C04: Absent is a proof of absence. *)
Theorem C04_absent_is_sound :
  forall (H : bytes -> bytes) (t w : htree) (p : list bytes),
  wf t -> full t = true -> prunes H t w ->
  (lookup_path p w = Absent -> (forall v, ~ at_path p t (HLeaf v)) /\ lookup_path p t = Absent) /\
  (lookup_subtree p w = SAbsent -> (forall s, ~ at_path p t s) /\ lookup_subtree p t = SAbsent).
Proof.
  intros H t w p W F P.
  assert (Q : lookup_subtree p w = SAbsent -> (forall s, ~ at_path p t s) /\ lookup_subtree p t = SAbsent).
  { intro L. generalize (lookup_subtree_sound H p t w W F P). rewrite L. intro A.
    split; [exact A|apply lookup_subtree_absent_full; assumption]. }
  split; [|exact Q].
  intro L. generalize (lookup_path_sound H p t w W F P). rewrite L. intro A. split; [exact A|].
  rewrite lookup_path_subtree_all in L |- *.
  destruct (lookup_subtree p w) as [ | | s] eqn:E; try discriminate.
  - destruct (Q eq_refl) as [_ ->]. reflexivity.
  - destruct s; try discriminate. generalize (lookup_subtree_sound H p t w W F P). rewrite E.
    intros (c & B & D). assert (c = HEmpty) by (inversion D; reflexivity). subst c.
    rewrite (lookup_subtree_complete p t HEmpty); auto.
Qed.
Print Assumptions C04_absent_is_sound.

(** C05: on well-formed trees (sorted labels; no empty node or bare leaf
    directly under a fork), pruned or not, lookup is the specification's
    lookup.  The claim for all trees is refuted below. *)
Theorem C05_lookup_is_spec_partial :
  forall (p : list bytes) (t : htree), wf t -> lookup_path p t = spec_lookup p t.
Proof. exact lookup_path_spec. Qed.
Print Assumptions C05_lookup_is_spec_partial.

(** On the specification's own example tree the code answers Absent for the
    path a/y, where the specification (and the tree) has "world". *)
Theorem C05_lookup_is_spec_refuted :
  exists (p : list bytes) (t : htree),
    full t = true /\ StronglySorted blt (labels t) /\
    spec_lookup p t = Found (bs "world") /\ lookup_path p t = Absent.
Proof.
  exists [bs "a"; bs "y"], example_tree. split; [reflexivity|]. split; [|split; reflexivity].
  repeat (constructor; try reflexivity).
Qed.
Print Assumptions C05_lookup_is_spec_refuted.

(** The same defect makes "Absent" unsound on witnesses with an empty node
    beside a pruned one: the pruned part may contain the label. *)
Theorem C05_absent_unsound_on_empty_forks :
  exists (t w : htree) (v : bytes),
    full t = true /\ prunes sha256 t w /\ spec_lookup [bs "a"] t = Found v /\
    spec_lookup [bs "a"] w = Unknown /\ lookup_path [bs "a"] w = Absent.
Proof.
  exists (HFork HEmpty (HLabeled (bs "a") (HLeaf (bs "v")))),
         (HFork HEmpty (HPruned (digest sha256 (HLabeled (bs "a") (HLeaf (bs "v")))))), (bs "v").
  split; [reflexivity|]. split; [repeat (apply PrPruned || constructor)|]. repeat split.
Qed.
Print Assumptions C05_absent_unsound_on_empty_forks.

(** C06 *)
Theorem C06_lookup_path_vs_subtree :
  forall (p : list bytes) (t : htree),
  lookup_path p t =
  match lookup_subtree p t with
  | SAbsent => Absent
  | SUnknown => Unknown
  | SFound HEmpty => Absent
  | SFound (HLeaf v) => Found v
  | SFound (HPruned _) => Unknown
  | SFound (HFork _ _) | SFound (HLabeled _ _) => Error
  end.
Proof.
  intros p t. rewrite lookup_path_subtree_all. destruct (lookup_subtree p t) as [ | | s]; [reflexivity|reflexivity|].
  destruct s; reflexivity.
Qed.
Print Assumptions C06_lookup_path_vs_subtree.

(** C07 *)
Theorem C07_list_paths_complete :
  forall (t : htree), wf t ->
  NoDup (list_paths t) /\
  (forall p, In p (list_paths t) <-> exists v, lookup_path p t = Found v).
Proof.
  intros t W. split; [apply list_paths_nodup; exact W|].
  intro p. rewrite list_paths_in by exact W. split; intros [v A]; exists v; [|]; apply lookup_path_at_iff; assumption.
Qed.
Print Assumptions C07_list_paths_complete.
Example C07_example : list_paths example_pruned = [[bs "a"; bs "y"]].
Proof. reflexivity. Qed.
