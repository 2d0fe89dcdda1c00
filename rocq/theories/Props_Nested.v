(** Properties C16-C19: nested trees and merging of witnesses. *)
From Coq Require Import List Arith Lia Bool Sorted.
From Verif Require Import Bytes Sha256 HashTree HashTreeSpec HashTreeProofs HashTreeSpecProofs RbTree RbShape RbContent RbHash RbWitness RbBounds Nested NestedSpec NestedProofs.
Import ListNotations.

(** C16: a nested tree is a map of paths, for every history; no call panics. *)
Theorem C16_nested_tree_refines_path_map :
  forall (H : bytes -> bytes) (ops : list nop),
  exists t, nrun H ops ndefault = Some t /\
    forall (p : path) (v : bytes), nget p t = Some v <-> holds ops p v.
Proof. intros H ops. destruct (nrun_ok H ops) as (t & R & _ & _ & Q). eauto. Qed.
Print Assumptions C16_nested_tree_refines_path_map.

(** The specification relation is a partial function of the path. *)
Lemma holds_fun ops : forall p v, holds ops p v -> forall w, holds ops p w -> v = w.
Proof.
  intros p v A w B. destruct (nrun_ok (fun x => x) ops) as (t & _ & _ & _ & Q).
  apply Q in A, B. congruence.
Qed.

Lemma nested_not_leaf H tr : match nhtree H (NNested tr) with HLeaf _ | HPruned _ => False | _ => True end.
Proof.
  destruct tr as [|c l k ch r h]; [exact I|]. rewrite nhtree_nested. unfold as_hash_tree.
  cbn [full_witness_tree]. unfold data_tree at 2.
  destruct (full_witness_tree H ntree _ l), (full_witness_tree H ntree _ r); exact I.
Qed.

(** C11 for nested trees: root hash = digest of the full tree, and the full
    tree's leaves are exactly the stored entries. *)
Theorem C11_nested_root_hash_is_digest :
  forall (H : bytes -> bytes) (ops : list nop) (t : ntree),
  nrun H ops ndefault = Some t ->
  nhash H t = digest H (nhtree H t) /\ full (nhtree H t) = true /\ wf (nhtree H t) /\
  forall (p : path) (v : bytes), lookup_path p (nhtree H t) = Found v <-> holds ops p v.
Proof.
  intros H ops t R. destruct (nrun_ok H ops) as (t' & R' & K & N & Q).
  assert (t' = t) by congruence. subst t'.
  destruct (nok_tree H t K) as (A & B & C).
  split; [exact A|]. split; [tauto|]. split; [tauto|]. intros p v. rewrite <- Q.
  destruct (nwitness_ok H p t K) as (w & _ & P & _ & M & _).
  assert (W : wf (nhtree H t)) by tauto.
  generalize (lookup_path_mono H p (nhtree H t) w P W).
  destruct (nget p t) as [v'|] eqn:G.
  - rewrite M. intros ->. split; congruence.
  - destruct (contains_path p t).
    + destruct M as [c M]. intros _. split; [|discriminate]. intro X.
      generalize (lookup_subtree_mono H p (nhtree H t) w P W). rewrite M. intros (c' & L & Pc).
      rewrite lookup_path_subtree_all, L in X.
      destruct c'; try discriminate. generalize (nested_not_leaf H c).
      destruct (nhtree H (NNested c)); inversion Pc; simpl; tauto.
    + destruct M as [M _]. rewrite M. intros ->. split; discriminate.
Qed.
Print Assumptions C11_nested_root_hash_is_digest.

(** C17: no path leads to an empty subtree; when nothing is left the tree is
    the empty tree (and has its root hash). *)
Theorem C17_no_empty_subtrees :
  forall (H : bytes -> bytes) (ops : list nop) (t : ntree),
  nrun H ops ndefault = Some t ->
  (forall p, p <> [] -> (contains_path p t = true <-> exists q v, holds ops (p ++ q) v)) /\
  ((forall p v, ~ holds ops p v) -> t = ndefault /\ nhash H t = digest H HEmpty).
Proof.
  intros H ops t R. destruct (nrun_ok H ops) as (t' & R' & K & N & Q).
  assert (t' = t) by congruence. subst t'. split.
  - intros p D. split.
    + intro C. destruct (contains_path_leaf H p t K N C D) as (q & v & G). exists q, v. apply Q. exact G.
    + intros (q & v & X). apply Q in X. clear -X D. revert t X. induction p as [|k p IH]; intros t X; [contradiction|].
      destruct t as [|tr]; [discriminate|]. cbn [app nget contains_path] in *.
      destruct (get ntree k tr) as [c|]; [|discriminate]. destruct p as [|k' p]; [destruct c; reflexivity|].
      apply IH; [discriminate|exact X].
  - intro X. assert (t = ndefault).
    { destruct t as [v|tr].
      - exfalso. apply (X [] v). apply Q. reflexivity.
      - destruct tr as [|c l k ch r h]; [reflexivity|]. exfalso.
        destruct (noempty_leaf H _ K N) as (q & v & G); [discriminate|]. apply (X q v). apply Q. exact G. }
    subst. split; reflexivity.
Qed.
Print Assumptions C17_no_empty_subtrees.

(** C18: the witness of any path has the root hash, decides the path, and
    reveals no values off the path. *)
Theorem C18_nested_witness_decides_path :
  forall (H : bytes -> bytes) (ops : list nop) (t : ntree) (p : path),
  nrun H ops ndefault = Some t ->
  exists w, nwitness H p t = Some w /\ digest H w = nhash H t /\
    (forall v, holds ops p v -> lookup_path p w = Found v) /\
    ((forall q v, ~ holds ops (p ++ q) v) -> lookup_path p w = Absent /\ (p <> [] -> lookup_subtree p w = SAbsent)) /\
    (forall q v, lookup_path q w = Found v -> is_prefix p q \/ is_prefix q p).
Proof.
  intros H ops t p R. destruct (nrun_ok H ops) as (t' & R' & K & N & Q).
  assert (t' = t) by congruence. subst t'.
  destruct (nwitness_ok H p t K) as (w & E1 & P & W & M & O). exists w. split; [exact E1|].
  split. { rewrite (prunes_digest H _ _ P). symmetry. apply nok_tree. exact K. }
  split; [|split; [|exact O]].
  - intros v X. apply Q in X. rewrite X in M. exact M.
  - intro X. destruct p as [|k p].
    + assert (T0 := proj2 (C17_no_empty_subtrees H ops t R)).
      destruct T0 as [-> _]; [intros q v; apply (X q v)|].
      simpl in E1. injection E1 as <-. split; [reflexivity|congruence].
    + destruct (nget (k :: p) t) as [v|] eqn:G.
      { exfalso. apply (X [] v). apply Q. rewrite app_nil_r. exact G. }
      destruct (contains_path (k :: p) t) eqn:C.
      { exfalso. destruct (contains_path_leaf H (k :: p) t K N C) as (q & v & G'); [discriminate|].
        apply (X q v). apply Q. exact G'. }
      tauto.
Qed.
Print Assumptions C18_nested_witness_decides_path.

(** C19: merging two prunings of the same tree. *)
Theorem C19_merge_reveals_both :
  forall (H : bytes -> bytes) (t a b : htree),
  wf t -> prunes H t a -> prunes H t b ->
  exists m, merge a b = Some m /\ prunes H t m /\ digest H m = digest H t /\
    (forall p, lookup_path p a <> Unknown -> lookup_path p m = lookup_path p a) /\
    (forall p, lookup_path p b <> Unknown -> lookup_path p m = lookup_path p b) /\
    (forall p, lookup_subtree p a = SAbsent \/ lookup_subtree p b = SAbsent -> lookup_subtree p m = SAbsent).
Proof.
  intros H t a b W Pa Pb. destruct (merge_prunes H t a b Pa Pb) as (m & E1 & Pm & Pma & Pmb).
  assert (Wm : wf m) by (eapply prunes_wf; eauto).
  exists m. split; [exact E1|]. split; [exact Pm|]. split; [apply prunes_digest; exact Pm|].
  split; [|split].
  - intros p U. generalize (lookup_path_mono H p m a Pma Wm). destruct (lookup_path p a); congruence.
  - intros p U. generalize (lookup_path_mono H p m b Pmb Wm). destruct (lookup_path p b); congruence.
  - intros p [U|U].
    + generalize (lookup_subtree_mono H p m a Pma Wm). rewrite U. auto.
    + generalize (lookup_subtree_mono H p m b Pmb Wm). rewrite U. auto.
Qed.
Print Assumptions C19_merge_reveals_both.

(** ** Concrete histories *)
Definition exn_ops : list nop :=
  [NInsert [bs "a"; bs "b"] (bs "1"); NInsert [bs "a"; bs "c"] (bs "2"); NInsert [bs "d"] (bs "3");
   NDelete [bs "a"; bs "b"]; NInsert [bs "d"; bs "e"] (bs "4")].
Example exn_run : exists t, nrun sha256 exn_ops ndefault = Some t /\
  nget [bs "a"; bs "c"] t = Some (bs "2") /\ nget [bs "d"] t = None /\
  nget [bs "d"; bs "e"] t = Some (bs "4") /\ contains_path [bs "a"; bs "b"] t = false.
Proof. eexists. split; [vm_compute; reflexivity|]. split; [|split; [|split]]; vm_compute; reflexivity. Qed.
Example exn_holds : holds exn_ops [bs "a"; bs "c"] (bs "2") /\ holds exn_ops [bs "d"; bs "e"] (bs "4").
Proof.
  destruct (C16_nested_tree_refines_path_map sha256 exn_ops) as (t & R & Q).
  split; apply Q; vm_compute in R; injection R as <-; vm_compute; reflexivity.
Qed.
(** two different prunings of one tree *)
Example exn_merge :
  let t := HFork (HLabeled (bs "a") (HLeaf (bs "1"))) (HLabeled (bs "b") (HLeaf (bs "2"))) in
  let a := HFork (HLabeled (bs "a") (HLeaf (bs "1"))) (HPruned (digest sha256 (HLabeled (bs "b") (HLeaf (bs "2"))))) in
  let b := HFork (HPruned (digest sha256 (HLabeled (bs "a") (HLeaf (bs "1"))))) (HLabeled (bs "b") (HLeaf (bs "2"))) in
  wf t /\ prunes sha256 t a /\ prunes sha256 t b /\ merge a b = Some t.
Proof.
  cbv zeta. split.
  - simpl. repeat split; auto. intros x y [<-|[]] [<-|[]]. reflexivity.
  - repeat split; try reflexivity; repeat constructor.
Qed.
