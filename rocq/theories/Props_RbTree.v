(** Properties C08-C15: the red-black tree of labelled values ([RbTree]).
    Every statement is about the tree reached by an arbitrary history [ops] of
    insert / delete / modify calls on an empty tree; the reference is the
    function [map_after] of [RbSpec]. *)
From Coq Require Import List Arith Lia Bool Sorted.
From Verif Require Import Bytes Sha256 HashTree HashTreeSpec HashTreeProofs HashTreeSpecProofs RbTree RbShape RbContent RbHash RbWitness RbBounds RbSpec.
Import ListNotations.

(** ** Bridge to the specification *)
Section Bridge.
  Variable V : Type.
  Lemma spec_bridge ops : forall (es : alist V) (m : bytes -> option V),
    sorted es -> (forall x, aget x es = m x) ->
    sorted (fold_left (spec_step V) ops es) /\
    forall x, aget x (fold_left (spec_step V) ops es) = fold_left (map_step V) ops m x.
  Proof.
    induction ops as [|o ops IH]; intros es m S E; cbn [fold_left]; [auto|].
    apply IH; destruct o as [k v|k|k f]; cbn [spec_step map_step].
    - apply ains_sorted; exact S.
    - apply adel_sorted; exact S.
    - unfold sorted. rewrite amod_keys. exact S.
    - intro x. rewrite aget_ains, E by exact S. reflexivity.
    - intro x. rewrite aget_adel, E. reflexivity.
    - intro x. rewrite aget_amod, E. reflexivity.
  Qed.

  Variable H : bytes -> bytes.
  Variable vhash : V -> bytes.
  Lemma reach_good ops t : run H V vhash ops E = Some t ->
    good V t /\ forall k, get V k t = map_after V ops k.
  Proof.
    intro R. destruct (run_good H V vhash ops E (good_E V)) as (t' & R' & G & Q).
    assert (t' = t) by congruence. subst t'. split; [exact G|].
    intro k. rewrite get_elems by apply G. rewrite Q.
    apply (proj2 (spec_bridge ops [] (fun _ => None) (SSorted_nil _) (fun _ => eq_refl))).
  Qed.
  Variable vtree : V -> htree.
  Lemma reach_ok ops t : run H V vhash ops E = Some t ->
    (forall k v, map_after V ops k = Some v -> vhash v = digest H (vtree v) /\ wf (vtree v)) ->
    tree_ok H V vhash vtree t.
  Proof.
    intros R C. destruct (reach_good ops t R) as [G Q]. split; [apply G|]. split.
    - eapply (run_hok H V vhash vtree ops E t R). exact I.
    - apply allv_elems. apply Forall_forall. intros [k v] I. simpl. apply (C k). rewrite <- Q.
      rewrite get_elems by apply G. apply aget_some_iff; [apply G|exact I].
  Qed.
End Bridge.

(** C08: get returns what the history says. *)
Theorem C08_rbtree_refines_map :
  forall (H : bytes -> bytes) (V : Type) (vhash : V -> bytes) (ops : list (op V)),
  exists t, run H V vhash ops E = Some t /\
    forall k, get V k t = map_after V ops k.
Proof.
  intros. destruct (run_good H V vhash ops E (good_E V)) as (t & R & _).
  exists t. split; [exact R|]. apply (reach_good V H vhash ops t R).
Qed.
Print Assumptions C08_rbtree_refines_map.

(** C09: no history panics, and the reached tree is a left-leaning red-black tree. *)
Lemma shape_spec V n : forall t : rb V,
  (B V n t -> no_red_red V t /\ left_leaning V t /\ black_height V n t) /\
  (A V n t -> no_red_red V t /\ left_leaning V t /\ black_height V n t).
Proof.
  intro t. revert n. induction t as [|c l IHl k v r IHr h]; intro n.
  - assert (X : B V n E -> no_red_red V E /\ left_leaning V E /\ black_height V n E)
      by (intro P; inversion P; subst; simpl; auto).
    split; [exact X|]. intro P; inversion P; subst; auto.
  - assert (X : B V n (T c l k v r h) -> no_red_red V (T c l k v r h) /\ left_leaning V (T c l k v r h) /\ black_height V n (T c l k v r h)).
    { intro P; inversion P as [|m ? ? ? ? ? Pl Pr]; subst.
      apply (IHl m) in Pl. assert (N := B_not_red V _ _ Pr). apply (IHr m) in Pr. simpl.
      destruct Pl as (? & ? & ?), Pr as (? & ? & ?). repeat split; auto; try discriminate. eauto. }
    split; [exact X|]. intro P; inversion P as [? ? Q|m ? ? ? ? ? Pl Pr]; subst; [auto|].
    assert (Nl := B_not_red V _ _ Pl). assert (Nr := B_not_red V _ _ Pr).
    apply (IHl n) in Pl. apply (IHr n) in Pr. simpl.
    destruct Pl as (? & ? & ?), Pr as (? & ? & ?). repeat split; auto.
Qed.
Theorem C09_rbtree_never_panics_and_is_balanced :
  forall (H : bytes -> bytes) (V : Type) (vhash : V -> bytes) (ops : list (op V)),
  exists t, run H V vhash ops E = Some t /\
    no_red_red V t /\ left_leaning V t /\ is_red V t = false /\ exists n, black_height V n t.
Proof.
  intros. destruct (run_good H V vhash ops E (good_E V)) as (t & R & (_ & n & P) & _).
  exists t. split; [exact R|]. assert (N := B_not_red V _ _ P).
  destruct (proj1 (shape_spec V n t) P) as (X & Y & Z). eauto.
Qed.
Print Assumptions C09_rbtree_never_panics_and_is_balanced.

(** C10: lookups visit at most 2*log2(n+1) nodes, n = number of stored keys. *)
Theorem C10_rbtree_lookup_is_logarithmic :
  forall (H : bytes -> bytes) (V : Type) (vhash : V -> bytes) (ops : list (op V)) (t : rb V) (ks : list bytes),
  run H V vhash ops E = Some t ->
  (forall k, In k ks <-> map_after V ops k <> None) -> NoDup ks ->
  forall k, 2 ^ get_steps V k t <= (length ks + 1) ^ 2.
Proof.
  intros H V vhash ops t ks R D N k. destruct (reach_good V H vhash ops t R) as [[S [n P]] G].
  assert (Q := get_steps_bound V n k t P).
  assert (L : size V t <= length ks).
  { rewrite size_elems, <- (map_length fst). apply NoDup_incl_length.
    - clear -S. unfold bst, sorted in S. induction (map fst (elems V t)) as [|a l IH]; constructor; inversion S; subst; auto.
      rewrite Forall_forall in H2. intro I. exact (blt_irrefl _ (H2 _ I)).
    - intros x I. apply D. rewrite <- G, get_elems by exact S. rewrite aget_none. tauto. }
  cbn [Nat.pow]. nia.
Qed.
Print Assumptions C10_rbtree_lookup_is_logarithmic.

(** C11: the cached root hash is never stale. *)
Theorem C11_root_hash_is_digest :
  forall (H : bytes -> bytes) (V : Type) (vhash : V -> bytes) (vtree : V -> htree) (ops : list (op V)) (t : rb V),
  run H V vhash ops E = Some t ->
  (forall k v, map_after V ops k = Some v -> vhash v = digest H (vtree v)) ->
  root_hash H V t = digest H (as_hash_tree H V vtree t).
Proof.
  intros H V vhash vtree ops t R C. destruct (reach_good V H vhash ops t R) as [G Q].
  apply (root_hash_digest_loc H V vhash vtree).
  - eapply (run_hok H V vhash vtree ops E t R). exact I.
  - apply allv_elems. apply Forall_forall. intros [k v] I. apply (C k). simpl. rewrite <- Q.
    rewrite get_elems by apply G. apply aget_some_iff; [apply G|exact I].
Qed.
Print Assumptions C11_root_hash_is_digest.

(** The contract of the value type, for the stored values only. *)
Definition values_ok (H : bytes -> bytes) (V : Type) (vhash : V -> bytes) (vtree : V -> htree) (ops : list (op V)) : Prop :=
  forall k v, map_after V ops k = Some v -> vhash v = digest H (vtree v) /\ wf (vtree v).

Lemma okw_digest H V vtree t w vhash : tree_ok H V vhash vtree t -> okw H V vtree t w -> digest H w = root_hash H V t.
Proof.
  intros K O. rewrite (root_hash_digest_loc H V vhash vtree t); [|apply K|apply tree_ok_vok; exact K].
  apply prunes_digest. apply O.
Qed.

(** C12: every witness-producing call succeeds and its result has the root hash. *)
Theorem C12_witnesses_have_root_hash :
  forall (H : bytes -> bytes) (V : Type) (vhash : V -> bytes) (vtree : V -> htree) (ops : list (op V)) (t : rb V),
  run H V vhash ops E = Some t -> values_ok H V vhash vtree ops ->
  digest H (keys H V vhash t) = root_hash H V t /\
  (forall key, exists w, witness H V vhash vtree key t = Some w /\ digest H w = root_hash H V t) /\
  (forall key f, (forall v, prunes H (vtree v) (f v)) ->
     exists w, nested_witness H V vhash key f t = Some w /\ digest H w = root_hash H V t) /\
  (forall first last, ble first last ->
     exists w, key_range H V vhash first last t = Some w /\ digest H w = root_hash H V t) /\
  (forall first last, ble first last ->
     exists w, value_range H V vhash vtree first last t = Some w /\ digest H w = root_hash H V t) /\
  (forall prefix, exists w, keys_with_prefix H V vhash prefix t = Some w /\ digest H w = root_hash H V t).
Proof.
  intros H V vhash vtree ops t R C. assert (K := reach_ok V H vhash vtree ops t R C).
  assert (S := proj1 K).
  assert (W1 : forall lo hi w, range_witness H V vhash (witness_tree V vhash) lo hi t = Some w -> digest H w = root_hash H V t).
  { intros lo hi w X. eapply okw_digest; [exact K|]. apply (range_ok H V vhash vtree (fun _ v => HPruned (vhash v)) (witness_tree V vhash) lo hi t w (fun _ _ => eq_refl)); [|exact K|exact X].
    intros k v Y. rewrite Y. constructor. }
  assert (W2 : forall lo hi w, range_witness H V vhash (data_tree V vtree) lo hi t = Some w -> digest H w = root_hash H V t).
  { intros lo hi w X. eapply okw_digest; [exact K|]. apply (range_ok H V vhash vtree (fun _ v => vtree v) (data_tree V vtree) lo hi t w (fun _ _ => eq_refl)); [|exact K|exact X].
    intros k v Y. apply prunes_refl. }
  assert (W3 : forall key f, (forall v, prunes H (vtree v) (f v)) ->
     exists w, nested_witness H V vhash key f t = Some w /\ digest H w = root_hash H V t).
  { intros key f F. destruct (nested_witness_ok H V vhash vtree f key t K) as (w & E1 & O & _); [auto|].
    exists w. split; [exact E1|]. eapply okw_digest; eauto. }
  split; [apply (W1 None None); reflexivity|].
  split; [intro key; apply W3; intro; apply prunes_refl|].
  split; [exact W3|].
  split; [intros a b L; destruct (range_total H V vhash (witness_tree V vhash) a b t S L) as [w X]; exists w; split; [exact X|eauto]|].
  split; [intros a b L; destruct (range_total H V vhash (data_tree V vtree) a b t S L) as [w X]; exists w; split; [exact X|eauto]|].
  intro p. destruct (prefix_total H V vhash (witness_tree V vhash) p t S) as [w X]; exists w; split; [exact X|eauto].
Qed.
Print Assumptions C12_witnesses_have_root_hash.

Lemma sub_found k w c : lookup_label k w = LFound c -> lookup_subtree [k] w = SFound c.
Proof. intro E. simpl. rewrite E. reflexivity. Qed.
Lemma sub_found_inv k w c : lookup_subtree [k] w = SFound c -> child_at k w c.
Proof.
  simpl. destruct (lookup_label k w) eqn:E; try discriminate. intro X; injection X as ->.
  apply lookup_label_found_child. exact E.
Qed.
Lemma sub_absent k w : absent_llr (lookup_label k w) -> lookup_subtree [k] w = SAbsent.
Proof. simpl. destruct (lookup_label k w); simpl; tauto. Qed.

(** C13: a key witness decides its key, and reveals no other value. *)
Theorem C13_witness_decides_key :
  forall (H : bytes -> bytes) (V : Type) (vhash : V -> bytes) (vtree : V -> htree) (ops : list (op V)) (t : rb V) (key : bytes),
  run H V vhash ops E = Some t -> values_ok H V vhash vtree ops ->
  exists w, witness H V vhash vtree key t = Some w /\
    (forall v, map_after V ops key = Some v -> lookup_subtree [key] w = SFound (vtree v)) /\
    (map_after V ops key = None -> lookup_subtree [key] w = SAbsent) /\
    (forall k c, k <> key -> lookup_subtree [k] w = SFound c -> exists h, c = HPruned h).
Proof.
  intros H V vhash vtree ops t key R C. assert (K := reach_ok V H vhash vtree ops t R C).
  destruct (reach_good V H vhash ops t R) as [_ Q].
  destruct (nested_witness_ok H V vhash vtree vtree key t K) as (w & E1 & _ & _ & M); [intros; apply prunes_refl|].
  exists w. split; [exact E1|]. rewrite <- Q. destruct (get V key t) as [v|].
  - destruct M as [M1 M2]. split; [|split].
    + intros v' X. injection X as <-. apply sub_found. exact M1.
    + discriminate.
    + intros k c N X. apply sub_found_inv in X. destruct (N (M2 _ _ X)).
  - destruct M as [M1 M2]. split; [discriminate|]. split.
    + intros _. apply sub_absent. exact M1.
    + intros k c _ X. apply sub_found_inv in X. exact (M2 _ _ X).
Qed.
Print Assumptions C13_witness_decides_key.

Lemma lo_in V (t : rb V) a k : bst V t -> In k (keysof V t) -> in_lo (lower_bound V a t) k = true ->
  (lower_bound V a t <> Some (Neighbor k) \/ ble a k) -> ble a k.
Proof.
  intros S I A [N|]; [|assumption]. generalize (lower_bound_spec V a t S).
  destruct (lower_bound V a t) as [[x|x]|]; simpl in *; unfold ge_lo in A; simpl in A.
  - intros [-> _]. destruct (bcmp_spec k a) as [Y|Y|Y]; subst; [apply ble_refl|discriminate|apply blt_ble; exact Y].
  - intros (_ & _ & Y). destruct (Y k I) as [Z|Z]; [|apply blt_ble; exact Z].
    destruct (bcmp_spec k x) as [U|U|U]; [subst; congruence|discriminate|destruct (ble_nblt _ _ Z U)].
  - intros Y. apply blt_ble, Y, I.
Qed.
Lemma hi_in V (t : rb V) b k : bst V t -> In k (keysof V t) -> in_hi (upper_bound V b t) k = true ->
  (upper_bound V b t <> Some (Neighbor k) \/ ble k b) -> ble k b.
Proof.
  intros S I A [N|]; [|assumption]. generalize (upper_bound_spec V b t S).
  destruct (upper_bound V b t) as [[x|x]|]; simpl in *; unfold le_hi in A; simpl in A.
  - intros [-> _]. destruct (bcmp_spec k b) as [Y|Y|Y]; subst; [apply ble_refl|apply blt_ble; exact Y|discriminate].
  - intros (_ & _ & Y). destruct (Y k I) as [Z|Z]; [|apply blt_ble; exact Z].
    destruct (bcmp_spec k x) as [U|U|U]; [subst; congruence|destruct (ble_nblt _ _ Z U)|discriminate].
  - intros Y. apply blt_ble, Y, I.
Qed.

(** C14: range and prefix witnesses decide every key asked for; a value range
    reveals the values in the range only. *)
Theorem C14_range_witnesses_decide_range :
  forall (H : bytes -> bytes) (V : Type) (vhash : V -> bytes) (vtree : V -> htree) (ops : list (op V)) (t : rb V),
  run H V vhash ops E = Some t -> values_ok H V vhash vtree ops ->
  (forall first last, ble first last ->
    exists w, key_range H V vhash first last t = Some w /\
      forall k, ble first k -> ble k last ->
        (forall v, map_after V ops k = Some v -> lookup_subtree [k] w = SFound (HPruned (vhash v))) /\
        (map_after V ops k = None -> lookup_subtree [k] w = SAbsent)) /\
  (forall first last, ble first last ->
    exists w, value_range H V vhash vtree first last t = Some w /\
      (forall k, ble first k -> ble k last ->
        (forall v, map_after V ops k = Some v -> lookup_subtree [k] w = SFound (vtree v)) /\
        (map_after V ops k = None -> lookup_subtree [k] w = SAbsent)) /\
      (forall k c, lookup_subtree [k] w = SFound c ->
         (ble first k /\ ble k last) \/ exists h, c = HPruned h)) /\
  (forall prefix,
    exists w, keys_with_prefix H V vhash prefix t = Some w /\
      forall k, bprefix prefix k = true ->
        (forall v, map_after V ops k = Some v -> lookup_subtree [k] w = SFound (HPruned (vhash v))) /\
        (map_after V ops k = None -> lookup_subtree [k] w = SAbsent)).
Proof.
  intros H V vhash vtree ops t R C. assert (K := reach_ok V H vhash vtree ops t R C).
  destruct (reach_good V H vhash ops t R) as [_ Q]. assert (S := proj1 K).
  assert (Gen : forall g f0 lo hi w k, (forall k v, f0 k v = HLabeled k (g k v)) ->
     (forall k v, vok H V vhash vtree v -> prunes H (vtree v) (g k v)) ->
     range_witness H V vhash f0 lo hi t = Some w -> cov_lo V lo t k -> cov_hi V hi t k ->
     (forall v, map_after V ops k = Some v -> lookup_subtree [k] w = SFound (g k v)) /\
     (map_after V ops k = None -> lookup_subtree [k] w = SAbsent)).
  { intros g f0 lo hi w k F G X A B. destruct (range_ok H V vhash vtree g f0 lo hi t w F G K X) as [_ W].
    rewrite <- Q. split.
    - intros v Y. apply sub_found. eapply shown_present; eauto.
    - intro Y. apply sub_absent. eapply shown_absent; eauto. }
  split; [|split].
  - intros a b L. destruct (range_total H V vhash (witness_tree V vhash) a b t S L) as [w X].
    exists w. split; [exact X|]. intros k A B.
    apply (Gen (fun _ v => HPruned (vhash v)) _ _ _ w k (fun _ _ => eq_refl)) with (2 := X); auto using cov_lower, cov_upper.
    intros k' v Y. rewrite Y. constructor.
  - intros a b L. destruct (range_total H V vhash (data_tree V vtree) a b t S L) as [w X].
    exists w. split; [exact X|]. split.
    + intros k A B.
      apply (Gen (fun _ v => vtree v) _ _ _ w k (fun _ _ => eq_refl)) with (2 := X); auto using cov_lower, cov_upper.
      intros; apply prunes_refl.
    + intros k c Y. apply sub_found_inv in Y.
      destruct (shown_only H V vhash vtree (fun _ v => vtree v) (data_tree V vtree) (fun _ _ => eq_refl) _ _ t w k c S X Y)
        as (v & G & [[_ D]|(D1 & D2 & _ & D3 & D4)]); [eauto|left].
      assert (I : In k (keysof V t)).
      { unfold keysof. rewrite get_elems in G by exact S. apply aget_in in G. apply (in_map fst) in G. exact G. }
      split.
      * apply (lo_in V t a k); auto. destruct D3 as [D3|D3]; [left; exact D3|right].
        generalize (upper_bound_spec V b t S). rewrite D3. intros [-> _]. exact L.
      * apply (hi_in V t b k); auto. destruct D4 as [D4|D4]; [left; exact D4|right].
        generalize (lower_bound_spec V a t S). rewrite D4. intros [-> _]. exact L.
  - intro p. destruct (prefix_total H V vhash (witness_tree V vhash) p t S) as [w X].
    exists w. split; [exact X|]. intros k A.
    apply (Gen (fun _ v => HPruned (vhash v)) _ _ _ w k (fun _ _ => eq_refl)) with (2 := X);
      auto using cov_lower, cov_prefix, bprefix_le.
    intros k' v Y. rewrite Y. constructor.
Qed.
Print Assumptions C14_range_witnesses_decide_range.

(** C15: draining the iterator gives the stored entries, each key once, in
    increasing order; fuel only has to be large enough. *)
Theorem C15_iteration_sorted_and_complete :
  forall (H : bytes -> bytes) (V : Type) (vhash : V -> bytes) (ops : list (op V)) (t : rb V),
  run H V vhash ops E = Some t ->
  exists es N, (forall n fuel, N <= n -> N <= fuel -> iter_collect V n fuel (iter_init V t) = Some es) /\
    StronglySorted blt (map fst es) /\
    forall k v, In (k, v) es <-> map_after V ops k = Some v.
Proof.
  intros H V vhash ops t R. destruct (reach_good V H vhash ops t R) as [[S _] Q].
  exists (elems V t), (3 * size V t + 1). split; [|split].
  - intros n fuel A B. apply iter_elems; lia.
  - exact S.
  - intros k v. rewrite <- Q, get_elems by exact S. symmetry. apply aget_some_iff. exact S.
Qed.
Print Assumptions C15_iteration_sorted_and_complete.

(** ** A concrete history meeting the hypotheses: byte-string values, real SHA-256. *)
Definition ex_ops : list (op bytes) :=
  [OpInsert _ (bs "b") (bs "1"); OpInsert _ (bs "a") (bs "2"); OpInsert _ (bs "d") (bs "3");
   OpInsert _ (bs "c") (bs "4"); OpDelete _ (bs "a"); OpModify _ (bs "b") (fun v => v ++ bs "x");
   OpInsert _ (bs "bb") (bs "5")].
Example ex_values_ok : values_ok sha256 bytes (leaf_hash sha256) HLeaf ex_ops.
Proof. intros k v _. split; [reflexivity|]. constructor. Qed.
Example ex_run : exists t, run sha256 bytes (leaf_hash sha256) ex_ops E = Some t /\
  get bytes (bs "b") t = Some (bs "1x") /\ get bytes (bs "a") t = None /\ size bytes t = 4.
Proof. eexists. split; [vm_compute; reflexivity|]. split; [|split]; vm_compute; reflexivity. Qed.
Example ex_map : map_after bytes ex_ops (bs "b") = Some (bs "1x") /\ map_after bytes ex_ops (bs "a") = None.
Proof. split; reflexivity. Qed.
Example ex_range : ble (bs "b") (bs "c") /\ bprefix (bs "b") (bs "bb") = true.
Proof. split; [discriminate|reflexivity]. Qed.
Example ex_domain : let ks := [bs "b"; bs "d"; bs "c"; bs "bb"] in
  NoDup ks /\ forall k, In k ks <-> map_after bytes ex_ops k <> None.
Proof.
  cbv zeta. split.
  - repeat constructor; simpl; intuition discriminate.
  - intro k. unfold map_after, ex_ops. cbn [fold_left map_step].
    repeat match goal with |- context [bytes_eqb ?a ?b] => destruct (bytes_eqb_spec a b) end; subst; simpl;
      split; try congruence; try tauto; intuition (try discriminate; try congruence).
Qed.
