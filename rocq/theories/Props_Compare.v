(** Properties C73, C74: comparing whole trees, building them from a list, and
    re-inserting what is already there. *)
From Coq Require Import List Arith Lia Bool Sorted.
From Verif Require Import Bytes Sha256 HashTree HashTreeSpec RbTree RbShape RbContent RbHash RbSpec RbCompare Props_RbTree.
Import ListNotations.

(** ** Specification *)

(** Two maps agree below [k] and differ at [k]. *)
Definition first_difference {V} (m1 m2 : bytes -> option V) (k : bytes) : Prop :=
  m1 k <> m2 k /\ forall k', blt k' k -> m1 k' = m2 k'.

(** [m1] comes before [m2] in the lexicographic order of their sorted entries:
    at the first key where they differ either both have a value and that of
    [m1] is smaller; or only [m1] has one and [m2] goes on with larger keys; or
    only [m2] has one and [m1] has nothing more. *)
Definition map_before {V} (vcmp : V -> V -> comparison) (m1 m2 : bytes -> option V) : Prop :=
  exists k, first_difference m1 m2 k /\
    match m1 k, m2 k with
    | Some v1, Some v2 => vcmp v1 v2 = Lt
    | Some _, None => exists k', blt k k' /\ m2 k' <> None
    | None, Some _ => forall k', blt k k' -> m1 k' = None
    | None, None => False
    end.

(** A total order on values. *)
Definition total_order {V} (vcmp : V -> V -> comparison) : Prop :=
  (forall a b, vcmp a b = Eq <-> a = b) /\
  (forall a b, vcmp a b = CompOpp (vcmp b a)) /\
  (forall a b c, vcmp a b = Lt -> vcmp b c = Lt -> vcmp a c = Lt).

(** ** Lists of entries *)
Section Lex.
  Variable V : Type.
  Variable veq : V -> V -> bool.
  Variable vcmp : V -> V -> comparison.

  Fixpoint leq (l1 l2 : list (bytes * V)) : bool :=
    match l1, l2 with
    | [], [] => true
    | a :: l1', b :: l2' => if entry_eq V veq a b then leq l1' l2' else false
    | _, _ => false
    end.
  Fixpoint lcmp (l1 l2 : list (bytes * V)) : comparison :=
    match l1, l2 with
    | [], [] => Eq
    | [], _ :: _ => Lt
    | _ :: _, [] => Gt
    | a :: l1', b :: l2' => match entry_cmp V vcmp a b with Eq => lcmp l1' l2' | c => c end
    end.

  Lemma iter_eq_ok n : forall fuel s1 s2, stack_ok V s1 -> stack_ok V s2 ->
    steps_left V s1 < fuel -> steps_left V s2 < fuel -> length (remaining V s1) < n ->
    iter_eq V veq n fuel s1 s2 = Some (leq (remaining V s1) (remaining V s2)).
  Proof.
    induction n as [|n IH]; intros fuel s1 s2 K1 K2 L1 L2 Ln; [lia|]. cbn [iter_eq].
    assert (X1 := iter_next_ok V fuel s1 K1 L1). assert (X2 := iter_next_ok V fuel s2 K2 L2).
    destruct (remaining V s1) as [|a r1], (remaining V s2) as [|b r2]; cbn [leq].
    - destruct X1 as [s1' ->], X2 as [s2' ->]. reflexivity.
    - destruct X1 as [s1' ->], X2 as (s2' & -> & _). reflexivity.
    - destruct X1 as (s1' & -> & _), X2 as [s2' ->]. reflexivity.
    - destruct X1 as (s1' & -> & K1' & R1 & L1'), X2 as (s2' & -> & K2' & R2 & L2').
      destruct (entry_eq V veq a b); [|reflexivity].
      rewrite IH; [rewrite R1, R2; reflexivity|exact K1'|exact K2'|lia|lia|].
      rewrite R1. simpl in Ln. lia.
  Qed.
  Lemma iter_cmp_ok n : forall fuel s1 s2, stack_ok V s1 -> stack_ok V s2 ->
    steps_left V s1 < fuel -> steps_left V s2 < fuel -> length (remaining V s1) < n ->
    iter_cmp V vcmp n fuel s1 s2 = Some (lcmp (remaining V s1) (remaining V s2)).
  Proof.
    induction n as [|n IH]; intros fuel s1 s2 K1 K2 L1 L2 Ln; [lia|]. cbn [iter_cmp].
    assert (X1 := iter_next_ok V fuel s1 K1 L1). assert (X2 := iter_next_ok V fuel s2 K2 L2).
    destruct (remaining V s1) as [|a r1], (remaining V s2) as [|b r2]; cbn [lcmp].
    - destruct X1 as [s1' ->], X2 as [s2' ->]. reflexivity.
    - destruct X1 as [s1' ->], X2 as (s2' & -> & _). reflexivity.
    - destruct X1 as (s1' & -> & _), X2 as [s2' ->]. reflexivity.
    - destruct X1 as (s1' & -> & K1' & R1 & L1'), X2 as (s2' & -> & K2' & R2 & L2').
      destruct (entry_cmp V vcmp a b); try reflexivity.
      rewrite IH; [rewrite R1, R2; reflexivity|exact K1'|exact K2'|lia|lia|].
      rewrite R1. simpl in Ln. lia.
  Qed.

  Lemma init_ok (t : rb V) : stack_ok V (iter_init V t) /\ steps_left V (iter_init V t) <= 3 * size V t /\
    remaining V (iter_init V t) = elems V t.
  Proof.
    destruct t as [|c l k v r h].
    - split; [constructor|]. split; [simpl; lia|reflexivity].
    - split; [constructor; [reflexivity|constructor]|]. split.
      + unfold iter_init, steps_left, up_steps, pre_steps. lia.
      + unfold iter_init, remaining, up_rest. apply app_nil_r.
  Qed.
  Lemma tree_eq_elems t1 t2 : tree_eq V veq t1 t2 = Some (leq (elems V t1) (elems V t2)).
  Proof.
    destruct (init_ok t1) as (K1 & L1 & R1), (init_ok t2) as (K2 & L2 & R2).
    unfold tree_eq. rewrite iter_eq_ok; [rewrite R1, R2; reflexivity|exact K1|exact K2|lia|lia|].
    rewrite R1, <- size_elems. lia.
  Qed.
  Lemma tree_cmp_elems t1 t2 : tree_cmp V vcmp t1 t2 = Some (lcmp (elems V t1) (elems V t2)).
  Proof.
    destruct (init_ok t1) as (K1 & L1 & R1), (init_ok t2) as (K2 & L2 & R2).
    unfold tree_cmp. rewrite iter_cmp_ok; [rewrite R1, R2; reflexivity|exact K1|exact K2|lia|lia|].
    rewrite R1, <- size_elems. lia.
  Qed.

  Hypothesis veq_ok : forall a b, veq a b = true <-> a = b.
  Lemma leq_eq l1 : forall l2, leq l1 l2 = true <-> l1 = l2.
  Proof.
    induction l1 as [|[k1 v1] l1 IH]; intros [|[k2 v2] l2]; cbn [leq]; try (split; congruence).
    unfold entry_eq. cbn [fst snd].
    destruct (bytes_eqb_spec k1 k2) as [->|N]; cbn [andb].
    - destruct (veq v1 v2) eqn:Q.
      + apply veq_ok in Q. subst v2. rewrite IH. split; congruence.
      + split; [discriminate|]. intro X. injection X as -> _.
        assert (veq v2 v2 = true) by (apply veq_ok; reflexivity). congruence.
    - split; [discriminate|congruence].
  Qed.

  Hypothesis TO : total_order vcmp.
  Lemma ecmp_eq a b : entry_cmp V vcmp a b = Eq <-> a = b.
  Proof.
    destruct a as [k1 v1], b as [k2 v2]. unfold entry_cmp. cbn [fst snd]. destruct TO as (T1 & _).
    destruct (bcmp k1 k2) eqn:Q.
    - apply bcmp_eq in Q. subst. rewrite T1. split; congruence.
    - split; [discriminate|]. intro X. injection X as -> ->. rewrite bcmp_refl in Q. discriminate.
    - split; [discriminate|]. intro X. injection X as -> ->. rewrite bcmp_refl in Q. discriminate.
  Qed.
  Lemma ecmp_opp a b : entry_cmp V vcmp a b = CompOpp (entry_cmp V vcmp b a).
  Proof.
    unfold entry_cmp. rewrite (bcmp_antisym (fst a)). destruct (bcmp (fst b) (fst a)); simpl; auto. apply TO.
  Qed.
  Lemma ecmp_trans a b c : entry_cmp V vcmp a b = Lt -> entry_cmp V vcmp b c = Lt -> entry_cmp V vcmp a c = Lt.
  Proof.
    unfold entry_cmp. destruct a as [k1 v1], b as [k2 v2], c as [k3 v3]. cbn [fst snd].
    destruct (bcmp k1 k2) eqn:Q1, (bcmp k2 k3) eqn:Q2; try discriminate; intros A B.
    - apply bcmp_eq in Q1, Q2. subst. rewrite bcmp_refl. eapply TO; eauto.
    - apply bcmp_eq in Q1. subst. rewrite Q2. reflexivity.
    - apply bcmp_eq in Q2. subst. rewrite Q1. reflexivity.
    - rewrite (blt_trans k1 k2 k3 Q1 Q2). reflexivity.
  Qed.
  Lemma lcmp_eq l1 : forall l2, lcmp l1 l2 = Eq <-> l1 = l2.
  Proof.
    induction l1 as [|a l1 IH]; intros [|b l2]; cbn [lcmp]; try (split; congruence).
    destruct (entry_cmp V vcmp a b) eqn:Q.
    - apply ecmp_eq in Q. subst b. rewrite IH. split; congruence.
    - split; [discriminate|]. intro X. injection X as -> _. assert (Z := proj2 (ecmp_eq b b) eq_refl). congruence.
    - split; [discriminate|]. intro X. injection X as -> _. assert (Z := proj2 (ecmp_eq b b) eq_refl). congruence.
  Qed.
  Lemma lcmp_opp l1 : forall l2, lcmp l1 l2 = CompOpp (lcmp l2 l1).
  Proof.
    induction l1 as [|a l1 IH]; intros [|b l2]; cbn [lcmp]; try reflexivity.
    rewrite (ecmp_opp a b). destruct (entry_cmp V vcmp b a); simpl; auto.
  Qed.
  Lemma lcmp_trans l1 : forall l2 l3, lcmp l1 l2 = Lt -> lcmp l2 l3 = Lt -> lcmp l1 l3 = Lt.
  Proof.
    induction l1 as [|a l1 IH]; intros [|b l2] [|c l3]; cbn [lcmp]; try congruence.
    destruct (entry_cmp V vcmp a b) eqn:Q1; try discriminate.
    - apply ecmp_eq in Q1. subst b. destruct (entry_cmp V vcmp a c); try congruence. apply IH.
    - intros _. destruct (entry_cmp V vcmp b c) eqn:Q2; try discriminate.
      + apply ecmp_eq in Q2. subst c. rewrite Q1. reflexivity.
      + rewrite (ecmp_trans a b c Q1 Q2). reflexivity.
  Qed.

  Lemma aget_above k (l : list (bytes * V)) : StronglySorted blt (k :: map fst l) ->
    forall x, ~ blt k x -> aget x l = None.
  Proof.
    intros S x N. apply aget_none. intro I. inversion S as [|? ? _ F]; subst.
    rewrite Forall_forall in F. exact (N (F x I)).
  Qed.
  Lemma aget_head k (v : V) l : aget k ((k, v) :: l) = Some v.
  Proof. cbn [aget fst]. destruct (bytes_eqb_spec k k); congruence. Qed.
  Lemma aget_tail x k (v : V) l : x <> k -> aget x ((k, v) :: l) = aget x l.
  Proof. intro N. cbn [aget fst]. destruct (bytes_eqb_spec x k); congruence. Qed.

  Lemma lcmp_lt l1 : forall l2 : list (bytes * V), sorted l1 -> sorted l2 ->
    lcmp l1 l2 = Lt -> map_before vcmp (fun k => aget k l1) (fun k => aget k l2).
  Proof.
    induction l1 as [|[k1 v1] l1 IH]; intros [|[k2 v2] l2] S1 S2; cbn [lcmp]; try discriminate.
    - intros _. exists k2. unfold first_difference. cbv beta. rewrite aget_head.
      split; [split; [discriminate|]|intros ? _; reflexivity].
      intros k' L. rewrite aget_tail by (apply blt_neq; exact L). symmetry.
      apply (aget_above k2); [exact S2|apply blt_asym; exact L].
    - unfold entry_cmp. cbn [fst snd]. destruct (bcmp k1 k2) eqn:Q; try discriminate.
      + apply bcmp_eq in Q. subst k2. destruct (vcmp v1 v2) eqn:W; try discriminate.
        * apply TO in W. subst v2. intro X. apply IH in X; [|inversion S1; assumption|inversion S2; assumption].
          destruct X as (k & [D Bl] & M). exists k.
          assert (N : k <> k1).
          { intros ->. apply D. rewrite (aget_above k1 l1 S1 k1 (blt_irrefl _)), (aget_above k1 l2 S2 k1 (blt_irrefl _)). reflexivity. }
          unfold first_difference. cbv beta. rewrite !aget_tail by exact N.
          split; [split; [exact D|]|].
          -- intros k' L. destruct (bytes_eqb_spec k' k1) as [->|N1]; [rewrite !aget_head; reflexivity|].
             rewrite !aget_tail by exact N1. apply Bl. exact L.
          -- destruct (aget k l1), (aget k l2) eqn:G2; auto.
             ++ destruct M as (k' & L & M). exists k'. split; [exact L|].
                cbn [aget fst]. destruct (bytes_eqb k' k1); [discriminate|exact M].
             ++ intros k' L. rewrite aget_tail; [apply M; exact L|]. intros ->.
                rewrite (aget_above k1 l2 S2 k) in G2 by (apply blt_asym; exact L). discriminate.
        * intros _. exists k1. unfold first_difference. cbv beta. rewrite !aget_head. split; [|exact W]. split.
          -- intro X. injection X as ->. assert (Z := proj2 (proj1 TO v2 v2) eq_refl). congruence.
          -- intros k' L. rewrite !aget_tail by (apply blt_neq; exact L).
             rewrite !(aget_above k1); auto using blt_asym.
      + intros _. exists k1. unfold first_difference. cbv beta. rewrite aget_head.
        assert (Z : forall x, ~ blt k2 x -> x <> k2 -> aget x ((k2, v2) :: l2) = None).
        { intros x L N. rewrite aget_tail by exact N. apply (aget_above k2); [exact S2|exact L]. }
        rewrite (Z k1) by (try apply blt_asym; try apply blt_neq; exact Q).
        split; [split; [discriminate|]|].
        * intros k' L. assert (L2 := blt_trans _ _ _ L Q).
          rewrite (Z k') by (try apply blt_asym; try apply blt_neq; exact L2).
          rewrite aget_tail by (apply blt_neq; exact L). apply (aget_above k1); [exact S1|apply blt_asym; exact L].
        * exists k2. split; [exact Q|]. rewrite aget_head. discriminate.
  Qed.

  Lemma sorted_ext (l1 l2 : list (bytes * V)) : sorted l1 -> sorted l2 -> (forall k, aget k l1 = aget k l2) -> l1 = l2.
  Proof.
    intros S1 S2 X. apply lcmp_eq. destruct (lcmp l1 l2) eqn:Q; [reflexivity| |].
    - destruct (lcmp_lt l1 l2 S1 S2 Q) as (k & [D _] & _). exfalso. apply D, X.
    - rewrite lcmp_opp in Q. assert (Q' : lcmp l2 l1 = Lt) by (destruct (lcmp l2 l1); simpl in Q; congruence).
      destruct (lcmp_lt l2 l1 S2 S1 Q') as (k & [D _] & _). exfalso. apply D. symmetry. apply X.
  Qed.
End Lex.

Lemma first_difference_unique {V} (m1 m2 : bytes -> option V) k k' :
  first_difference m1 m2 k -> first_difference m1 m2 k' -> k = k'.
Proof.
  intros [D B] [D' B']. destruct (blt_total k k') as [L|[L|L]]; [|exact L|].
  - exfalso. apply D, B', L.
  - exfalso. apply D', B, L.
Qed.

(** Two lists with the same lookups, without an order on values. *)
Lemma sorted_same V (l1 : list (bytes * V)) : forall l2, sorted l1 -> sorted l2 ->
  (forall k, aget k l1 = aget k l2) -> l1 = l2.
Proof.
  induction l1 as [|[k1 v1] l1 IH]; intros [|[k2 v2] l2] S1 S2 X.
  - reflexivity.
  - specialize (X k2). rewrite aget_head in X. discriminate.
  - specialize (X k1). rewrite aget_head in X. discriminate.
  - assert (K : k1 = k2).
    { destruct (blt_total k1 k2) as [L|[L|L]]; [|exact L|]; exfalso.
      - specialize (X k1). rewrite aget_head, aget_tail in X by (apply blt_neq; exact L).
        rewrite (aget_above V k2 l2 S2) in X by (apply blt_asym; exact L). discriminate.
      - specialize (X k2). rewrite aget_head, aget_tail in X by (apply blt_neq; exact L).
        rewrite (aget_above V k1 l1 S1) in X by (apply blt_asym; exact L). discriminate. }
    subst k2. assert (W := X k1). rewrite !aget_head in W. injection W as ->. f_equal.
    apply IH; [inversion S1; assumption|inversion S2; assumption|].
    intro k. destruct (bytes_eqb_spec k k1) as [->|N].
    + rewrite !(aget_above V k1); auto using blt_irrefl.
    + specialize (X k). rewrite !aget_tail in X by exact N. exact X.
Qed.

(** ** C73 *)
(** [==] of two trees, however they were built, always ends and says whether
    they hold the same entries. *)
Theorem C73_equality_is_same_entries :
  forall (H : bytes -> bytes) (V : Type) (vhash : V -> bytes) (veq : V -> V -> bool),
  (forall a b, veq a b = true <-> a = b) ->
  forall (ops1 ops2 : list (op V)) (t1 t2 : rb V),
  run H V vhash ops1 E = Some t1 -> run H V vhash ops2 E = Some t2 ->
  exists b, tree_eq V veq t1 t2 = Some b /\
    (b = true <-> forall k, map_after V ops1 k = map_after V ops2 k).
Proof.
  intros H V vhash veq VE ops1 ops2 t1 t2 R1 R2.
  destruct (reach_good V H vhash ops1 t1 R1) as [[S1 _] Q1], (reach_good V H vhash ops2 t2 R2) as [[S2 _] Q2].
  exists (leq V veq (elems V t1) (elems V t2)). split; [apply (tree_eq_elems V veq (fun _ _ => Eq))|]. rewrite (leq_eq V veq VE). split.
  - intros X k. rewrite <- Q1, <- Q2, !get_elems, X by assumption. reflexivity.
  - intro X. apply sorted_same; [exact S1|exact S2|]. intro k.
    rewrite <- !get_elems by assumption. rewrite Q1, Q2. apply X.
Qed.
Print Assumptions C73_equality_is_same_entries.

(** [cmp] of two trees compares their sorted entries lexicographically. *)
Theorem C73_order_is_lexicographic :
  forall (H : bytes -> bytes) (V : Type) (vhash : V -> bytes) (vcmp : V -> V -> comparison),
  total_order vcmp ->
  forall (ops1 ops2 : list (op V)) (t1 t2 : rb V),
  run H V vhash ops1 E = Some t1 -> run H V vhash ops2 E = Some t2 ->
  exists c, tree_cmp V vcmp t1 t2 = Some c /\
    match c with
    | Eq => forall k, map_after V ops1 k = map_after V ops2 k
    | Lt => map_before vcmp (map_after V ops1) (map_after V ops2)
    | Gt => map_before vcmp (map_after V ops2) (map_after V ops1)
    end.
Proof.
  intros H V vhash vcmp TO ops1 ops2 t1 t2 R1 R2.
  destruct (reach_good V H vhash ops1 t1 R1) as [[S1 _] Q1], (reach_good V H vhash ops2 t2 R2) as [[S2 _] Q2].
  assert (Ext : forall (m1 m2 n1 n2 : bytes -> option V), (forall k, m1 k = n1 k) -> (forall k, m2 k = n2 k) ->
    map_before vcmp m1 m2 -> map_before vcmp n1 n2).
  { intros m1 m2 n1 n2 E1 E2 (k & [D Bl] & M). exists k. split; [split|].
    - rewrite <- E1, <- E2. exact D.
    - intros k' L. rewrite <- E1, <- E2. apply Bl, L.
    - rewrite <- E1, <- E2. destruct (m1 k), (m2 k); auto.
      + destruct M as (k' & L & M). exists k'. rewrite <- E2. auto.
      + intros k' L. rewrite <- E1. auto. }
  assert (G1 : forall k, aget k (elems V t1) = map_after V ops1 k)
    by (intro k; rewrite <- Q1, get_elems by exact S1; reflexivity).
  assert (G2 : forall k, aget k (elems V t2) = map_after V ops2 k)
    by (intro k; rewrite <- Q2, get_elems by exact S2; reflexivity).
  exists (lcmp V vcmp (elems V t1) (elems V t2)). split; [apply (tree_cmp_elems V (fun _ _ => true))|].
  destruct (lcmp V vcmp (elems V t1) (elems V t2)) eqn:Q.
  - apply (lcmp_eq V vcmp TO) in Q. intro k. rewrite <- G1, <- G2, Q. reflexivity.
  - eapply Ext; [exact G1|exact G2|]. apply lcmp_lt; assumption.
  - rewrite (lcmp_opp V vcmp TO) in Q.
    assert (Q' : lcmp V vcmp (elems V t2) (elems V t1) = Lt)
      by (destruct (lcmp V vcmp (elems V t2) (elems V t1)); simpl in Q; congruence).
    eapply Ext; [exact G2|exact G1|]. apply lcmp_lt; assumption.
Qed.
Print Assumptions C73_order_is_lexicographic.

(** [cmp] is a total order whose equality is [==]. *)
Theorem C73_order_is_total_and_consistent :
  forall (V : Type) (veq : V -> V -> bool) (vcmp : V -> V -> comparison),
  (forall a b, veq a b = true <-> a = b) -> total_order vcmp ->
  forall t1 t2 t3 : rb V,
  (tree_cmp V vcmp t1 t2 = Some Eq <-> tree_eq V veq t1 t2 = Some true) /\
  (forall c, tree_cmp V vcmp t1 t2 = Some c -> tree_cmp V vcmp t2 t1 = Some (CompOpp c)) /\
  (tree_cmp V vcmp t1 t2 = Some Lt -> tree_cmp V vcmp t2 t3 = Some Lt -> tree_cmp V vcmp t1 t3 = Some Lt).
Proof.
  intros V veq vcmp VE TO t1 t2 t3. rewrite !(tree_cmp_elems V veq), (tree_eq_elems V veq vcmp). split; [|split].
  - assert (A := lcmp_eq V vcmp TO (elems V t1) (elems V t2)). assert (B := leq_eq V veq VE (elems V t1) (elems V t2)).
    split; intro X; injection X as X; f_equal; [apply B, A|apply A, B]; exact X.
  - intros c X. injection X as <-. rewrite (lcmp_opp V vcmp TO). reflexivity.
  - intros A B. injection A as A. injection B as B. f_equal. eapply lcmp_trans; eauto.
Qed.
Print Assumptions C73_order_is_total_and_consistent.

(** Building a tree from a list never fails; a later entry replaces an earlier
    one with the same key. *)
Theorem C73_from_iter_last_wins :
  forall (H : bytes -> bytes) (V : Type) (vhash : V -> bytes) (l : list (bytes * V)),
  exists t, from_iter V H vhash l = Some t /\
    forall k v, get V k t = Some v <-> exists pre post, l = pre ++ (k, v) :: post /\ ~ In k (map fst post).
Proof.
  intros H V vhash l.
  assert (Z : forall l t, insert_all V H vhash l t = run H V vhash (map (fun e => OpInsert V (fst e) (snd e)) l) t).
  { clear. induction l as [|[k v] l IH]; intro t; cbn [insert_all map run step fst snd]; [reflexivity|].
    destruct (insert H V vhash k v t); [apply IH|reflexivity]. }
  destruct (C08_rbtree_refines_map H V vhash (map (fun e => OpInsert V (fst e) (snd e)) l)) as (t & R & G).
  exists t. unfold from_iter. rewrite Z. split; [exact R|]. intros k v. rewrite G. clear.
  induction l as [|[k1 v1] l IH] using rev_ind.
  - cbn. split; [discriminate|]. intros (pre & post & X & _). destruct pre; discriminate.
  - unfold map_after in *. rewrite map_app, fold_left_app. cbn [map fold_left map_step fst snd].
    destruct (bytes_eqb_spec k k1) as [->|N].
    + split.
      * intro X. injection X as ->. exists l, []. split; [reflexivity|intros []].
      * intros (pre & post & X & I). destruct post as [|e post] using rev_ind.
        -- apply app_inj_tail in X. destruct X as [_ X]. injection X as ->. reflexivity.
        -- exfalso. apply I. change ((k1, v) :: post ++ [e]) with (((k1, v) :: post) ++ [e]) in X. rewrite app_assoc in X. apply app_inj_tail in X.
           destruct X as [_ <-]. rewrite map_app. apply in_or_app. right. left. reflexivity.
    + rewrite IH. split; intros (pre & post & X & I).
      * exists pre, (post ++ [(k1, v1)]). split; [rewrite X, <- app_assoc; reflexivity|].
        rewrite map_app. intro J. apply in_app_or in J. destruct J as [J|[J|[]]]; [exact (I J)|].
        cbn in J. congruence.
      * destruct post as [|e post] using rev_ind.
        -- apply app_inj_tail in X. destruct X as [_ X]. congruence.
        -- change ((k, v) :: post ++ [e]) with (((k, v) :: post) ++ [e]) in X. rewrite app_assoc in X. apply app_inj_tail in X. destruct X as [X _].
           exists pre, post. split; [exact X|]. intro J. apply I. rewrite map_app. apply in_or_app. left. exact J.
Qed.
Print Assumptions C73_from_iter_last_wins.

(** Equal trees need not have equal root hashes: the shape of the tree, and so
    its hash, depends on the order of the operations. *)
Theorem C73_equal_trees_have_equal_root_hash_refuted :
  exists l1 l2 t1 t2,
    from_iter bytes sha256 (leaf_hash sha256) l1 = Some t1 /\
    from_iter bytes sha256 (leaf_hash sha256) l2 = Some t2 /\
    tree_eq bytes bytes_eqb t1 t2 = Some true /\
    root_hash sha256 bytes t1 <> root_hash sha256 bytes t2.
Proof.
  exists [(bs "a", bs "1"); (bs "b", bs "2"); (bs "c", bs "3"); (bs "d", bs "4")],
    [(bs "d", bs "4"); (bs "c", bs "3"); (bs "b", bs "2"); (bs "a", bs "1")].
  eexists. eexists. split; [vm_compute; reflexivity|]. split; [vm_compute; reflexivity|].
  split; [vm_compute; reflexivity|]. vm_compute. intro Z. discriminate Z.
Qed.
Print Assumptions C73_equal_trees_have_equal_root_hash_refuted.

(** Concrete cases: byte strings in their usual order; two different histories
    with the same entries; a tree strictly before another. *)
Example C73_ex_order : total_order bcmp /\ forall a b, bytes_eqb a b = true <-> a = b.
Proof.
  split; [|exact bytes_eqb_eq]. split; [exact bcmp_eq|]. split; [exact bcmp_antisym|exact blt_trans].
Qed.
Example C73_ex_same : forall k, map_after bytes [OpInsert _ (bs "a") (bs "1"); OpInsert _ (bs "b") (bs "2"); OpDelete _ (bs "a")] k =
  map_after bytes [OpInsert _ (bs "b") (bs "x"); OpModify _ (bs "b") (fun _ => bs "2")] k.
Proof.
  intro k. cbn [map_after fold_left map_step].
  destruct (bytes_eqb_spec k (bs "a")) as [->|N]; [reflexivity|]. destruct (bytes_eqb_spec k (bs "b")); reflexivity.
Qed.
Example C73_ex_before : map_before bcmp (map_after bytes [OpInsert _ (bs "a") (bs "1"); OpInsert _ (bs "b") (bs "2")])
  (map_after bytes [OpInsert _ (bs "a") (bs "1"); OpInsert _ (bs "c") (bs "0")]).
Proof.
  exists (bs "b"). split.
  - split; [discriminate|]. intros k' L. cbn [map_after fold_left map_step].
    destruct (bytes_eqb_spec k' (bs "c")) as [->|_]; [discriminate L|].
    destruct (bytes_eqb_spec k' (bs "b")) as [->|_]; [discriminate L|]. reflexivity.
  - cbn. exists (bs "c"). split; [reflexivity|]. discriminate.
Qed.
