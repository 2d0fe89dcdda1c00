(** Property C74: inserting what is already there, deleting what is not there,
    and modifying with the identity leave a tree exactly as it was (so its root
    hash and all its witnesses too). *)
From Coq Require Import List Arith Lia Bool.
From Verif Require Import Bytes Sha256 HashTree HashTreeSpec RbTree RbShape RbContent RbHash RbSpec Props_RbTree
  Nested NestedSpec NestedProofs Text HttpTypes HttpTree HttpTreeSpec.
Import ListNotations.

Section Noop.
  Variable H : bytes -> bytes.
  Variable V : Type.
  Variable vhash : V -> bytes.
  Notation rb := (rb V).

  Lemma bal_noop n (l : rb) c k v r h : (c = Black -> A V n l) -> (c = Red -> B V n l) -> B V n r ->
    balance H V vhash (T c l k v r h) = Some (T c l k v r h).
  Proof.
    intros Al Bl Br. unfold balance. cbn [right_of left_of].
    rewrite (B_not_red V n r Br). cbn [andb obind right_of left_of].
    assert (X : is_red V l && is_red V (left_of V l) = false).
    { destruct c.
      - rewrite (B_not_red V n l (Bl eq_refl)). reflexivity.
      - assert (P := Al eq_refl). apply A_cases in P. destruct P as [P|P]; [rewrite (B_not_red V n l P); reflexivity|].
        rewrite (A_left_not_red V n l P). apply andb_false_r. }
    rewrite X. cbn [obind right_of left_of]. rewrite (B_not_red V n r Br), andb_false_r. reflexivity.
  Qed.

  Lemma insert_go_noop k v (t : rb) : forall n, A V n t -> hok H V vhash t -> get V k t = Some v ->
    insert_go H V vhash k v t = Some t.
  Proof.
    induction t as [|c l IHl k' v' r IHr h]; intros n P K G; [discriminate|].
    cbn [hok] in K. destruct K as (Kl & Kr & ->). cbn [get] in G. cbn [insert_go].
    assert (S : exists m, (c = Black -> A V m l) /\ (c = Red -> B V m l) /\ A V m l /\ B V m r).
    { apply A_cases in P. destruct P as [P|P]; inversion P; subst; eexists; repeat split; try discriminate; eauto.
      apply A_B. assumption. }
    destruct S as (m & S1 & S2 & S3 & S4).
    assert (Bn : forall x, balance H V vhash (upd H V vhash c l k' x r) = Some (upd H V vhash c l k' x r))
      by (intro x; apply (bal_noop m); auto).
    destruct (bcmp k k').
    - injection G as ->. apply Bn.
    - rewrite (IHl m S3 Kl G). cbn [obind]. apply Bn.
    - rewrite (IHr m (A_B V m r S4) Kr G). cbn [obind]. apply Bn.
  Qed.
  Lemma insert_noop k v t : good V t -> hok H V vhash t -> get V k t = Some v -> insert H V vhash k v t = Some t.
  Proof.
    intros [S [n P]] K G. unfold insert. rewrite (insert_go_noop k v t n (A_B V n t P) K G). cbn [obind].
    inversion P; reflexivity.
  Qed.
  Lemma modify_noop k f t : hok H V vhash t -> (forall v, get V k t = Some v -> f v = v) -> modify H V vhash k f t = t.
  Proof.
    induction t as [|c l IHl k' v' r IHr h]; intros K G; [reflexivity|].
    cbn [hok] in K. destruct K as (Kl & Kr & ->). cbn [get] in G. cbn [modify]. destruct (bcmp k k').
    - rewrite (G v' eq_refl). reflexivity.
    - rewrite (IHl Kl G). reflexivity.
    - rewrite (IHr Kr G). reflexivity.
  Qed.
End Noop.

Lemma run_hok0 H V vhash ops t : run H V vhash ops E = Some t -> hok H V vhash t.
Proof. intro R. eapply (run_hok H V vhash (fun _ => HEmpty) ops E t R). exact I. Qed.

(** C74, one level: whatever the history, an insertion of an entry that is
    there, a deletion of a key that is not, and a modification that does not
    change the value return the very same tree. *)
Theorem C74_rbtree_redundant_operations :
  forall (H : bytes -> bytes) (V : Type) (vhash : V -> bytes) (ops : list (op V)) (t : rb V) (o : op V),
  run H V vhash ops E = Some t ->
  (forall k, map_after V (ops ++ [o]) k = map_after V ops k) ->
  step H V vhash t o = Some t.
Proof.
  intros H V vhash ops t o R X. destruct (reach_good V H vhash ops t R) as [G Q].
  assert (K := run_hok0 H V vhash ops t R).
  assert (Y : forall k, map_step V (map_after V ops) o k = map_after V ops k).
  { intro k. rewrite <- X. unfold map_after. rewrite fold_left_app. reflexivity. }
  destruct o as [k v|k|k f]; cbn [step]; specialize (Y k); cbn [map_step] in Y; rewrite bytes_eqb_refl in Y.
  - apply insert_noop; auto. rewrite Q. symmetry. exact Y.
  - unfold delete. rewrite Q, <- Y. reflexivity.
  - f_equal. apply modify_noop; [exact K|]. intros v G1. rewrite Q in G1. rewrite G1 in Y. cbn in Y. congruence.
Qed.
Print Assumptions C74_rbtree_redundant_operations.

Section NestedNoop.
  Variable H : bytes -> bytes.

  Lemma ninsert_noop p v : forall t, nok H t -> nget p t = Some v -> ninsert H p v t = Some t.
  Proof.
    induction p as [|key rest IH]; intros t K G.
    - destruct t; cbn [nget] in G; [|discriminate]. injection G as ->. reflexivity.
    - destruct t as [|tr]; cbn [nget] in G; [discriminate|]. cbn [ninsert].
      destruct (get ntree key tr) as [c|] eqn:G0; [|discriminate]. cbn [obind]. rewrite G0.
      rewrite (IH c (nok_get H tr key c K G0) G). cbn [obind]. f_equal. f_equal.
      apply modify_noop; [inversion K; assumption|]. intros v0 X. congruence.
  Qed.
  Lemma ndelete_noop p : forall t, nok H t -> noempty t -> (forall q, nget (p ++ q) t = None) -> ndelete H p t = Some t.
  Proof.
    induction p as [|key rest IH]; intros t K N G.
    - cbn [ndelete]. f_equal. destruct t as [v|tr]; [discriminate (G [])|]. destruct tr as [|c l k ch r h]; [reflexivity|].
      exfalso. destruct (noempty_leaf H _ K N ltac:(discriminate)) as (q & v & X).
      specialize (G q). cbn [app] in G. congruence.
    - destruct t as [|tr]; cbn [ndelete]; [reflexivity|].
      destruct (get ntree key tr) as [c|] eqn:G0; cbn [obind].
      + destruct (noempty_get tr key c (ltac:(inversion K; assumption)) N G0) as [N1 D1].
        rewrite (IH c (nok_get H tr key c K G0) N1).
        2:{ intro q. specialize (G q). cbn [app nget] in G. rewrite G0 in G. exact G. }
        cbn [obind]. rewrite modify_noop; [|inversion K; assumption|intros v0 X; congruence].
        rewrite G0. destruct c as [|sub]; [reflexivity|]. destruct sub; [contradiction D1; reflexivity|reflexivity].
      + rewrite G0. reflexivity.
  Qed.
End NestedNoop.

(** C74, nested trees: any operation that does not change which paths hold
    which values (insert again, delete nothing, clear an empty tree) returns
    the very same tree. *)
Theorem C74_nested_redundant_operations :
  forall (H : bytes -> bytes) (ops : list nop) (t : ntree) (o : nop),
  nrun H ops ndefault = Some t ->
  (forall q w, holds (ops ++ [o]) q w <-> holds ops q w) ->
  nstep H t o = Some t.
Proof.
  intros H ops t o R X. destruct (nrun_ok H ops) as (t' & R' & K & N & L).
  assert (t' = t) by congruence. subst t'.
  destruct o as [p v|p|]; cbn [nstep].
  - apply ninsert_noop; [exact K|]. apply L, X. constructor.
  - apply ndelete_noop; auto. intro q. destruct (nget (p ++ q) t) as [w|] eqn:G; [|reflexivity].
    apply L, X in G. apply holds_snoc_inv in G. exfalso. destruct G as [_ Np]. apply Np. exists q. reflexivity.
  - destruct t as [v|tr].
    + assert (Z : nget [] (NLeaf v) = Some v) by reflexivity. apply L, X, holds_snoc_inv in Z. contradiction.
    + destruct tr as [|c l k ch r h]; [reflexivity|]. exfalso.
      destruct (noempty_leaf H _ K N ltac:(discriminate)) as (q & v & Z). apply L, X, holds_snoc_inv in Z. exact Z.
Qed.
Print Assumptions C74_nested_redundant_operations.

(** C74, HTTP certification tree: inserting an entry the tree holds, or deleting
    one when nothing is held at or below its path, changes neither the certified
    root nor any witness (the tree is the same). *)
Theorem C74_http_tree_redundant_operations :
  forall (H : bytes -> bytes) (ops : list http_op) (en : entry),
  (held ops en -> http_run H (ops ++ [HInsert en]) = http_run H ops) /\
  (~ occupied ops (entry_tree_path en) -> http_run H (ops ++ [HDelete en]) = http_run H ops).
Proof.
  intros H ops en. unfold http_run, held, occupied. rewrite !map_app. cbn [map http_nop].
  destruct (nrun_ok H (map http_nop ops)) as (t & R & K & N & L). rewrite !nrun_app, R. cbn [obind nrun]. split.
  - intro X. cbn [nstep]. rewrite ninsert_noop; [reflexivity|exact K|]. apply L, X.
  - intro X. cbn [nstep]. rewrite ndelete_noop; [reflexivity|exact K|exact N|].
    intro q. destruct (nget (entry_tree_path en ++ q) t) as [w|] eqn:G; [|reflexivity].
    exfalso. apply X. exists q, w. apply L, G.
Qed.
Print Assumptions C74_http_tree_redundant_operations.

(** Concrete cases. *)
Example C74_ex_rbtree : forall k, map_after bytes (ex_ops ++ [OpInsert _ (bs "bb") (bs "5")]) k = map_after bytes ex_ops k.
Proof.
  intro k. unfold map_after. rewrite fold_left_app. cbn [fold_left map_step ex_ops].
  destruct (bytes_eqb k (bs "bb")); reflexivity.
Qed.
Example C74_ex_http : let en := mk_entry (PWildcard (bs "/a")) (CSkip (bs "h")) in
  held [HInsert (mk_entry (PExact (bs "/b")) (CSkip (bs "h"))); HInsert en] en /\
  ~ occupied [HInsert (mk_entry (PExact (bs "/b")) (CSkip (bs "h")))] (entry_tree_path en).
Proof.
  cbv zeta. split.
  - unfold held. cbn [map http_nop]. apply (HoldsNew [NInsert _ []]).
  - intros (q & v & X). cbn [map http_nop] in X. apply (holds_snoc_inv [] _ _ _) in X.
    destruct X as [[X _]|[X _]]; [vm_compute in X; discriminate X|]. inversion X as [? ? ? Z|? ? ? ? ? ? ? ? Z|? ? ? ? ? ? Z].
    all: destruct ops; discriminate Z.
Qed.
