(** C85, C86: merging two arbitrary hash trees (merge_hash_trees). *)
From Coq Require Import List NArith Bool Lia.
From Verif Require Import Bytes HashTree HashTreeSpec HashTreeProofs RbTree Nested NestedProofs MergeSpec Sha256.
Import ListNotations.

Lemma merge_comm a : forall b, merge a b = merge b a.
Proof.
  induction a as [ | l IHl r IHr | k t IH | v | h]; intros [ | l2 r2 | k2 t2 | v2 | h2]; simpl; try reflexivity.
  - rewrite IHl. destruct (merge l2 l); simpl; [|reflexivity]. rewrite IHr. reflexivity.
  - rewrite bytes_eqb_sym. destruct (bytes_eqb_spec k2 k) as [->|]; [|reflexivity]. rewrite IH. reflexivity.
  - rewrite bytes_eqb_sym. destruct (bytes_eqb_spec v2 v) as [->|]; reflexivity.
  - rewrite bytes_eqb_sym. destruct (bytes_eqb_spec h2 h) as [->|]; reflexivity.
Qed.

Lemma merge_same a : merge a a = Some a.
Proof.
  induction a as [ | l IHl r IHr | k t IH | v | h]; simpl; try reflexivity;
    rewrite ?bytes_eqb_refl; try reflexivity.
  - rewrite IHl. simpl. rewrite IHr. reflexivity.
  - rewrite IH. reflexivity.
Qed.

Lemma better_r x : better x None = x.
Proof. destruct x as [[]|]; reflexivity. Qed.

Lemma merge_nodes a : forall b m, merge a b = Some m ->
  forall p, node_at p m = better (node_at p a) (node_at p b).
Proof.
  induction a as [ | l IHl r IHr | k t IH | v | h]; intros [ | l2 r2 | k2 t2 | v2 | h2] m E p; simpl in E;
    try discriminate E;
    try (injection E as <-; destruct p as [|[] p]; simpl; rewrite ?better_r; reflexivity).
  - destruct (merge l l2) as [ml|] eqn:El; simpl in E; [|discriminate E].
    destruct (merge r r2) as [mr|] eqn:Er; simpl in E; [|discriminate E].
    injection E as <-. destruct p as [|[] p]; simpl; auto.
  - destruct (bytes_eqb_spec k k2) as [<-|]; [|discriminate E].
    destruct (merge t t2) as [m'|] eqn:E1; simpl in E; [|discriminate E].
    injection E as <-. destruct p as [|[] p]; simpl; auto.
  - destruct (bytes_eqb_spec v v2) as [<-|]; [|discriminate E]. injection E as <-.
    destruct p as [|[] p]; simpl; auto.
  - destruct (bytes_eqb_spec h h2) as [<-|]; [|discriminate E]. injection E as <-.
    destruct p as [|[] p]; simpl; auto.
Qed.

Definition clash (a b : htree) : Prop :=
  exists p x y, node_at p a = Some x /\ node_at p b = Some y /\ contradict x y.

Lemma clash_here a b : contradict (node_of a) (node_of b) -> clash a b.
Proof. intro C. exists [], (node_of a), (node_of b). auto. Qed.

Lemma merge_none a : forall b, merge a b = None -> clash a b.
Proof.
  induction a as [ | l IHl r IHr | k t IH | v | h]; intros [ | l2 r2 | k2 t2 | v2 | h2] E; simpl in E;
    try discriminate E; try (apply clash_here; simpl; intro Z; discriminate Z).
  - destruct (merge l l2) as [ml|] eqn:El; simpl in E.
    + destruct (merge r r2) as [mr|] eqn:Er; simpl in E; [discriminate E|].
      destruct (IHr _ Er) as (p & x & y & A & B & C). exists (GoRight :: p), x, y. auto.
    + destruct (IHl _ El) as (p & x & y & A & B & C). exists (GoLeft :: p), x, y. auto.
  - destruct (bytes_eqb_spec k k2) as [<-|N].
    + destruct (merge t t2) as [m'|] eqn:E1; simpl in E; [discriminate E|].
      destruct (IH _ E1) as (p & x & y & A & B & C). exists (GoUnder :: p), x, y. auto.
    + apply clash_here. simpl. congruence.
  - destruct (bytes_eqb_spec v v2) as [Y|N]; [discriminate E|]. apply clash_here. simpl. congruence.
  - destruct (bytes_eqb_spec h h2) as [Y|N]; [discriminate E|]. apply clash_here. simpl. congruence.
Qed.

Lemma merge_some a : forall b m, merge a b = Some m -> ~ clash a b.
Proof.
  induction a as [ | l IHl r IHr | k t IH | v | h]; intros [ | l2 r2 | k2 t2 | v2 | h2] m E (p & x & y & A & B & C);
    simpl in E; try discriminate E;
    try (destruct p as [|[] p]; simpl in A, B; try discriminate A; try discriminate B;
         injection A as <-; injection B as <-; exact C).
  - destruct (merge l l2) as [ml|] eqn:El; simpl in E; [|discriminate E].
    destruct (merge r r2) as [mr|] eqn:Er; simpl in E; [|discriminate E].
    destruct p as [|[] p]; simpl in A, B; try discriminate A.
    + injection A as <-; injection B as <-. apply C. reflexivity.
    + apply (IHl _ _ El). exists p, x, y. auto.
    + apply (IHr _ _ Er). exists p, x, y. auto.
  - destruct (bytes_eqb_spec k k2) as [<-|]; [|discriminate E].
    destruct (merge t t2) as [m'|] eqn:E1; simpl in E; [|discriminate E].
    destruct p as [|[] p]; simpl in A, B; try discriminate A.
    + injection A as <-; injection B as <-. apply C. reflexivity.
    + apply (IH _ _ E1). exists p, x, y. auto.
  - destruct (bytes_eqb_spec v v2) as [<-|]; [|discriminate E].
    destruct p as [|[] p]; simpl in A, B; try discriminate A. injection A as <-; injection B as <-. apply C. reflexivity.
  - destruct (bytes_eqb_spec h h2) as [<-|]; [|discriminate E].
    destruct p as [|[] p]; simpl in A, B; try discriminate A. injection A as <-; injection B as <-. apply C. reflexivity.
Qed.

(** C85: for any two trees, merging panics exactly when at some position the two
    trees contradict each other; otherwise the result carries at every position
    the more informative of the two nodes; the order of the arguments is
    immaterial and merging a tree with itself changes nothing. *)
Theorem C85_merge_is_the_overlay : forall a b,
  (merge a b = None <->
   exists p x y, node_at p a = Some x /\ node_at p b = Some y /\ contradict x y) /\
  (forall m, merge a b = Some m -> forall p, node_at p m = better (node_at p a) (node_at p b)) /\
  merge b a = merge a b /\
  merge a a = Some a.
Proof.
  intros a b. split; [split|split; [|split]].
  - apply merge_none.
  - intro C. destruct (merge a b) as [m|] eqn:E; [|reflexivity]. exfalso. exact (merge_some a b m E C).
  - apply merge_nodes.
  - apply merge_comm.
  - apply merge_same.
Qed.
Print Assumptions C85_merge_is_the_overlay.

(** C86: two witnesses with the same root hash, wherever they come from, can
    always be merged; the result has that root hash and both inputs are prunings
    of it (so that C19 applies to it) - or else the two trees exhibit two
    different messages with the same hash. *)
Theorem C86_same_root_hash_merges : forall (H : bytes -> bytes) a b,
  (forall x, length (H x) = 32) ->
  hashes32 a = true -> hashes32 b = true ->
  digest H a = digest H b ->
  (exists m, merge a b = Some m /\ digest H m = digest H a /\ prunes H m a /\ prunes H m b) \/
  collision H (preimages H a) (preimages H b).
Proof.
  intros H a b Hlen Wa Wb E.
  destruct (binding H Hlen a b Wa Wb E) as [C|C]; [|right; exact C].
  revert b Wa Wb E C. induction a as [ | l IHl r IHr | k t IH | v | h]; intros b Wa Wb E C.
  - destruct b; simpl in C; try contradiction; left; (eexists; split; [reflexivity|]); simpl in E; subst;
      repeat split; try constructor; apply (PrPruned H HEmpty).
  - destruct b as [ | l2 r2 | | | h2]; simpl in C; try contradiction.
    + destruct C as [Cl Cr]. simpl in Wa, Wb, E. apply andb_true_iff in Wa, Wb. destruct Wa as [Wal War], Wb as [Wbl Wbr].
      destruct (bytes_eq_dec (sep_fork ++ digest H l ++ digest H r) (sep_fork ++ digest H l2 ++ digest H r2)) as [M|M].
      * apply app_inv_head in M. apply app_inj_len in M; [|rewrite !(digest_len H Hlen); auto]. destruct M as [Ml Mr].
        destruct (IHl l2 Wal Wbl Ml Cl) as [(ml & E1 & D1 & P1 & Q1)|X].
        -- destruct (IHr r2 War Wbr Mr Cr) as [(mr & E2 & D2 & P2 & Q2)|X].
           ++ left. exists (HFork ml mr). simpl. rewrite E1. simpl. rewrite E2. simpl. rewrite D1, D2.
              repeat split; try constructor; assumption.
           ++ right. eapply collision_mono; [| |exact X]; intros y Hy; simpl; right; apply in_or_app; auto.
        -- right. eapply collision_mono; [| |exact X]; intros y Hy; simpl; right; apply in_or_app; auto.
      * right. eapply collision_intro; [left; reflexivity|left; reflexivity|exact E|exact M].
    + left. exists (HFork l r). split; [reflexivity|]. split; [reflexivity|]. split; [apply prunes_refl|].
      simpl in E. subst h2. apply (PrPruned H (HFork l r)).
  - destruct b as [ | | k2 t2 | | h2]; simpl in C; try contradiction.
    + destruct C as [<- Ct]. simpl in Wa, Wb, E.
      destruct (bytes_eq_dec (sep_labeled ++ k ++ digest H t) (sep_labeled ++ k ++ digest H t2)) as [M|M].
      * apply app_inv_head in M. apply app_inv_head in M.
        destruct (IH t2 Wa Wb M Ct) as [(m & E1 & D1 & P1 & Q1)|X].
        -- left. exists (HLabeled k m). simpl. rewrite bytes_eqb_refl, E1. simpl. rewrite D1.
           repeat split; try constructor; assumption.
        -- right. eapply collision_mono; [| |exact X]; intros y Hy; simpl; right; auto.
      * right. eapply collision_intro; [left; reflexivity|left; reflexivity|exact E|exact M].
    + left. exists (HLabeled k t). split; [reflexivity|]. split; [reflexivity|]. split; [apply prunes_refl|].
      simpl in E. subst h2. apply (PrPruned H (HLabeled k t)).
  - destruct b; simpl in C; try contradiction.
    + subst. left. simpl. rewrite bytes_eqb_refl. eexists; split; [reflexivity|]. repeat split; constructor.
    + simpl in E. subst. left. exists (HLeaf v). repeat split; try constructor; apply (PrPruned H (HLeaf v)).
  - left. simpl in E. destruct b as [ | l2 r2 | k2 t2 | v2 | h2].
    + exists HEmpty. subst. repeat split; try constructor; apply (PrPruned H HEmpty).
    + exists (HFork l2 r2). split; [reflexivity|]. split; [symmetry; exact E|]. subst h.
      split; [apply PrPruned|apply prunes_refl].
    + exists (HLabeled k2 t2). split; [reflexivity|]. split; [symmetry; exact E|]. subst h.
      split; [apply PrPruned|apply prunes_refl].
    + exists (HLeaf v2). split; [reflexivity|]. split; [symmetry; exact E|]. subst h.
      split; [apply PrPruned|apply prunes_refl].
    + exists (HPruned h). simpl in E. subst h2. simpl. rewrite bytes_eqb_refl. repeat split; constructor.
Qed.
Print Assumptions C86_same_root_hash_merges.

(** ** Concrete cases *)
(** Three trees: a fork with a revealed left child, one with a revealed right
    child, and one contradicting the first at its left leaf. *)
Definition mg_a := HFork (HLabeled (bs "a") (HLeaf (bs "1"))) (HPruned (bs "h")).
Definition mg_b := HFork HEmpty (HLabeled (bs "b") HEmpty).
Definition mg_c := HFork (HLabeled (bs "a") (HLeaf (bs "2"))) HEmpty.
Example mg_merge : merge mg_a mg_b = Some (HFork (HLabeled (bs "a") (HLeaf (bs "1"))) (HLabeled (bs "b") HEmpty)) /\
  merge mg_b mg_a = merge mg_a mg_b.
Proof. split; reflexivity. Qed.
Example mg_clash : merge mg_a mg_c = None /\
  node_at [GoLeft; GoUnder] mg_a = Some (IsLeaf (bs "1")) /\ node_at [GoLeft; GoUnder] mg_c = Some (IsLeaf (bs "2")) /\
  contradict (IsLeaf (bs "1")) (IsLeaf (bs "2")).
Proof. repeat split. intro Z; discriminate Z. Qed.
(** An empty tree is not neutral: next to a pruned node it wins, so that the
    result no longer has the pruned hash. *)
Example mg_empty_pruned : merge HEmpty (HPruned (bs "h")) = Some HEmpty /\ merge (HPruned (bs "h")) HEmpty = Some HEmpty.
Proof. split; reflexivity. Qed.
(** C86 applies to two different prunings with one root hash. *)
Definition toy (x : bytes) : bytes := repeat (n2b (N.of_nat (length x))) 32.
Example mg_same_root :
  let a := HFork (HLabeled (bs "a") (HLeaf (bs "1"))) (HPruned (digest toy (HLabeled (bs "b") HEmpty))) in
  let b := HFork (HPruned (digest toy (HLabeled (bs "a") (HLeaf (bs "1"))))) (HLabeled (bs "b") HEmpty) in
  hashes32 a = true /\ hashes32 b = true /\ digest toy a = digest toy b /\ a <> b /\
  merge a b = Some (HFork (HLabeled (bs "a") (HLeaf (bs "1"))) (HLabeled (bs "b") HEmpty)).
Proof. repeat split; try reflexivity. intro Z; discriminate Z. Qed.
