(** C162: the root hash determines what a tree holds. *)
From Coq Require Import List Arith NArith Lia Bool.
From Verif Require Import Bytes Text HashTree HashTreeSpec HashTreeProofs HashTreeSpecProofs Props_HashTree RbTree RbWitness RbContent RbSpec Props_RbTree Nested NestedSpec NestedProofs Props_Nested
  HttpTypes Cel HttpTree HttpTreeSpec Props_HttpTree Toy.
Import ListNotations.

Lemma full_prunes H t w : prunes H t w -> full w = true -> t = w.
Proof.
  induction 1; cbn [full]; intro F; try discriminate; try reflexivity.
  - apply andb_true_iff in F. destruct F as [F1 F2]. f_equal; auto.
  - f_equal. auto.
Qed.
Lemma full_digest H (HL : forall x, length (H x) = 32) t w : full t = true -> full w = true -> digest H t = digest H w ->
  t = w \/ collision H (preimages H t) (preimages H w).
Proof.
  intros F W D. destruct (C02_full_tree_determines_witness H HL t w F (full_hashes32 w W) D) as [P|C]; [left; exact (full_prunes H t w P W)|right; exact C].
Qed.

(** Two red-black trees, whatever their histories, with the same root hash map the same keys to the same values;
    or their nodes exhibit a collision.  The values show all of themselves in their hash trees. *)
Theorem C162_root_hash_determines_content :
  forall (H : bytes -> bytes), (forall x, length (H x) = 32) ->
  forall (V : Type) (vhash : V -> bytes) (vtree : V -> htree),
  (forall v, vhash v = digest H (vtree v) /\ full (vtree v) = true) -> (forall v v', vtree v = vtree v' -> v = v') ->
  forall (ops ops' : list (op V)) (t t' : rb V),
  run H V vhash ops E = Some t -> run H V vhash ops' E = Some t' -> root_hash H V t = root_hash H V t' ->
  (forall k, map_after V ops k = map_after V ops' k) \/
  collision H (preimages H (as_hash_tree H V vtree t)) (preimages H (as_hash_tree H V vtree t')).
Proof.
  intros H HL V vhash vtree C I ops ops' t t' R R' E.
  rewrite (C11_root_hash_is_digest H V vhash vtree ops t R), (C11_root_hash_is_digest H V vhash vtree ops' t' R') in E by (intros; apply C).
  assert (F : forall t, full (as_hash_tree H V vtree t) = true).
  { intro u. apply full_full, allv_elems. apply Forall_forall. intros x _. apply C. }
  destruct (full_digest H HL _ _ (F t) (F t') E) as [X|Y]; [left|right; exact Y].
  assert (L : elems V t = elems V t').
  { apply (f_equal flatten_forks) in X. unfold as_hash_tree in X. rewrite !(flatten_full H V (fun _ v => vtree v)) in X by reflexivity. revert X. generalize (elems V t) (elems V t'). clear - I.
    induction l as [|[k v] l IH]; intros [|[k' v'] l'] X; cbn [map fst snd] in X; try discriminate; [reflexivity|]. injection X as A B D. apply I in B. apply IH in D. congruence. }
  destruct (reach_good V H vhash ops t R) as [(S & _) G], (reach_good V H vhash ops' t' R') as [(S' & _) G'].
  intro k. rewrite <- G, <- G', !get_elems, L by assumption. reflexivity.
Qed.
Print Assumptions C162_root_hash_determines_content.

(** Two nested trees, whatever their histories, with the same root hash hold the same values at
    the same paths; or their nodes exhibit a collision. *)
Theorem C162_nested_root_hash_determines_content :
  forall (H : bytes -> bytes), (forall x, length (H x) = 32) ->
  forall (ops ops' : list nop) (t t' : ntree),
  nrun H ops ndefault = Some t -> nrun H ops' ndefault = Some t' -> nhash H t = nhash H t' ->
  (forall (p : path) (v : bytes), holds ops p v <-> holds ops' p v) \/
  collision H (preimages H (nhtree H t)) (preimages H (nhtree H t')).
Proof.
  intros H HL ops ops' t t' R R' E.
  destruct (C11_nested_root_hash_is_digest H ops t R) as (D & F & _ & L). destruct (C11_nested_root_hash_is_digest H ops' t' R') as (D' & F' & _ & L').
  rewrite D, D' in E. destruct (full_digest H HL _ _ F F' E) as [X|C]; [left|right; exact C]. intros p v. rewrite <- L, <- L', X. tauto.
Qed.
Print Assumptions C162_nested_root_hash_determines_content.

Lemma labeled_inj H (HL : forall x, length (H x) = 32) k t t' : full t = true -> full t' = true ->
  labeled_hash H k (digest H t) = labeled_hash H k (digest H t') ->
  t = t' \/ collision H (preimages H (HLabeled k t)) (preimages H (HLabeled k t')).
Proof.
  intros F F' E. destruct (full_digest H HL (HLabeled k t) (HLabeled k t') F F' E) as [X|C]; [left; congruence|right; exact C].
Qed.
(** Two certification trees with the same root hash hold the same certifications; or their nodes exhibit a collision. *)
Theorem C162_certification_tree_root_hash_determines_content :
  forall (H : bytes -> bytes), (forall x, length (H x) = 32) ->
  forall (ops ops' : list http_op) (t t' : ntree),
  http_run H ops = Some t -> http_run H ops' = Some t' -> http_root_hash H t = http_root_hash H t' ->
  (forall en, held ops en <-> held ops' en) \/
  collision H (preimages H (HLabeled (bs "http_expr") (nhtree H t))) (preimages H (HLabeled (bs "http_expr") (nhtree H t'))).
Proof.
  intros H HL ops ops' t t' R R' E. unfold http_root_hash in E.
  destruct (C11_nested_root_hash_is_digest H _ t R) as (D & F & _ & L). destruct (C11_nested_root_hash_is_digest H _ t' R') as (D' & F' & _ & L').
  rewrite D, D' in E. destruct (labeled_inj H HL _ _ _ F F' E) as [X|C]; [left|right; exact C]. intros en. unfold held. rewrite <- L, <- L', X. tauto.
Qed.
Print Assumptions C162_certification_tree_root_hash_determines_content.

(** So no change of what is certified leaves the root hash as it was. *)
Theorem C162_changes_change_the_root_hash :
  forall (H : bytes -> bytes), (forall x, length (H x) = 32) ->
  forall (ops : list http_op) (o : http_op) (t t' : ntree),
  http_run H ops = Some t -> http_run H (ops ++ [o]) = Some t' ->
  (exists en, match o with
              | HInsert en' => en = en' /\ ~ held ops en
              | HDelete en' => en = en' /\ held ops en
              | HClear => held ops en
              end) ->
  http_root_hash H t <> http_root_hash H t' \/
  collision H (preimages H (HLabeled (bs "http_expr") (nhtree H t))) (preimages H (HLabeled (bs "http_expr") (nhtree H t'))).
Proof.
  intros H HL ops o t t' R R' (en & X). destruct (bytes_eqb_spec (http_root_hash H t) (http_root_hash H t')) as [E|N]; [|left; exact N].
  destruct (C162_certification_tree_root_hash_determines_content H HL _ _ t t' R R' E) as [S|C]; [exfalso|right; exact C].
  destruct (C69_tree_operations_are_exact H ops en) as (I1 & _ & I2 & _ & I3 & _).
  destruct o as [en'|en'|]; [destruct X as [<- N]; exact (N (proj2 (S en) I1))|destruct X as [<- N]; exact (I2 (proj1 (S en) N))|exact (I3 en (proj1 (S en) X))].
Qed.
Print Assumptions C162_changes_change_the_root_hash.

(** The hypotheses are met: different histories with one root hash, and a root hash that changes. *)
Example C162_example :
  (forall v, leaf_hash toy v = digest toy (HLeaf v) /\ full (HLeaf v) = true) /\ (forall v v' : bytes, HLeaf v = HLeaf v' -> v = v') /\
  exists t t' u, run toy bytes (leaf_hash toy) [OpInsert bytes (bs "a") (bs "1")] E = Some t /\
    run toy bytes (leaf_hash toy) [OpInsert bytes (bs "a") (bs "2"); OpInsert bytes (bs "b") (bs "3"); OpDelete bytes (bs "b"); OpInsert bytes (bs "a") (bs "1")] E = Some t' /\
    run toy bytes (leaf_hash toy) [OpInsert bytes (bs "a") (bs "2")] E = Some u /\
    root_hash toy bytes t = root_hash toy bytes t' /\ root_hash toy bytes t <> root_hash toy bytes u.
Proof.
  split; [intro v; split; reflexivity|]. split; [congruence|]. eexists. eexists. eexists.
  split; [vm_compute; reflexivity|]. split; [vm_compute; reflexivity|]. split; [vm_compute; reflexivity|]. split; [vm_compute; reflexivity|]. vm_compute. discriminate.
Qed.
Example C162_http_example :
  let en := mk_entry (PExact (bs "/a")) (CResponseOnly (repeat x01 32) (repeat x02 32)) in
  exists t t' u, http_run toy [HInsert en] = Some t /\ http_run toy [HClear; HInsert en; HInsert en] = Some t' /\ http_run toy [HInsert en; HDelete en] = Some u /\
    http_root_hash toy t = http_root_hash toy t' /\ http_root_hash toy t <> http_root_hash toy u.
Proof.
  cbv zeta. eexists. eexists. eexists.
  split; [vm_compute; reflexivity|]. split; [vm_compute; reflexivity|]. split; [vm_compute; reflexivity|]. split; [vm_compute; reflexivity|]. vm_compute. discriminate.
Qed.
