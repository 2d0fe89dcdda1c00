(** C131: the root hash is the one of the Internet Computer interface specification. *)
From Coq Require Import List Arith NArith Lia Bool String Strings.Byte.
From Verif Require Import Bytes Toy HashTree HashTreeSpec HashTreeSpecProofs RbTree RbSpec Props_RbTree Nested NestedSpec Props_Nested Cbor HttpTypes HttpTree Props_HttpTree CertVerify CertSpec Props_Cert.
Import ListNotations.
Local Open Scope list_scope.

(** "reconstruct" of the interface specification, section "Certificate": domain separators are a length byte and a text *)
Inductive reconstructs (H : bytes -> bytes) : htree -> bytes -> Prop :=
| rec_empty : reconstructs H HEmpty (H (x11 :: bs "ic-hashtree-empty"))
| rec_fork l r hl hr : reconstructs H l hl -> reconstructs H r hr ->
    reconstructs H (HFork l r) (H (x10 :: bs "ic-hashtree-fork" ++ hl ++ hr))
| rec_labeled lbl t h : reconstructs H t h -> reconstructs H (HLabeled lbl t) (H (x13 :: bs "ic-hashtree-labeled" ++ lbl ++ h))
| rec_leaf v : reconstructs H (HLeaf v) (H (x10 :: bs "ic-hashtree-leaf" ++ v))
| rec_pruned h : reconstructs H (HPruned h) h.

Theorem C131_digest_is_the_specified_root_hash :
  forall (H : bytes -> bytes) (t : htree) (h : bytes), digest H t = h <-> reconstructs H t h.
Proof.
  intros H t h. split.
  - intros <-. induction t; cbn [digest].
    + apply rec_empty.
    + apply rec_fork; assumption.
    + apply rec_labeled; assumption.
    + apply rec_leaf.
    + apply rec_pruned.
  - intro R. induction R; cbn [digest]; try reflexivity.
    + rewrite IHR1, IHR2. reflexivity.
    + rewrite IHR. reflexivity.
Qed.
Print Assumptions C131_digest_is_the_specified_root_hash.

(** RbTree: the map's root hash is the one of its full tree and of every witness *)
Theorem C131_map_root_hash :
  forall (H : bytes -> bytes) (V : Type) (vhash : V -> bytes) (vtree : V -> htree) (ops : list (op V)) (t : rb V),
  run H V vhash ops E = Some t -> values_ok H V vhash vtree ops ->
  reconstructs H (as_hash_tree H V vtree t) (root_hash H V t) /\
  reconstructs H (keys H V vhash t) (root_hash H V t) /\
  (forall key, exists w, witness H V vhash vtree key t = Some w /\ reconstructs H w (root_hash H V t)) /\
  (forall first last, ble first last ->
     (exists w, key_range H V vhash first last t = Some w /\ reconstructs H w (root_hash H V t)) /\
     (exists w, value_range H V vhash vtree first last t = Some w /\ reconstructs H w (root_hash H V t))) /\
  (forall prefix, exists w, keys_with_prefix H V vhash prefix t = Some w /\ reconstructs H w (root_hash H V t)).
Proof.
  intros H V vhash vtree ops t R K. destruct (C12_witnesses_have_root_hash H V vhash vtree ops t R K) as (W1 & W2 & _ & W4 & W5 & W6).
  assert (D := C131_digest_is_the_specified_root_hash H).
  split. { apply D. symmetry. apply (C11_root_hash_is_digest H V vhash vtree ops t R). intros k v M. apply (K k v M). }
  split. { apply D. exact W1. }
  split. { intro key. destruct (W2 key) as (w & E1 & E2). exists w. split; [exact E1|]. apply D. exact E2. }
  split. { intros a b L. destruct (W4 a b L) as (w & E1 & E2). destruct (W5 a b L) as (w' & E3 & E4). split; [exists w|exists w']; (split; [assumption|]; apply D; assumption). }
  intro prefix. destruct (W6 prefix) as (w & E1 & E2). exists w. split; [exact E1|]. apply D. exact E2.
Qed.
Print Assumptions C131_map_root_hash.

(** The certification tree: what a canister must set as certified data, and what every witness it serves hashes to.
    An entry of the tree is a chain of labels that ends in an empty leaf. *)
Theorem C131_certification_tree_root_hash :
  forall (H : bytes -> bytes) (ops : list http_op) (t : ntree), http_run H ops = Some t ->
  reconstructs H (HLabeled (bs "http_expr") (nhtree H t)) (http_root_hash H t) /\
  (forall p : path, lookup_path p (nhtree H t) = Found [] <-> holds (map http_nop ops) p []) /\
  (forall p v, lookup_path p (nhtree H t) = Found v -> v = []) /\
  full (nhtree H t) = true /\
  forall (en : entry) (request_url : bytes) (w : htree), http_witness H t en request_url = OOk w -> reconstructs H w (http_root_hash H t).
Proof.
  intros H ops t R. assert (D := C131_digest_is_the_specified_root_hash H).
  destruct (C11_nested_root_hash_is_digest H (map http_nop ops) t R) as (A & B & _ & C).
  split. { apply D. cbn [digest]. unfold http_root_hash. rewrite A. reflexivity. }
  split. { intro p. apply C. }
  split. { intros p v X. apply C in X. destruct (holds_inserted ops p v X) as (en & _ & _ & ->). reflexivity. }
  split; [exact B|].
  intros en url w E. destruct (C52_witness_never_panics H ops) as (t' & R' & X). assert (t' = t) by congruence. subst t'.
  destruct (X en url) as [(w' & E' & Y)|(E' & _)]; [|congruence]. apply D. congruence.
Qed.
Print Assumptions C131_certification_tree_root_hash.

(** What a certificate's signature is checked over. *)
Theorem C131_signed_message :
  forall (H : bytes -> bytes) (vs : bytes -> bytes -> bytes -> bool) (key : bytes) (c : certificate),
  verify_certificate_signature H vs c key = OOk tt <->
  exists pk h, der_of key pk /\ reconstructs H (c_tree c) h /\ vs pk (c_sig c) (x0d :: bs "ic-state-root" ++ h) = true.
Proof.
  intros H vs key c. rewrite signature_spec. unfold signed_by. split.
  - intros (pk & D & V). exists pk, (digest H (c_tree c)). split; [exact D|]. split; [apply C131_digest_is_the_specified_root_hash; reflexivity|exact V].
  - intros (pk & h & D & R & V). exists pk. split; [exact D|]. apply C131_digest_is_the_specified_root_hash in R. subst h. exact V.
Qed.
Print Assumptions C131_signed_message.

(** a tree and the same tree with a subtree pruned *)
Example C131_ex :
  let full := HFork (HLabeled (bs "a") (HLeaf (bs "hello"))) (HLabeled (bs "b") (HLeaf (bs "good"))) in
  let pruned := HFork (HPruned (digest toy (HLabeled (bs "a") (HLeaf (bs "hello"))))) (HLabeled (bs "b") (HLeaf (bs "good"))) in
  exists h, reconstructs toy full h /\ reconstructs toy pruned h.
Proof. eexists. split; apply C131_digest_is_the_specified_root_hash; vm_compute; reflexivity. Qed.
