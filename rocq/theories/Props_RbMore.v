(** Additions to C14 and C15 (keys, for_each, what key witnesses leave out), and C111: ranges given the wrong way round. *)
From Coq Require Import List Arith Lia NArith Bool Sorted.
From Verif Require Import Bytes Sha256 HashTree HashTreeSpec HashTreeProofs HashTreeSpecProofs RbTree RbSpec RbShape RbContent RbHash RbWitness RbBounds Props_RbTree.
Import ListNotations.
Local Open Scope nat_scope.

(** C15: [for_each] calls back with the stored entries, each key once, in increasing order. *)
Theorem C15_for_each_sorted_and_complete :
  forall (H : bytes -> bytes) (V : Type) (vhash : V -> bytes) (ops : list (op V)) (t : rb V),
  run H V vhash ops E = Some t ->
  StronglySorted blt (map fst (elems V t)) /\
  forall k v, In (k, v) (elems V t) <-> map_after V ops k = Some v.
Proof.
  intros H V vhash ops t R. destruct (reach_good V H vhash ops t R) as [[S _] Q]. split; [exact S|].
  intros k v. rewrite <- Q, get_elems by exact S. symmetry. apply aget_some_iff. exact S.
Qed.
Print Assumptions C15_for_each_sorted_and_complete.

(** the contents of the leaves of a hash tree *)
Fixpoint leaves (t : htree) : list bytes :=
  match t with HLeaf x => [x] | HFork l r => leaves l ++ leaves r | HLabeled _ s => leaves s | _ => [] end.
Lemma leaves_twf H l m r : leaves l = [] -> leaves m = [] -> leaves r = [] -> leaves (three_way_fork H l m r) = [].
Proof.
  intros A B C. destruct l, r, m; cbn [leaves three_way_fork app] in *; try discriminate; try reflexivity; try assumption;
  repeat match goal with
  | X : _ ++ _ = [] |- _ => apply app_eq_nil in X; destruct X
  | X : leaves _ = [] |- _ => rewrite X
  end; reflexivity.
Qed.
Section Leaves.
  Variables (H : bytes -> bytes) (V : Type) (vhash : V -> bytes).
  Notation f := (witness_tree V vhash).
  Lemma child_leaves (t : rb V) : leaves (child_hash_tree V t) = [].
  Proof. destruct t; reflexivity. Qed.
  Lemma full_leaves t : leaves (full_witness_tree H V f t) = [].
  Proof. induction t as [|c l IHl k v r IHr h]; [reflexivity|]. apply leaves_twf; auto. Qed.
  Lemma nb_leaves (b : kbound) k v : leaves (match b with Exact _ => f k v | Neighbor _ => witness_tree V vhash k v end) = [].
  Proof. destruct b; reflexivity. Qed.
  Lemma range_leaves lo hi t w : range_witness H V vhash f lo hi t = Some w -> leaves w = [].
  Proof.
    destruct lo as [lo|], hi as [hi|]; cbn [range_witness].
    - intro X. assert (w = witness_range_between H V vhash f lo hi t) by (destruct (bcmp (kb_key lo) (kb_key hi)); congruence). subst w. clear X.
      induction t as [|c l IHl k v r IHr h]; [reflexivity|]. cbn [witness_range_between].
      destruct (bcmp (kb_key lo) k), (bcmp k (kb_key hi)); try reflexivity; apply leaves_twf; auto using child_leaves, nb_leaves; destruct lo, hi; reflexivity.
    - intro X. injection X as <-. induction t as [|c l IHl k v r IHr h]; [reflexivity|]. cbn [witness_range_above].
      destruct (bcmp k (kb_key lo)); apply leaves_twf; auto using child_leaves, nb_leaves, full_leaves.
    - intro X. injection X as <-. induction t as [|c l IHl k v r IHr h]; [reflexivity|]. cbn [witness_range_below].
      destruct (bcmp k (kb_key hi)); apply leaves_twf; auto using child_leaves, nb_leaves, full_leaves.
    - intro X. injection X as <-. apply full_leaves.
  Qed.
End Leaves.

(** C14: [keys] decides every key, and no witness for keys contains a value. *)
Theorem C14_key_witnesses_hide_values :
  forall (H : bytes -> bytes) (V : Type) (vhash : V -> bytes) (vtree : V -> htree) (ops : list (op V)) (t : rb V),
  run H V vhash ops E = Some t -> values_ok H V vhash vtree ops ->
  (forall k,
     (forall v, map_after V ops k = Some v -> lookup_subtree [k] (keys H V vhash t) = SFound (HPruned (vhash v))) /\
     (map_after V ops k = None -> lookup_subtree [k] (keys H V vhash t) = SAbsent)) /\
  leaves (keys H V vhash t) = [] /\
  (forall first last w, key_range H V vhash first last t = Some w ->
     leaves w = [] /\ forall k c, lookup_subtree [k] w = SFound c -> exists v, map_after V ops k = Some v /\ c = HPruned (vhash v)) /\
  (forall prefix w, keys_with_prefix H V vhash prefix t = Some w ->
     leaves w = [] /\ forall k c, lookup_subtree [k] w = SFound c -> exists v, map_after V ops k = Some v /\ c = HPruned (vhash v)) /\
  (* nor does the proof that a key is absent *)
  (forall key w, map_after V ops key = None -> witness H V vhash vtree key t = Some w -> leaves w = []).
Proof.
  intros H V vhash vtree ops t R C. assert (K := reach_ok V H vhash vtree ops t R C).
  destruct (reach_good V H vhash ops t R) as [_ Q]. assert (S := proj1 K).
  assert (X : range_witness H V vhash (witness_tree V vhash) None None t = Some (keys H V vhash t)) by reflexivity.
  assert (PR : forall (k : bytes) v, vok H V vhash vtree v -> prunes H (vtree v) (HPruned (vhash v))) by (intros k v Y; rewrite Y; constructor).
  assert (ON : forall lo hi w, range_witness H V vhash (witness_tree V vhash) lo hi t = Some w ->
     leaves w = [] /\ forall k c, lookup_subtree [k] w = SFound c -> exists v, map_after V ops k = Some v /\ c = HPruned (vhash v)).
  { intros lo hi w Y. split; [exact (range_leaves H V vhash lo hi t w Y)|]. intros k c Z. apply sub_found_inv in Z.
    destruct (shown_only H V vhash vtree (fun _ v => HPruned (vhash v)) (witness_tree V vhash) (fun _ _ => eq_refl) _ _ t w k c S Y Z) as (v & G & D).
    exists v. split; [rewrite <- Q; exact G|]. destruct D as [[_ D]|(_ & _ & D & _)]; exact D. }
  split; [|split; [|split; [|split]]].
  - intro k. destruct (range_ok H V vhash vtree (fun _ v => HPruned (vhash v)) (witness_tree V vhash) None None t _ (fun _ _ => eq_refl) PR K X) as [_ W]. rewrite <- Q. split.
    + intros v Y. apply sub_found. eapply (shown_present H V vhash vtree (fun _ v => HPruned (vhash v))); eauto; first [exact I|reflexivity|intros; reflexivity].
    + intro Y. apply sub_absent. eapply (shown_absent H V vhash (fun _ v => HPruned (vhash v))); eauto; first [exact I|reflexivity|intros; reflexivity].
  - apply full_leaves.
  - intros a b w Y. exact (ON _ _ _ Y).
  - intros p w Y. exact (ON _ _ _ Y).
  - intros key w N Y. unfold witness, nested_witness in Y. rewrite <- Q in N.
    destruct (lookup_and_build_witness H V vhash vtree key t) eqn:B; [|exact (proj1 (ON _ _ _ Y))].
    apply (build_none H V vhash vtree vtree key t S) in N. congruence.
Qed.
Print Assumptions C14_key_witnesses_hide_values.

(** ** C111: ranges given the wrong way round.
    Without debug assertions (mod.rs:576-581 is a [debug_assert!]) a range witness is computed like this. *)
Section Release.
  Variables (H : bytes -> bytes) (V : Type) (vhash : V -> bytes) (vtree : V -> htree).
  (** mod.rs:399-411 [range_witness] in a release build *)
  Definition release_range_witness (f : bytes -> V -> htree) (lo hi : option kbound) (t : rb V) : htree :=
    match lo, hi with
    | None, None => full_witness_tree H V f t
    | Some l, None => witness_range_above H V vhash f l t
    | None, Some r => witness_range_below H V vhash f r t
    | Some l, Some r => witness_range_between H V vhash f l r t
    end.
  (** mod.rs:444-461 [key_range], [value_range] in a release build *)
  Definition release_key_range (first last : bytes) (t : rb V) : htree :=
    release_range_witness (witness_tree V vhash) (lower_bound V first t) (upper_bound V last t) t.
  Definition release_value_range (first last : bytes) (t : rb V) : htree :=
    release_range_witness (data_tree V vtree) (lower_bound V first t) (upper_bound V last t) t.
  Lemma release_same f lo hi t w : range_witness H V vhash f lo hi t = Some w -> w = release_range_witness f lo hi t.
  Proof. destruct lo as [lo|], hi as [hi|]; cbn [range_witness release_range_witness]; try congruence. destruct (bcmp (kb_key lo) (kb_key hi)); congruence. Qed.
  Lemma release_okw f lo hi t : hok H V vhash t -> allv V (fun _ v => vok H V vhash vtree v) t ->
    (forall k v, vok H V vhash vtree v -> prunes H (HLabeled k (vtree v)) (f k v)) -> okw H V vtree t (release_range_witness f lo hi t).
  Proof.
    intros K A F. destruct lo as [lo|], hi as [hi|]; cbn [release_range_witness].
    - apply okw_between; assumption.
    - apply okw_above; assumption.
    - apply okw_below; assumption.
    - apply (okw_full H V vhash vtree); assumption.
  Qed.
  Lemma panics f first last t : bst V t -> blt last first ->
    (range_witness H V vhash f (lower_bound V first t) (upper_bound V last t) t = None <->
     exists a b, In a (keysof V t) /\ In b (keysof V t) /\ ble last a /\ blt a b /\ ble b first).
  Proof.
    intros S L. assert (LB := lower_bound_spec V first t S). assert (UB := upper_bound_spec V last t S).
    assert (LO : match lower_bound V first t with
                 | Some lo => In (kb_key lo) (keysof V t) /\ ble (kb_key lo) first /\ forall x, In x (keysof V t) -> ble x first -> ble x (kb_key lo)
                 | None => forall x, In x (keysof V t) -> ~ ble x first end).
    { destruct (lower_bound V first t) as [[k|k]|]; cbn [kb_key].
      - destruct LB as [-> I]. split; [exact I|]. split; [apply ble_refl|auto].
      - destruct LB as (B & I & N). split; [exact I|]. split; [apply blt_ble; exact B|]. intros x J Q. destruct (N x J) as [Y|Y]; [exact Y|]. destruct (ble_nblt _ _ Q Y).
      - intros x J Q. exact (ble_nblt _ _ Q (LB x J)). }
    assert (HI : match upper_bound V last t with
                 | Some hi => In (kb_key hi) (keysof V t) /\ ble last (kb_key hi) /\ forall x, In x (keysof V t) -> ble last x -> ble (kb_key hi) x
                 | None => forall x, In x (keysof V t) -> ~ ble last x end).
    { destruct (upper_bound V last t) as [[k|k]|]; cbn [kb_key].
      - destruct UB as [-> I]. split; [exact I|]. split; [apply ble_refl|auto].
      - destruct UB as (B & I & N). split; [exact I|]. split; [apply blt_ble; exact B|]. intros x J Q. destruct (N x J) as [Y|Y]; [exact Y|]. destruct (ble_nblt _ _ Q Y).
      - intros x J Q. exact (ble_nblt _ _ Q (UB x J)). }
    clear LB UB. destruct (lower_bound V first t) as [lo|], (upper_bound V last t) as [hi|]; cbn [range_witness].
    - destruct LO as (I1 & B1 & N1), HI as (I2 & B2 & N2). destruct (bcmp_spec (kb_key lo) (kb_key hi)) as [Y|Y|Y].
      + split; [intro Z; discriminate Z|]. intros (a & b & A & B & P & Q & W). exfalso. assert (X1 := N2 a A P). assert (X2 := N1 b B W). rewrite Y in X2.
        apply (ble_nblt _ _ (ble_trans _ _ _ X2 X1) Q).
      + split; [intro Z; discriminate Z|]. intros (a & b & A & B & P & Q & W). exfalso. assert (X1 := N2 a A P). assert (X2 := N1 b B W).
        apply (ble_nblt _ _ (ble_trans _ _ _ X2 (ble_trans _ _ _ (blt_ble _ _ Y) X1)) Q).
      + split; [|reflexivity]. intros _. exists (kb_key hi), (kb_key lo). auto.
    - split; [intro Z; discriminate Z|]. intros (a & b & A & B & P & Q & W). destruct (HI a A P).
    - split; [intro Z; discriminate Z|]. intros (a & b & A & B & P & Q & W). destruct (LO b B W).
    - split; [intro Z; discriminate Z|]. intros (a & b & A & B & P & Q & W). destruct (HI a A P).
  Qed.
End Release.
Theorem C111_reversed_ranges :
  forall (H : bytes -> bytes) (V : Type) (vhash : V -> bytes) (vtree : V -> htree) (ops : list (op V)) (t : rb V) (first last : bytes),
  run H V vhash ops E = Some t -> values_ok H V vhash vtree ops ->
  (* a call returns whatever it would without debug assertions, and that has the root hash *)
  (forall w, key_range H V vhash first last t = Some w -> w = release_key_range H V vhash first last t) /\
  (forall w, value_range H V vhash vtree first last t = Some w -> w = release_value_range H V vhash vtree first last t) /\
  digest H (release_key_range H V vhash first last t) = root_hash H V t /\
  digest H (release_value_range H V vhash vtree first last t) = root_hash H V t /\
  (* with them it panics exactly for a range the wrong way round that spans two stored keys *)
  (key_range H V vhash first last t = None <->
   blt last first /\ exists a b, map_after V ops a <> None /\ map_after V ops b <> None /\ ble last a /\ blt a b /\ ble b first) /\
  (value_range H V vhash vtree first last t = None <->
   blt last first /\ exists a b, map_after V ops a <> None /\ map_after V ops b <> None /\ ble last a /\ blt a b /\ ble b first).
Proof.
  intros H V vhash vtree ops t first last R C. assert (K := reach_ok V H vhash vtree ops t R C).
  destruct (reach_good V H vhash ops t R) as [_ Q]. assert (S := proj1 K).
  assert (KEY : forall x, In x (keysof V t) <-> map_after V ops x <> None).
  { intro x. rewrite <- Q, get_elems by exact S. rewrite aget_none. unfold keysof. split; [tauto|]. intro N. destruct (in_dec (list_eq_dec Byte.byte_eq_dec) x (map fst (elems V t))); [assumption|contradiction]. }
  assert (PA : forall f, range_witness H V vhash f (lower_bound V first t) (upper_bound V last t) t = None <->
     blt last first /\ exists a b, map_after V ops a <> None /\ map_after V ops b <> None /\ ble last a /\ blt a b /\ ble b first).
  { intro f. split.
    - intro N. assert (L : blt last first).
      { destruct (bcmp_spec last first) as [Y|Y|Y]; [|exact Y|].
        - destruct (range_total H V vhash f first last t S) as (w & W); [subst; apply ble_refl|congruence].
        - destruct (range_total H V vhash f first last t S) as (w & W); [apply blt_ble; exact Y|congruence]. }
      split; [exact L|]. apply (panics H V vhash f first last t S L) in N. destruct N as (a & b & A & B & P). exists a, b. rewrite <- !KEY. tauto.
    - intros (L & a & b & A & B & P). apply (panics H V vhash f first last t S L). exists a, b. rewrite !KEY. tauto. }
  assert (HK : hok H V vhash t) by apply K. assert (HV : allv V (fun _ v => vok H V vhash vtree v) t) by (apply tree_ok_vok; exact K).
  split; [intros w Y; exact (release_same H V vhash _ _ _ _ _ Y)|]. split; [intros w Y; exact (release_same H V vhash _ _ _ _ _ Y)|].
  split; [|split; [|split; apply PA]].
  - eapply okw_digest; [exact K|]. apply release_okw; try assumption. intros k v Y. apply (pr_witness H V vhash vtree). exact Y.
  - eapply okw_digest; [exact K|]. apply release_okw; try assumption. intros k v Y. apply prunes_refl.
Qed.
Print Assumptions C111_reversed_ranges.
(** the history of C08 panics for d..a, not for b..a *)
Example C111_ex : exists t, run sha256 bytes (leaf_hash sha256) ex_ops E = Some t /\
  map_after bytes ex_ops (bs "b") <> None /\ map_after bytes ex_ops (bs "d") <> None /\ ble (bs "a") (bs "b") /\ blt (bs "b") (bs "d") /\ ble (bs "d") (bs "d") /\
  (exists w, key_range sha256 bytes (leaf_hash sha256) (bs "b") (bs "a") t = Some w) /\ key_range sha256 bytes (leaf_hash sha256) (bs "d") (bs "a") t = None.
Proof. eexists. split; [vm_compute; reflexivity|]. repeat split; try (intro Z; discriminate Z). eexists. reflexivity. Qed.
