(** Proofs about the representation independent hash. *)
From Coq Require Import List Arith NArith Lia Bool Permutation Sorted.
From Verif Require Import Bytes HashTreeSpec Leb128 RiHash Text HttpTypes HttpHash HttpSpec.
Import ListNotations.

Definition ple (a b : bytes * bytes) : Prop := pair_leb a b = true.
Lemma ple_total a b : ple a b \/ ple b a.
Proof.
  unfold ple, pair_leb. destruct a as [a1 a2], b as [b1 b2]; cbn [fst snd].
  rewrite (bcmp_antisym b1 a1), (bcmp_antisym b2 a2).
  destruct (bcmp a1 b1), (bcmp a2 b2); simpl; auto.
Qed.
Lemma ple_antisym a b : ple a b -> ple b a -> a = b.
Proof.
  unfold ple, pair_leb. destruct a as [a1 a2], b as [b1 b2]; cbn [fst snd].
  rewrite (bcmp_antisym b1 a1), (bcmp_antisym b2 a2).
  destruct (bcmp a1 b1) eqn:E1, (bcmp a2 b2) eqn:E2; simpl; try discriminate.
  apply bcmp_eq in E1, E2. congruence.
Qed.
Lemma ple_trans a b c : ple a b -> ple b c -> ple a c.
Proof.
  unfold ple, pair_leb. destruct a as [a1 a2], b as [b1 b2], c as [c1 c2]; cbn [fst snd].
  destruct (bcmp a1 b1) eqn:E1; [|intros _|discriminate].
  - apply bcmp_eq in E1. subst b1. destruct (bcmp a1 c1); auto.
    intros A B. assert (ble a2 b2) by (unfold ble; destruct (bcmp a2 b2); discriminate).
    assert (ble b2 c2) by (unfold ble; destruct (bcmp b2 c2); discriminate).
    assert (X : ble a2 c2) by (eapply ble_trans; eassumption). unfold ble in X. destruct (bcmp a2 c2); congruence.
  - destruct (bcmp b1 c1) eqn:E2; [|intros _|discriminate].
    + apply bcmp_eq in E2. subst c1. rewrite E1. auto.
    + assert (X : blt a1 c1) by (eapply blt_trans; eassumption). unfold blt in X. rewrite X. reflexivity.
Qed.
Lemma insert_perm x l : Permutation (x :: l) (insert_sorted x l).
Proof.
  induction l as [|y l IH]; simpl; [apply Permutation_refl|]. destruct (pair_leb x y); [apply Permutation_refl|].
  eapply perm_trans; [apply perm_swap|]. constructor. exact IH.
Qed.
Lemma sort_perm l : Permutation l (sort_pairs l).
Proof. induction l as [|x l IH]; simpl; [constructor|]. eapply perm_trans; [|apply insert_perm]. constructor. exact IH. Qed.
Lemma insert_sorted_ok x l : StronglySorted ple l -> StronglySorted ple (insert_sorted x l).
Proof.
  induction 1 as [|y l S IH F]; simpl; [repeat constructor|].
  destruct (pair_leb x y) eqn:E.
  - constructor; [constructor; assumption|]. constructor; [exact E|].
    eapply Forall_impl; [|exact F]. intros z. apply ple_trans. exact E.
  - constructor; [exact IH|]. eapply Permutation_Forall; [apply insert_perm|].
    constructor; [|exact F]. destruct (ple_total x y); [congruence|assumption].
Qed.
Lemma sort_sorted l : StronglySorted ple (sort_pairs l).
Proof. induction l; simpl; [constructor|]. apply insert_sorted_ok. assumption. Qed.
(** A sorted permutation of a list is unique: whatever sorting algorithm is used. *)
Lemma sort_unique l m : StronglySorted ple l -> StronglySorted ple m -> Permutation l m -> l = m.
Proof.
  intro S. revert m. induction S as [|x l S IH F]; intros m Sm P.
  - apply Permutation_nil in P. congruence.
  - destruct m as [|y m]; [apply Permutation_sym, Permutation_nil in P; discriminate|].
    inversion Sm as [|? ? Sm' Fm]; subst.
    assert (E : x = y).
    { assert (I : In x (y :: m)) by (eapply Permutation_in; [exact P|left; reflexivity]).
      assert (J : In y (x :: l)) by (eapply Permutation_in; [apply Permutation_sym; exact P|left; reflexivity]).
      destruct I as [I|I]; [congruence|]. destruct J as [J|J]; [congruence|].
      apply ple_antisym; [rewrite Forall_forall in F; auto|rewrite Forall_forall in Fm; auto]. }
    subst y. f_equal. apply IH; [exact Sm'|]. eapply Permutation_cons_inv. exact P.
Qed.

Lemma ri_hash_perm_pairs H m1 m2 : Permutation (ri_pairs H m1) (ri_pairs H m2) -> ri_hash H m1 = ri_hash H m2.
Proof.
  intro P. unfold ri_hash, ri_msg. f_equal. f_equal. apply sort_unique; try apply sort_sorted.
  eapply perm_trans; [apply Permutation_sym, sort_perm|]. eapply perm_trans; [|apply sort_perm]. exact P.
Qed.
Lemma ri_hash_perm H m1 m2 : Permutation m1 m2 -> ri_hash H m1 = ri_hash H m2.
Proof. intro P. apply ri_hash_perm_pairs. unfold ri_pairs. apply Permutation_map. exact P. Qed.

Lemma concat_pairs_inj l1 : forall l2,
  Forall (fun p : bytes * bytes => length (fst p) = 32 /\ length (snd p) = 32) l1 ->
  Forall (fun p : bytes * bytes => length (fst p) = 32 /\ length (snd p) = 32) l2 ->
  flat_map (fun p => fst p ++ snd p) l1 = flat_map (fun p => fst p ++ snd p) l2 -> l1 = l2.
Proof.
  induction l1 as [|[a b] l1 IH]; intros [|[c d] l2] F1 F2 E; [reflexivity| | |].
  - inversion F2 as [|? ? [X _] _]; subst. simpl in *. destruct c; discriminate.
  - inversion F1 as [|? ? [X _] _]; subst. simpl in *. destruct a; discriminate.
  - inversion F1 as [|? ? [X1 X2] F1']; inversion F2 as [|? ? [Y1 Y2] F2']; subst.
    cbn [flat_map fst snd] in *. rewrite <- !app_assoc in E.
    apply app_inj_len in E; [|congruence]. destruct E as [<- E].
    apply app_inj_len in E; [|congruence]. destruct E as [<- E].
    f_equal. apply IH; assumption.
Qed.

(** A permutation between images is a permutation between sources, unless two
    distinct members have equal images. *)
Lemma perm_map_or {A B} (f : A -> B) (Bad : A -> A -> Prop) l1 l2 :
  (forall x y, f x = f y -> x = y \/ Bad x y) ->
  Permutation (map f l1) (map f l2) ->
  Permutation l1 l2 \/ exists x y, In x l1 /\ In y l2 /\ Bad x y.
Proof.
  intros D P. destruct (Permutation_map_inv f _ P) as (l3 & E & P').
  assert (X : l1 = l3 \/ exists x y, In x l1 /\ In y l3 /\ Bad x y).
  { clear P P' l2. revert l3 E. induction l1 as [|x l1 IH]; intros [|y l3] E; try discriminate; [left; reflexivity|].
    simpl in E. injection E as E1 E2. destruct (IH l3 E2) as [->|(u & v & I & J & K)].
    - destruct (D x y E1) as [->|K]; [left; reflexivity|]. right. exists x, y. simpl; auto.
    - right. exists u, v. simpl; auto. }
  destruct X as [->|(x & y & I & J & K)]; [left; apply Permutation_sym; exact P'|].
  right. exists x, y. repeat split; auto. eapply Permutation_in; [apply Permutation_sym; exact P'|exact J].
Qed.

Lemma value_msg_scalar H v : scalar v -> value_msg H v = scalar_bytes v.
Proof. destruct v; simpl; tauto. Qed.

Lemma collision_mono H a b c d : incl a c -> incl b d -> collision H a b -> collision H c d.
Proof. intros I J (x & y & A & B & C). exists x, y. split; [apply I, A|]. split; [apply J, B|exact C]. Qed.

Lemma ri_pairs_plain H m : Forall (fun kv => scalar (snd kv)) m ->
  ri_pairs H m = map (fun kv => (H (fst kv), H (snd kv))) (plain m).
Proof.
  intro S. unfold ri_pairs, plain. rewrite map_map. apply map_ext_in. intros [k v] I. cbn [fst snd].
  unfold hash_value. rewrite value_msg_scalar; [reflexivity|]. rewrite Forall_forall in S. exact (S _ I).
Qed.
Lemma in_plain H m k x : In (k, x) (plain m) -> In k (ri_messages H m) /\ In x (ri_messages H m).
Proof.
  intro I. unfold plain in I. apply in_map_iff in I. destruct I as ([k' v] & E & I). injection E as <- <-.
  unfold ri_messages. split; right; apply in_flat_map; exists (k', v); simpl; auto.
Qed.
Lemma ri_binding H m1 m2 : (forall x, length (H x) = 32) ->
  Forall (fun kv => scalar (snd kv)) m1 -> Forall (fun kv => scalar (snd kv)) m2 ->
  ri_hash H m1 = ri_hash H m2 ->
  Permutation (plain m1) (plain m2) \/ collision H (ri_messages H m1) (ri_messages H m2).
Proof.
  intros HL S1 S2 E. unfold ri_hash in E.
  destruct (bytes_eq_dec (ri_msg H m1) (ri_msg H m2)) as [M|M].
  2:{ right. exists (ri_msg H m1), (ri_msg H m2). unfold ri_messages. simpl; auto. }
  unfold ri_msg in M.
  assert (FF : forall m, Forall (fun p : bytes * bytes => length (fst p) = 32 /\ length (snd p) = 32) (sort_pairs (ri_pairs H m))).
  { intro m. eapply Permutation_Forall; [apply sort_perm|]. unfold ri_pairs. apply Forall_map.
    apply Forall_forall. intros [k v] _. simpl. unfold hash_value. split; apply HL. }
  apply concat_pairs_inj in M; try apply FF.
  assert (P : Permutation (ri_pairs H m1) (ri_pairs H m2)).
  { eapply perm_trans; [apply sort_perm|]. rewrite M. apply Permutation_sym, sort_perm. }
  rewrite !ri_pairs_plain in P by assumption.
  destruct (perm_map_or (fun kv : bytes * bytes => (H (fst kv), H (snd kv)))
     (fun a b => (fst a <> fst b /\ H (fst a) = H (fst b)) \/ (snd a <> snd b /\ H (snd a) = H (snd b))) (plain m1) (plain m2)) as [Q|(x & y & I & J & K)].
  - intros [k v] [k' v'] Q. cbn [fst snd] in *. injection Q as Q1 Q2.
    destruct (bytes_eq_dec k k') as [->|]; [|right; left; auto].
    destruct (bytes_eq_dec v v') as [->|]; [left; reflexivity|right; right; auto].
  - exact P.
  - left. exact Q.
  - right. destruct x as [k v], y as [k' v']. cbn [fst snd] in K.
    apply (in_plain H) in I, J. destruct I, J. destruct K as [[K1 K2]|[K1 K2]]; [exists k, k'|exists v, v']; auto.
Qed.
