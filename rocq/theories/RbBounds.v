(** Bounds, and what key / range / prefix witnesses prove. *)
From Coq Require Import List NArith Bool Lia Sorted.
From Verif Require Import Bytes HashTree HashTreeSpec HashTreeProofs HashTreeSpecProofs RbTree RbShape RbContent RbHash RbWitness.
Import ListNotations.

Lemma bprefix_le p x : bprefix p x = true -> ble p x.
Proof.
  revert x. induction p as [|a p IH]; intros x.
  - intros _. unfold ble. destruct x; discriminate.
  - destruct x as [|b x]; [discriminate|]. simpl. intro P. apply andb_true_iff in P. destruct P as [E P]. apply byte_eqb_eq in E. subst.
    unfold ble. simpl. rewrite N.compare_refl. apply IH. exact P.
Qed.
(** keys with a prefix are contiguous *)
Lemma bprefix_before p x z : bprefix p z = true -> blt p x -> bprefix p x = false -> blt z x.
Proof.
  revert x z. induction p as [|a p IH]; intros x z.
  - simpl. discriminate.
  - destruct z as [|c z]; [simpl; discriminate|]. destruct x as [|b x]; [unfold blt; simpl; discriminate|].
    simpl. intros P L N. apply andb_true_iff in P. destruct P as [E P]. apply byte_eqb_eq in E. subst c.
    unfold blt in *. simpl in *. destruct (N.compare_spec (b2n a) (b2n b)) as [C|C|C]; try discriminate; [|reflexivity].
    apply b2n_inj in C. subst b. rewrite byte_eqb_refl in N. simpl in N. apply IH; auto.
Qed.

Section Bounds.
  Variable H : bytes -> bytes.
  Variable V : Type.
  Variable vhash : V -> bytes.
  Variable vtree : V -> htree.
  Notation rb := (rb V).
  Notation elems := (elems V).
  Notation keysof := (keysof V).
  Notation as_hash_tree := (as_hash_tree H V vtree).

  Lemma in_keysof_node x c l k v r h :
    In x (keysof (T c l k v r h)) <-> In x (keysof l) \/ x = k \/ In x (keysof r).
  Proof. clear H vhash vtree.
    unfold RbWitness.keysof. simpl. rewrite map_app, in_app_iff. simpl. intuition congruence.
  Qed.

  Lemma lower_bound_spec key t : bst V t ->
    match lower_bound V key t with
    | None => forall x, In x (keysof t) -> blt key x
    | Some (Exact k) => k = key /\ In k (keysof t)
    | Some (Neighbor k) => blt k key /\ In k (keysof t) /\ (forall x, In x (keysof t) -> ble x k \/ blt key x)
    end.
  Proof. clear H vhash vtree.
    induction t as [|c l IHl k v r IHr h]; intro S; [simpl; tauto|].
    apply bst_node in S. destruct S as (Sl & Sr & Fl & Fr). specialize (IHl Sl). specialize (IHr Sr).
    cbn [lower_bound]. destruct (bcmp_spec k key) as [C|C|C].
    - subst. split; [reflexivity|]. apply in_keysof_node. auto.
    - destruct (lower_bound V key r) as [[x|x]|]; cbn [or_else].
      + destruct IHr as [-> I]. split; auto. apply in_keysof_node; auto.
      + destruct IHr as (L & I & N). split; auto. split; [apply in_keysof_node; auto|].
        intros y J. apply in_keysof_node in J. destruct J as [J|[->|J]]; auto.
        * left. apply blt_ble. eapply blt_trans; [apply Fl; exact J|apply Fr; exact I].
        * left. apply blt_ble, Fr; exact I.
      + split; auto. split; [apply in_keysof_node; auto|].
        intros y J. apply in_keysof_node in J. destruct J as [J|[->|J]]; auto.
        * left. apply blt_ble, Fl; exact J.
        * left. apply ble_refl.
    - assert (G : forall x, x = k \/ In x (keysof r) -> blt key x).
      { intros x [->|J]; [exact C|]. eapply blt_trans; [exact C|apply Fr; exact J]. }
      destruct (lower_bound V key l) as [[x|x]|].
      + destruct IHl as [-> I]. split; auto. apply in_keysof_node; auto.
      + destruct IHl as (L & I & N). split; auto. split; [apply in_keysof_node; auto|].
        intros y J. apply in_keysof_node in J. destruct J as [J|J]; auto.
      + intros x J. apply in_keysof_node in J. destruct J as [J|J]; auto.
  Qed.

  Lemma upper_bound_spec key t : bst V t ->
    match upper_bound V key t with
    | None => forall x, In x (keysof t) -> blt x key
    | Some (Exact k) => k = key /\ In k (keysof t)
    | Some (Neighbor k) => blt key k /\ In k (keysof t) /\ (forall x, In x (keysof t) -> ble k x \/ blt x key)
    end.
  Proof. clear H vhash vtree.
    induction t as [|c l IHl k v r IHr h]; intro S; [simpl; tauto|].
    apply bst_node in S. destruct S as (Sl & Sr & Fl & Fr). specialize (IHl Sl). specialize (IHr Sr).
    cbn [upper_bound]. destruct (bcmp_spec k key) as [C|C|C].
    - subst. split; [reflexivity|]. apply in_keysof_node. auto.
    - assert (G : forall x, In x (keysof l) \/ x = k -> blt x key).
      { intros x [J| ->]; [|exact C]. eapply blt_trans; [apply Fl; exact J|exact C]. }
      destruct (upper_bound V key r) as [[x|x]|].
      + destruct IHr as [-> I]. split; auto. apply in_keysof_node; auto.
      + destruct IHr as (L & I & N). split; auto. split; [apply in_keysof_node; auto|].
        intros y J. apply in_keysof_node in J. destruct J as [J|[J|J]]; auto.
      + intros x J. apply in_keysof_node in J. destruct J as [J|[J|J]]; auto.
    - destruct (upper_bound V key l) as [[x|x]|]; cbn [or_else].
      + destruct IHl as [-> I]. split; auto. apply in_keysof_node; auto.
      + destruct IHl as (L & I & N). split; auto. split; [apply in_keysof_node; auto|].
        intros y J. apply in_keysof_node in J. destruct J as [J|[->|J]]; auto.
        * left. apply blt_ble, Fl; exact I.
        * left. apply blt_ble. eapply blt_trans; [apply Fl; exact I|apply Fr; exact J].
      + split; auto. split; [apply in_keysof_node; auto|].
        intros y J. apply in_keysof_node in J. destruct J as [J|[->|J]]; auto.
        * left. apply ble_refl.
        * left. apply blt_ble, Fr; exact J.
  Qed.

  Lemma right_prefix_neighbor_spec p t : bst V t ->
    match right_prefix_neighbor V p t with
    | None => forall x, In x (keysof t) -> ble x p \/ bprefix p x = true
    | Some (Exact k) => False
    | Some (Neighbor k) => blt p k /\ bprefix p k = false /\ In k (keysof t)
    end.
  Proof. clear H vhash vtree.
    induction t as [|c l IHl k v r IHr h]; intro S; [simpl; tauto|].
    apply bst_node in S. destruct S as (Sl & Sr & Fl & Fr). specialize (IHl Sl). specialize (IHr Sr).
    assert (GR : (ble k p \/ bprefix p k = true) ->
      match right_prefix_neighbor V p r with
      | None => forall x, In x (keysof (T c l k v r h)) -> ble x p \/ bprefix p x = true
      | Some (Exact _) => False
      | Some (Neighbor k') => blt p k' /\ bprefix p k' = false /\ In k' (keysof (T c l k v r h))
      end).
    { intro C. destruct (right_prefix_neighbor V p r) as [[x|x]|]; auto.
      - destruct IHr as (A & B & I). repeat split; auto. apply in_keysof_node; auto.
      - intros x J. apply in_keysof_node in J. destruct J as [J|[->|J]]; auto.
        assert (L := Fl x J). destruct (bprefix p x) eqn:P; [right; reflexivity|left].
        apply nblt_ble. intro L2. destruct C as [C|C].
        + apply (ble_nblt _ _ C). eapply blt_trans; eauto.
        + exact (blt_asym _ _ L (bprefix_before p x k C L2 P)). }
    cbn [right_prefix_neighbor]. destruct (bcmp_spec k p) as [C|C|C].
    - apply GR. left. subst. apply ble_refl.
    - apply GR. left. apply blt_ble; exact C.
    - destruct (bprefix p k) eqn:P; [apply GR; right; reflexivity|].
      destruct (right_prefix_neighbor V p l) as [[x|x]|]; cbn [or_else]; auto.
      + destruct IHl as (A & B & I). repeat split; auto. apply in_keysof_node; auto.
      + repeat split; auto. apply in_keysof_node; auto.
  Qed.

  (** ** Key witness *)
  Lemma build_none f key t : bst V t -> (lookup_and_build_witness H V vhash f key t = None <-> get V key t = None).
  Proof.
    intro S. induction t as [|c l IHl k v r IHr h]; [simpl; tauto|].
    apply bst_node in S. destruct S as (Sl & Sr & Fl & Fr). specialize (IHl Sl). specialize (IHr Sr).
    cbn [lookup_and_build_witness get]. destruct (bcmp key k).
    - split; discriminate.
    - destruct (lookup_and_build_witness H V vhash f key l); cbn [obind]; [|tauto].
      rewrite <- IHl. split; discriminate.
    - destruct (lookup_and_build_witness H V vhash f key r); cbn [obind]; [|tauto].
      rewrite <- IHr. split; discriminate.
  Qed.
  Lemma build_shape f key t w v :
    lookup_and_build_witness H V vhash f key t = Some w -> get V key t = Some v ->
    shape w [HLabeled key (f v)] False False.
  Proof.
    revert w. induction t as [|c l IHl k v' r IHr h]; intro w; [discriminate|].
    cbn [lookup_and_build_witness get]. destruct (bcmp_spec key k) as [C|C|C].
    - intros X Y. injection X as <-. injection Y as ->. subst k.
      eapply shape_weak; [eapply (shape_lab H _ _ _ _ [] []);
        [apply (shape_child V l False); tauto|apply (shape_child' V r False); tauto]|tauto|tauto].
    - destruct (lookup_and_build_witness H V vhash f key l) as [s|] eqn:Q; cbn [obind]; [|discriminate].
      intros X G; injection X as <-. eapply shape_weak; [eapply shape_pr; apply IHl; eauto|tauto|tauto].
    - destruct (lookup_and_build_witness H V vhash f key r) as [s|] eqn:Q; cbn [obind]; [|discriminate].
      intros X G; injection X as <-. eapply shape_weak; [eapply shape_pl; apply IHr; eauto|tauto|tauto].
  Qed.

  Lemma lower_key_le key t b : bst V t -> lower_bound V key t = Some b -> ble (kb_key b) key.
  Proof. clear H vhash vtree.
    intros S E. generalize (lower_bound_spec key t S). rewrite E. destruct b; simpl.
    - intros [-> _]. apply ble_refl.
    - intros [L _]. apply blt_ble; exact L.
  Qed.
  Lemma upper_key_ge key t b : bst V t -> upper_bound V key t = Some b -> ble key (kb_key b).
  Proof. clear H vhash vtree.
    intros S E. generalize (upper_bound_spec key t S). rewrite E. destruct b; simpl.
    - intros [-> _]. apply ble_refl.
    - intros [L _]. apply blt_ble; exact L.
  Qed.

  (** the [debug_assert!] holds *)
  Lemma range_some f lo hi t :
    (forall a b, lo = Some a -> hi = Some b -> ble (kb_key a) (kb_key b)) ->
    exists w, range_witness H V vhash f lo hi t = Some w.
  Proof.
    intro X. destruct lo as [lo|], hi as [hi|]; cbn [range_witness]; eauto.
    specialize (X _ _ eq_refl eq_refl). unfold ble in X. destruct (bcmp (kb_key lo) (kb_key hi)); eauto. congruence.
  Qed.
  Lemma range_total f first last t : bst V t -> ble first last ->
    exists w, range_witness H V vhash f (lower_bound V first t) (upper_bound V last t) t = Some w.
  Proof.
    intros S L. apply range_some. intros a b A B.
    eapply ble_trans; [eapply lower_key_le; eauto|]. eapply ble_trans; [exact L|]. eapply upper_key_ge; eauto.
  Qed.
  Lemma prefix_total f p t : bst V t ->
    exists w, range_witness H V vhash f (lower_bound V p t) (right_prefix_neighbor V p t) t = Some w.
  Proof.
    intros S. apply range_some. intros a b A B.
    eapply ble_trans; [eapply lower_key_le; eauto|].
    generalize (right_prefix_neighbor_spec p t S). rewrite B. destruct b; simpl; [tauto|].
    intros [X _]. apply blt_ble; exact X.
  Qed.

  (** ** What a range witness shows, for arbitrary bounds around the set of keys asked for *)
  Section Shown.
    Variable g : bytes -> V -> htree.
    Let f (k : bytes) (v : V) : htree := HLabeled k (g k v).
    Variable f0 : bytes -> V -> htree.
    Hypothesis f0_f : forall k v, f0 k v = HLabeled k (g k v).

    Lemma in_rng lo hi k v t : In (k, v) (elems t) -> in_lo lo k = true -> in_hi hi k = true ->
      In (ent V vhash g lo hi k v) (ents V vhash g lo hi (rng V lo hi (elems t))).
    Proof.
      intros I A B. unfold ents. apply in_map_iff. exists (k, v). split; [reflexivity|].
      unfold rng. apply filter_In. split; [exact I|]. simpl. rewrite A, B. reflexivity.
    Qed.
    Lemma ents_labels lo hi es : entry_labels (ents V vhash g lo hi es) = map fst es.
    Proof.
      induction es as [|[k v] es IH]; [reflexivity|]. unfold ents in *. cbn [map fst snd].
      destruct (ent_lab V vhash g lo hi k v) as [s E]. rewrite E. simpl. f_equal. exact IH.
    Qed.
    Lemma key_value t k : In k (keysof t) -> exists v, In (k, v) (elems t).
    Proof. unfold RbWitness.keysof. intro I. apply in_map_iff in I. destruct I as ((k', v) & <- & I). eauto. Qed.
    Lemma rng_key lo hi t k : In k (map fst (rng V lo hi (elems t))) <-> In k (keysof t) /\ in_lo lo k = true /\ in_hi hi k = true.
    Proof.
      unfold rng, RbWitness.keysof. split.
      - intro I. apply in_map_iff in I. destruct I as (e & <- & I). apply filter_In in I. destruct I as [I B].
        apply andb_true_iff in B. split; [apply in_map; exact I|exact B].
      - intros [I [A B]]. apply in_map_iff in I. destruct I as (e & <- & I). apply in_map. apply filter_In.
        rewrite A, B. auto.
    Qed.

    (** [k] is strictly inside the neighbours *)
    Definition cov_lo (lo : option kbound) (t : rb) (k : bytes) : Prop :=
      match lo with
      | None => True
      | Some (Exact x) => ble x k /\ In x (keysof t)
      | Some (Neighbor x) => blt x k /\ In x (keysof t)
      end.
    Definition cov_hi (hi : option kbound) (t : rb) (k : bytes) : Prop :=
      match hi with
      | None => True
      | Some (Exact x) => ble k x /\ In x (keysof t)
      | Some (Neighbor x) => blt k x /\ In x (keysof t)
      end.
    Lemma cov_in_lo lo t k : cov_lo lo t k -> in_lo lo k = true.
    Proof.
      destruct lo as [[x|x]|]; simpl; auto; intros [A _]; unfold ge_lo; simpl;
      destruct (bcmp_spec k x) as [C|C|C]; auto; exfalso.
      - exact (ble_nblt _ _ A C).
      - exact (blt_asym _ _ A C).
    Qed.
    Lemma cov_in_hi hi t k : cov_hi hi t k -> in_hi hi k = true.
    Proof.
      destruct hi as [[x|x]|]; simpl; auto; intros [A _]; unfold le_hi; simpl;
      destruct (bcmp_spec k x) as [C|C|C]; auto; exfalso.
      - exact (ble_nblt _ _ A C).
      - exact (blt_asym _ _ A C).
    Qed.
    Lemma ent_cov lo hi t k v : cov_lo lo t k -> cov_hi hi t k -> ent V vhash g lo hi k v = HLabeled k (g k v).
    Proof.
      intros A B. unfold ent. cbv zeta.
      destruct lo as [[x|x]|]; destruct hi as [[y|y]|]; simpl in *;
      repeat match goal with |- context [bytes_eqb ?a ?b] => destruct (bytes_eqb_spec a b) end; try reflexivity; subst;
      exfalso; intuition eauto using blt_irr.
    Qed.

    Lemma shown_present lo hi t w k v :
      bst V t -> wf w -> range_witness H V vhash f0 lo hi t = Some w ->
      cov_lo lo t k -> cov_hi hi t k -> get V k t = Some v -> lookup_label k w = LFound (g k v).
    Proof.
      intros S W R A B G. destruct (shape_range H V vhash g f0 f0_f lo hi t w S R) as (P1 & P2 & E1 & _).
      apply lookup_label_child_iff; [exact W|]. apply flatten_child_at. rewrite E1.
      apply in_or_app; right. apply in_or_app; left. rewrite <- (ent_cov lo hi t k v A B).
      apply in_rng; [|eapply cov_in_lo; eauto|eapply cov_in_hi; eauto].
      rewrite get_elems in G by exact S. apply aget_in. exact G.
    Qed.
    Lemma not_key t k : bst V t -> get V k t = None -> ~ In k (keysof t).
    Proof. intros S G. rewrite get_elems in G by exact S. apply aget_none. exact G. Qed.

    Lemma shown_absent lo hi t w k :
      bst V t -> wf w -> range_witness H V vhash f0 lo hi t = Some w ->
      cov_lo lo t k -> cov_hi hi t k -> get V k t = None -> absent_llr (lookup_label k w).
    Proof.
      intros S W R A B G. assert (N := not_key t k S G).
      assert (LH : match lo, hi with Some a, Some b => ble (kb_key a) (kb_key b) | _, _ => True end).
      { destruct lo as [lo|], hi as [hi|]; auto. simpl in R. unfold ble.
        destruct (bcmp (kb_key lo) (kb_key hi)); congruence. }
      assert (Sh := shape_range H V vhash g f0 f0_f lo hi t w S R).
      eapply shape_absent; [exact W|exact Sh|..].
      - destruct lo as [lo|]; [right|left; reflexivity]. exists (kb_key lo). rewrite ents_labels, rng_key.
        assert (X : blt (kb_key lo) k /\ In (kb_key lo) (keysof t)).
        { destruct lo; simpl in *; destruct A as [A I]; split; auto.
          apply ble_lt_eq in A. destruct A as [A|A]; [exact A|]. subst. contradiction. }
        destruct X as [X I]. split; [|exact X]. split; [exact I|]. split.
        + simpl. unfold ge_lo. rewrite bcmp_refl. reflexivity.
        + destruct hi as [hi|]; [|reflexivity]. simpl. unfold le_hi. unfold ble in LH. destruct (bcmp (kb_key lo) (kb_key hi)); congruence.
      - destruct hi as [hi|]; [right|left; reflexivity]. exists (kb_key hi). rewrite ents_labels, rng_key.
        assert (X : blt k (kb_key hi) /\ In (kb_key hi) (keysof t)).
        { destruct hi; simpl in *; destruct B as [B I]; split; auto.
          apply ble_lt_eq in B. destruct B as [B|B]; [exact B|]. subst. contradiction. }
        destruct X as [X I]. split; [|exact X]. split; [exact I|]. split.
        + destruct lo as [lo|]; [|reflexivity]. simpl. unfold ge_lo. unfold ble in LH. rewrite bcmp_antisym.
          destruct (bcmp (kb_key lo) (kb_key hi)); simpl; congruence.
        + simpl. unfold le_hi. rewrite bcmp_refl. reflexivity.
      - rewrite ents_labels, rng_key. tauto.
    Qed.

    (** nothing else is shown: every other label carries a pruned value *)
    Lemma shown_only lo hi t w k c :
      bst V t -> range_witness H V vhash f0 lo hi t = Some w -> child_at k w c ->
      exists v, get V k t = Some v /\
      ((lo = Some (Neighbor k) \/ hi = Some (Neighbor k)) /\ c = HPruned (vhash v) \/
       in_lo lo k = true /\ in_hi hi k = true /\ c = g k v /\
       (lo <> Some (Neighbor k) \/ hi = Some (Exact k)) /\ (hi <> Some (Neighbor k) \/ lo = Some (Exact k))).
    Proof.
      intros S R C. destruct (shape_range H V vhash g f0 f0_f lo hi t w S R) as (P1 & P2 & E1 & F1 & F2 & _).
      apply child_at_flatten in C. rewrite E1 in C. apply in_app_or in C. destruct C as [C|C].
      { rewrite Forall_forall in F1. specialize (F1 _ C). contradiction. }
      apply in_app_or in C. destruct C as [C|C].
      2:{ rewrite Forall_forall in F2. specialize (F2 _ C). contradiction. }
      unfold ents in C. apply in_map_iff in C. destruct C as ((k', v) & E2 & I). simpl in E2.
      destruct (ent_lab V vhash g lo hi k' v) as [s E3]. assert (k' = k) by congruence. subst k'.
      unfold rng in I. apply filter_In in I. destruct I as [I B]. simpl in B. apply andb_true_iff in B.
      exists v. split. { rewrite get_elems by exact S. apply aget_some_iff; auto. }
      unfold ent in E2. cbv zeta in E2.
      destruct lo as [[x|x]|]; destruct hi as [[y|y]|]; simpl in *;
      repeat match type of E2 with context [bytes_eqb ?a ?b] => destruct (bytes_eqb_spec a b) end; simpl in E2;
      unfold witness_tree in E2; injection E2 as <-; subst; try tauto;
      right; intuition congruence.
    Qed.
  End Shown.

  (** cover lemmas for the public range functions *)
  Lemma cov_lower key t k : bst V t -> ble key k -> cov_lo (lower_bound V key t) t k.
  Proof. clear H vhash vtree.
    intros S L. generalize (lower_bound_spec key t S). destruct (lower_bound V key t) as [[x|x]|]; simpl; auto.
    - intros [-> I]. auto.
    - intros (A & I & _). split; [eapply blt_ble_trans; eauto|exact I].
  Qed.
  Lemma cov_upper key t k : bst V t -> ble k key -> cov_hi (upper_bound V key t) t k.
  Proof. clear H vhash vtree.
    intros S L. generalize (upper_bound_spec key t S). destruct (upper_bound V key t) as [[x|x]|]; simpl; auto.
    - intros [-> I]. auto.
    - intros (A & I & _). split; [eapply ble_blt_trans; eauto|exact I].
  Qed.
  Lemma cov_prefix p t k : bst V t -> bprefix p k = true -> cov_hi (right_prefix_neighbor V p t) t k.
  Proof. clear H vhash vtree.
    intros S L. generalize (right_prefix_neighbor_spec p t S). destruct (right_prefix_neighbor V p t) as [[x|x]|]; simpl; auto.
    - tauto.
    - intros (A & B & I). split; [|exact I]. eapply bprefix_before; eauto.
  Qed.

  (** ** The public witness functions *)
  Definition tree_ok (t : rb) : Prop :=
    bst V t /\ hok H V vhash t /\
    allv V (fun _ v => vok H V vhash vtree v /\ wf (vtree v)) t.
  Lemma tree_ok_vok t : tree_ok t -> allv V (fun _ v => vok H V vhash vtree v) t.
  Proof.
    intros (_ & _ & A). apply allv_elems in A. apply allv_elems. eapply Forall_impl; [|exact A]. simpl. tauto.
  Qed.
  Lemma tree_ok_wf t : tree_ok t -> wf (as_hash_tree t).
  Proof.
    intros (S & _ & A). apply wf_full; auto. apply allv_elems in A. apply allv_elems. eapply Forall_impl; [|exact A]. simpl. tauto.
  Qed.

  Lemma nested_witness_ok f key t : tree_ok t ->
    (forall v, get V key t = Some v -> prunes H (vtree v) (f v)) ->
    exists w, nested_witness H V vhash key f t = Some w /\
      okw H V vtree t w /\ wf w /\
      match get V key t with
      | Some v => lookup_label key w = LFound (f v) /\ (forall k c, child_at k w c -> k = key)
      | None => absent_llr (lookup_label key w) /\ (forall k c, child_at k w c -> exists h, c = HPruned h)
      end.
  Proof.
    intros K F. assert (S := proj1 K). assert (Hk := proj1 (proj2 K)). assert (A := tree_ok_vok t K).
    assert (W := tree_ok_wf t K).
    unfold nested_witness. destruct (lookup_and_build_witness H V vhash f key t) as [w|] eqn:E1.
    - assert (O : okw H V vtree t w).
      { eapply okw_build; eauto. intros v G. apply F. rewrite get_elems by exact S. exact G. }
      assert (Ww : wf w) by (eapply prunes_wf; [apply O|exact W]).
      destruct (get V key t) as [v|] eqn:G.
      2:{ exfalso. apply (build_none f key t S) in G. congruence. }
      exists w. split; [reflexivity|]. split; [exact O|]. split; [exact Ww|].
      destruct (build_shape f key t w v E1 G) as (P1 & P2 & Q & F1 & F2 & _).
      split.
      + apply lookup_label_child_iff; [exact Ww|]. apply flatten_child_at. rewrite Q.
        apply in_or_app; right; left; reflexivity.
      + intros k c C. apply child_at_flatten in C. rewrite Q in C. apply in_app_or in C. rewrite Forall_forall in F1, F2.
        destruct C as [C|[C|C]]; [specialize (F1 _ C); contradiction|congruence|specialize (F2 _ C); contradiction].
    - assert (G := proj1 (build_none f key t S) E1). rewrite G.
      destruct (range_total (witness_tree V vhash) key key t S (ble_refl key)) as [w R].
      exists w. split; [exact R|].
      assert (O : okw H V vtree t w) by exact (okw_range H V vhash vtree (witness_tree V vhash) (pr_witness H V vhash vtree) _ _ t w Hk A R).
      assert (Ww : wf w) by (eapply prunes_wf; [apply O|exact W]).
      split; [exact O|]. split; [exact Ww|].
      assert (R2 : forall k v, witness_tree V vhash k v = HLabeled k (HPruned (vhash v))) by reflexivity.
      split.
      + eapply (shown_absent (fun _ v => HPruned (vhash v)) _ R2); eauto using cov_lower, cov_upper, ble_refl.
      + intros k c C. destruct (shown_only (fun _ v => HPruned (vhash v)) _ R2 _ _ _ _ _ _ S R C) as (v & _ & X).
        destruct X as [[_ ->]|(_ & _ & -> & _)]; eauto.
  Qed.

  (** Ranges: [f0] is [data_tree] (values) or [witness_tree] (keys). *)
  Lemma range_ok g f0 lo hi t w :
    (forall k v, f0 k v = HLabeled k (g k v)) ->
    (forall k v, vok H V vhash vtree v -> prunes H (vtree v) (g k v)) ->
    tree_ok t -> range_witness H V vhash f0 lo hi t = Some w ->
    okw H V vtree t w /\ wf w.
  Proof.
    intros F G K R. assert (O : okw H V vtree t w).
    { eapply okw_range; [| apply K | apply tree_ok_vok; exact K | exact R].
      intros k v X. rewrite F. apply PrLabeled. auto. }
    split; [exact O|]. eapply prunes_wf; [apply O|apply tree_ok_wf; exact K].
  Qed.
End Bounds.
