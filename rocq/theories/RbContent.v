(** Contents of the red-black tree: refinement to a sorted association list. *)
From Coq Require Import List NArith Bool Lia Arith Sorted.
From Verif Require Import Bytes HashTree RbTree RbShape.
Import ListNotations.

(** Sorted association lists. *)
Section Assoc.
  Variable V : Type.
  Definition alist := list (bytes * V).
  Definition sorted (es : alist) : Prop := StronglySorted blt (map fst es).
  Fixpoint aget (k : bytes) (es : alist) : option V :=
    match es with
    | [] => None
    | (k', v) :: r => if bytes_eqb k k' then Some v else aget k r
    end.
  Fixpoint ains (k : bytes) (v : V) (es : alist) : alist :=
    match es with
    | [] => [(k, v)]
    | (k', v') :: r =>
        match bcmp k k' with
        | Eq => (k', v) :: r
        | Lt => (k, v) :: es
        | Gt => (k', v') :: ains k v r
        end
    end.
  Definition adel (k : bytes) (es : alist) : alist :=
    filter (fun p => negb (bytes_eqb k (fst p))) es.
  Definition amod (k : bytes) (f : V -> V) (es : alist) : alist :=
    map (fun p => if bytes_eqb k (fst p) then (fst p, f (snd p)) else p) es.

  Lemma aget_in k es v : aget k es = Some v -> In (k, v) es.
  Proof.
    induction es as [|[k' v'] r IH]; simpl; [discriminate|].
    destruct (bytes_eqb_spec k k'); [|auto]. intro X; injection X as ->. subst; auto.
  Qed.
  Lemma aget_none k es : aget k es = None <-> ~ In k (map fst es).
  Proof.
    induction es as [|[k' v'] r IH]; simpl; [tauto|].
    destruct (bytes_eqb_spec k k'); [subst; split; [discriminate|tauto]|].
    rewrite IH. intuition congruence.
  Qed.
  Lemma aget_app k l r :
    aget k (l ++ r) = match aget k l with Some v => Some v | None => aget k r end.
  Proof.
    induction l as [|[k' v'] l IH]; simpl; [reflexivity|].
    destruct (bytes_eqb k k'); auto.
  Qed.
  Lemma aget_some_iff k es v : sorted es -> (aget k es = Some v <-> In (k, v) es).
  Proof.
    intro S. split; [apply aget_in|].
    induction es as [|[k' v'] r IH]; simpl; [tauto|].
    inversion S as [|? ? S' F]; subst. intros [X|X].
    - injection X as -> ->. rewrite bytes_eqb_refl. reflexivity.
    - destruct (bytes_eqb_spec k k'); [|apply IH; auto].
      subst. exfalso. rewrite Forall_forall in F. apply (blt_irrefl k').
      apply F. apply in_map_iff. exists (k', v); auto.
  Qed.

  Lemma sorted_app l r :
    sorted (l ++ r) <-> sorted l /\ sorted r /\ (forall a b, In a (map fst l) -> In b (map fst r) -> blt a b).
  Proof.
    unfold sorted. rewrite map_app. induction (map fst l) as [|x l' IH]; simpl.
    - split; [intro S; repeat split; auto; [constructor|tauto]|tauto].
    - split.
      + intro S. inversion S as [|? ? S' F]; subst. apply IH in S'. destruct S' as (S1 & S2 & S3).
        apply Forall_app in F. destruct F as [F1 F2]. repeat split; auto.
        * constructor; auto.
        * intros a b [<-|I] J; [|auto]. rewrite Forall_forall in F2; auto.
      + intros (S1 & S2 & S3). inversion S1 as [|? ? S' F]; subst. constructor.
        * apply IH; repeat split; auto.
        * apply Forall_app; split; auto. rewrite Forall_forall; auto.
  Qed.
  Lemma sorted_cons k v r :
    sorted ((k, v) :: r) <-> sorted r /\ (forall b, In b (map fst r) -> blt k b).
  Proof.
    unfold sorted. simpl. split.
    - inversion 1 as [|? ? S F]; subst. rewrite Forall_forall in F. auto.
    - intros [S F]. constructor; auto. rewrite Forall_forall; auto.
  Qed.
  Lemma sorted_nil : sorted [].
  Proof. constructor. Qed.
  Lemma sorted_node l k v r :
    sorted (l ++ (k, v) :: r) <->
    sorted l /\ sorted r /\ (forall a, In a (map fst l) -> blt a k) /\ (forall b, In b (map fst r) -> blt k b).
  Proof.
    rewrite sorted_app, sorted_cons. simpl. split.
    - intros (S1 & (S2 & S3) & S4). repeat split; auto.
    - intros (S1 & S2 & S3 & S4). repeat split; auto.
      intros a b I [<-|J]; auto. eapply blt_trans; eauto.
  Qed.

  Lemma ains_app_lt k v l k' v' r :
    blt k k' -> ains k v (l ++ (k', v') :: r) = ains k v l ++ (k', v') :: r.
  Proof.
    intro L. induction l as [|[a b] l IH]; simpl.
    - unfold blt in L. rewrite L. reflexivity.
    - destruct (bcmp k a); try reflexivity. rewrite IH. reflexivity.
  Qed.
  Lemma ains_app_gt k v l r :
    (forall a, In a (map fst l) -> blt a k) -> ains k v (l ++ r) = l ++ ains k v r.
  Proof.
    induction l as [|[a b] l IH]; simpl; intro F; [reflexivity|].
    assert (X : blt a k) by auto. apply bcmp_gt_lt in X. rewrite X. rewrite IH; auto.
  Qed.
  Lemma ains_keys k v es x : In x (map fst (ains k v es)) <-> x = k \/ In x (map fst es).
  Proof.
    induction es as [|[a b] es IH]; simpl.
    - intuition.
    - destruct (bcmp_spec k a) as [X|X|X]; simpl; [subst|..]; rewrite ?IH; intuition.
  Qed.
  Lemma ains_sorted k v es : sorted es -> sorted (ains k v es).
  Proof.
    induction es as [|[a b] es IH]; simpl.
    - intros _. apply sorted_cons. split; [constructor|simpl; tauto].
    - intro S. destruct (bcmp_spec k a) as [X|X|X].
      + apply sorted_cons in S. apply sorted_cons. exact S.
      + apply sorted_cons. split; [exact S|]. simpl. intros c [<-|I]; auto.
        apply sorted_cons in S. eapply blt_trans; [exact X|]. apply S; auto.
      + apply sorted_cons in S. apply sorted_cons. split; [apply IH; apply S|].
        intros c I. apply ains_keys in I. destruct I as [->|I]; [exact X|apply S; auto].
  Qed.
  Lemma aget_ains k v es x :
    sorted es -> aget x (ains k v es) = if bytes_eqb x k then Some v else aget x es.
  Proof.
    induction es as [|[a b] es IH]; simpl.
    - reflexivity.
    - intro S. apply sorted_cons in S. destruct S as [S F].
      destruct (bcmp_spec k a) as [X|X|X]; simpl.
      + subst. destruct (bytes_eqb_spec x a); reflexivity.
      + reflexivity.
      + rewrite IH by auto. destruct (bytes_eqb_spec x a); [|reflexivity].
        subst. destruct (bytes_eqb_spec a k); [|reflexivity]. subst. exfalso; exact (blt_irrefl _ X).
  Qed.
  Lemma adel_app k l r : adel k (l ++ r) = adel k l ++ adel k r.
  Proof. apply filter_app. Qed.
  Lemma adel_id k es : ~ In k (map fst es) -> adel k es = es.
  Proof.
    induction es as [|[a b] es IH]; simpl; [reflexivity|]. intro N.
    destruct (bytes_eqb_spec k a); [subst; tauto|]. simpl. rewrite IH; auto.
  Qed.
  Lemma adel_keys k es x : In x (map fst (adel k es)) <-> x <> k /\ In x (map fst es).
  Proof.
    induction es as [|[a b] es IH]; simpl; [tauto|].
    destruct (bytes_eqb_spec k a); simpl; rewrite IH; [subst; intuition congruence|].
    intuition congruence.
  Qed.
  Lemma adel_sorted k es : sorted es -> sorted (adel k es).
  Proof.
    induction es as [|[a b] es IH]; simpl; auto.
    intro S. apply sorted_cons in S. destruct S as [S F].
    destruct (negb (bytes_eqb k a)); auto. apply sorted_cons. split; auto.
    intros c I. apply adel_keys in I. apply F; tauto.
  Qed.
  Lemma aget_adel k es x : aget x (adel k es) = if bytes_eqb x k then None else aget x es.
  Proof.
    induction es as [|[a b] es IH]; simpl.
    - destruct (bytes_eqb x k); reflexivity.
    - destruct (bytes_eqb_spec k a); simpl; rewrite IH.
      + subst. destruct (bytes_eqb x a); reflexivity.
      + destruct (bytes_eqb_spec x a); [|reflexivity]. subst.
        destruct (bytes_eqb_spec a k); congruence.
  Qed.
  Lemma amod_keys k f es : map fst (amod k f es) = map fst es.
  Proof.
    unfold amod. rewrite map_map. apply map_ext. intros [a b]. simpl.
    destruct (bytes_eqb k a); reflexivity.
  Qed.
  Lemma aget_amod k f es x :
    aget x (amod k f es) = if bytes_eqb x k then option_map f (aget x es) else aget x es.
  Proof.
    induction es as [|[a b] es IH]; simpl.
    - destruct (bytes_eqb x k); reflexivity.
    - destruct (bytes_eqb_spec k a); simpl; rewrite IH.
      + subst. destruct (bytes_eqb_spec x a); reflexivity.
      + destruct (bytes_eqb_spec x a); [|reflexivity]. subst.
        destruct (bytes_eqb_spec a k); [congruence|reflexivity].
  Qed.
  Lemma amod_app k f l r : amod k f (l ++ r) = amod k f l ++ amod k f r.
  Proof. apply map_app. Qed.
  Lemma amod_id k f es : ~ In k (map fst es) -> amod k f es = es.
  Proof.
    induction es as [|[a b] es IH]; simpl; [reflexivity|]. intro N.
    destruct (bytes_eqb_spec k a); [subst; tauto|]. simpl. rewrite IH; auto.
  Qed.
End Assoc.
Arguments sorted {V} es.
Arguments aget {V} k es.
Arguments ains {V} k v es.
Arguments adel {V} k es.
Arguments amod {V} k f es.

Section Content.
  Variable H : bytes -> bytes.
  Variable V : Type.
  Variable vhash : V -> bytes.
  Notation rb := (rb V).
  Notation elems := (elems V).

  Definition bst (t : rb) : Prop := sorted (elems t).

  Lemma bst_node c l k v r h :
    bst (T c l k v r h) <->
    bst l /\ bst r /\ (forall a, In a (map fst (elems l)) -> blt a k) /\ (forall b, In b (map fst (elems r)) -> blt k b).
  Proof. unfold bst. simpl. apply sorted_node. Qed.

  Lemma get_elems key t : bst t -> get V key t = aget key (elems t).
  Proof.
    induction t as [|c l IHl k v r IHr h]; simpl; [reflexivity|].
    intro S. apply bst_node in S. destruct S as (Sl & Sr & Fl & Fr).
    rewrite aget_app. simpl.
    destruct (bcmp_spec key k) as [X|X|X].
    - subst. rewrite bytes_eqb_refl.
      replace (aget k (elems l)) with (@None V); [reflexivity|].
      symmetry. apply aget_none. intro I. exact (blt_irrefl _ (Fl _ I)).
    - rewrite IHl by auto. destruct (aget key (elems l)) eqn:G; [reflexivity|].
      replace (bytes_eqb key k) with false by (symmetry; apply bytes_eqb_neq; apply blt_neq; exact X).
      symmetry. apply aget_none. intro I. exact (blt_asym _ _ X (Fr _ I)).
    - rewrite IHr by auto. replace (aget key (elems l)) with (@None V).
      + replace (bytes_eqb key k) with false; [reflexivity|].
        symmetry; apply bytes_eqb_neq. intro; subst. exact (blt_irrefl _ X).
      + symmetry. apply aget_none. intro I. exact (blt_asym _ _ X (Fl _ I)).
  Qed.

  (** Restructuring keeps the contents. *)
  Lemma elems_flip h h' : flip_colors V h = Some h' -> elems h' = elems h.
  Proof.
    destruct h as [|c [|lc ll lk lv lr lh] k v [|rc rl rk rv rr rh] hh]; simpl; try discriminate.
    intro X; injection X as <-. reflexivity.
  Qed.
  Lemma elems_rotr h h' : rotate_right H V vhash h = Some h' -> elems h' = elems h.
  Proof.
    destruct h as [|c [|[] ll lk lv lr lh] k v r hh]; simpl; try discriminate.
    intro X; injection X as <-. simpl. rewrite <- app_assoc. reflexivity.
  Qed.
  Lemma elems_rotl h h' : rotate_left H V vhash h = Some h' -> elems h' = elems h.
  Proof.
    destruct h as [|c l k v [|[] rl rk rv rr rh] hh]; simpl; try discriminate.
    intro X; injection X as <-. simpl. rewrite <- app_assoc. reflexivity.
  Qed.
  Lemma elems_balance h h' : balance H V vhash h = Some h' -> elems h' = elems h.
  Proof.
    unfold balance. intro X.
    assert (Y : forall (b : bool) (g : rb -> option rb) a a',
      (forall x y, g x = Some y -> elems y = elems x) ->
      (if b then g a else Some a) = Some a' -> elems a' = elems a).
    { intros [] g a a' G Z; [apply G; exact Z|injection Z as <-; reflexivity]. }
    destruct (if is_red V (right_of V h) && negb (is_red V (left_of V h)) then rotate_left H V vhash h else Some h) as [h1|] eqn:E1;
      cbn [obind] in X; [|discriminate].
    apply Y in E1; [|apply elems_rotl].
    destruct (if is_red V (left_of V h1) && is_red V (left_of V (left_of V h1)) then rotate_right H V vhash h1 else Some h1) as [h2|] eqn:E2;
      cbn [obind] in X; [|discriminate].
    apply Y in E2; [|apply elems_rotr].
    apply Y in X; [|apply elems_flip]. congruence.
  Qed.
  Lemma elems_mrl h h' : move_red_left H V vhash h = Some h' -> elems h' = elems h.
  Proof.
    unfold move_red_left. destruct (flip_colors V h) as [h1|] eqn:E1; cbn [obind]; try discriminate.
    apply elems_flip in E1. destruct h1 as [|c l k v r hh]; try discriminate.
    destruct (is_red V (left_of V r)).
    - destruct (rotate_right H V vhash r) as [r'|] eqn:E2; cbn [obind]; try discriminate.
      destruct (rotate_left H V vhash (T c l k v r' hh)) as [h2|] eqn:E3; cbn [obind]; try discriminate.
      intro E4. apply elems_flip in E4. apply elems_rotl in E3. apply elems_rotr in E2. simpl in *. congruence.
    - intro X; injection X as <-. exact E1.
  Qed.
  Lemma elems_mrr h h' : move_red_right H V vhash h = Some h' -> elems h' = elems h.
  Proof.
    unfold move_red_right. destruct (flip_colors V h) as [h1|] eqn:E1; cbn [obind]; try discriminate.
    apply elems_flip in E1.
    destruct (is_red V (left_of V (left_of V h1))).
    - destruct (rotate_right H V vhash h1) as [h2|] eqn:E2; cbn [obind]; try discriminate.
      intro E4. apply elems_flip in E4. apply elems_rotr in E2. congruence.
    - intro X; injection X as <-. exact E1.
  Qed.

  (** Root keys after restructuring. *)
  Definition root_key (t : rb) : bytes := match t with T _ _ k _ _ _ => k | E => [] end.
  Lemma flip_root h h' : flip_colors V h = Some h' -> root_key h' = root_key h.
  Proof.
    destruct h as [|c [|lc ll lk lv lr lh] k v [|rc rl rk rv rr rh] hh]; simpl; try discriminate.
    intro X; injection X as <-. reflexivity.
  Qed.
  Lemma rotl_root h h' : rotate_left H V vhash h = Some h' -> bst h -> blt (root_key h) (root_key h').
  Proof.
    destruct h as [|c l k v [|[] rl rk rv rr rh] hh]; simpl; try discriminate.
    intros X S; injection X as <-. simpl. apply bst_node in S.
    apply S. simpl. rewrite map_app. apply in_or_app; right; left; reflexivity.
  Qed.
  Lemma rotr_root h h' : rotate_right H V vhash h = Some h' -> bst h -> blt (root_key h') (root_key h).
  Proof.
    destruct h as [|c [|[] ll lk lv lr lh] k v r hh]; simpl; try discriminate.
    intros X S; injection X as <-. simpl. apply bst_node in S.
    apply S. simpl. rewrite map_app. apply in_or_app; right; left; reflexivity.
  Qed.
  Lemma bst_ext t t' : elems t' = elems t -> bst t -> bst t'.
  Proof. unfold bst. intros ->; auto. Qed.

  Lemma mrl_root h h' : move_red_left H V vhash h = Some h' -> bst h -> ble (root_key h) (root_key h').
  Proof.
    unfold move_red_left. destruct (flip_colors V h) as [h1|] eqn:E1; cbn [obind]; try discriminate.
    intros X S. assert (S1 := bst_ext _ _ (elems_flip _ _ E1) S). apply flip_root in E1. rewrite <- E1.
    destruct h1 as [|c l k v r hh]; try discriminate.
    destruct (is_red V (left_of V r)).
    - destruct (rotate_right H V vhash r) as [r'|] eqn:E2; cbn [obind] in X; try discriminate.
      destruct (rotate_left H V vhash (T c l k v r' hh)) as [h2|] eqn:E3; cbn [obind] in X; try discriminate.
      apply flip_root in X. rewrite X. apply rotl_root in E3.
      + apply blt_ble. exact E3.
      + apply elems_rotr in E2. eapply bst_ext; [|exact S1]. simpl. rewrite E2. reflexivity.
    - injection X as <-. apply ble_refl.
  Qed.
  Lemma mrr_root h h' : move_red_right H V vhash h = Some h' -> bst h -> ble (root_key h') (root_key h).
  Proof.
    unfold move_red_right. destruct (flip_colors V h) as [h1|] eqn:E1; cbn [obind]; try discriminate.
    intros X S. assert (S1 := bst_ext _ _ (elems_flip _ _ E1) S). apply flip_root in E1. rewrite <- E1.
    destruct (is_red V (left_of V (left_of V h1))).
    - destruct (rotate_right H V vhash h1) as [h2|] eqn:E2; cbn [obind] in X; try discriminate.
      apply flip_root in X. rewrite X. apply blt_ble. eapply rotr_root; eauto.
    - injection X as <-. apply ble_refl.
  Qed.

  (** ** insert *)
  Lemma insert_go_elems k v t t' :
    bst t -> insert_go H V vhash k v t = Some t' -> elems t' = ains k v (elems t).
  Proof.
    revert t'. induction t as [|c l IHl k' v' r IHr h]; intros t' S.
    - simpl. intro X; injection X as <-. reflexivity.
    - apply bst_node in S. destruct S as (Sl & Sr & Fl & Fr). cbn [insert_go].
      destruct (bcmp_spec k k') as [X|X|X].
      + intro E1. apply elems_balance in E1. rewrite E1. simpl. subst.
        rewrite ains_app_gt by auto. simpl. rewrite bcmp_refl. reflexivity.
      + destruct (insert_go H V vhash k v l) as [l'|] eqn:E0; cbn [obind]; [|discriminate].
        intro E1. apply elems_balance in E1. rewrite E1. simpl. rewrite (IHl l') by auto.
        rewrite ains_app_lt; auto.
      + destruct (insert_go H V vhash k v r) as [r'|] eqn:E0; cbn [obind]; [|discriminate].
        intro E1. apply elems_balance in E1. rewrite E1. simpl. rewrite (IHr r') by auto.
        rewrite ains_app_gt.
        * simpl. apply bcmp_gt_lt in X. rewrite X. reflexivity.
        * intros a I. eapply blt_trans; [apply Fl; exact I|exact X].
  Qed.
  Lemma elems_set_color c t : elems (set_color V c t) = elems t.
  Proof. destruct t; reflexivity. Qed.
  Lemma insert_elems k v t t' :
    bst t -> insert H V vhash k v t = Some t' -> elems t' = ains k v (elems t).
  Proof.
    unfold insert. intros S. destruct (insert_go H V vhash k v t) as [t1|] eqn:E1; cbn [obind]; [|discriminate].
    intro X; injection X as <-. rewrite elems_set_color. apply insert_go_elems; auto.
  Qed.

  (** ** modify *)
  Lemma modify_elems key f t : bst t -> elems (modify H V vhash key f t) = amod key f (elems t).
  Proof.
    induction t as [|c l IHl k v r IHr h]; intro S; [reflexivity|].
    apply bst_node in S. destruct S as (Sl & Sr & Fl & Fr). cbn [modify].
    destruct (bcmp_spec key k) as [X|X|X]; simpl; rewrite amod_app; simpl.
    - subst. rewrite bytes_eqb_refl. rewrite !amod_id; auto.
      + intro I. exact (blt_irrefl _ (Fr _ I)).
      + intro I. exact (blt_irrefl _ (Fl _ I)).
    - rewrite IHl by auto. replace (bytes_eqb key k) with false by (symmetry; apply bytes_eqb_neq; apply blt_neq; exact X).
      f_equal. f_equal. symmetry. apply amod_id. intro I. exact (blt_asym _ _ X (Fr _ I)).
    - rewrite IHr by auto. replace (bytes_eqb key k) with false
        by (symmetry; apply bytes_eqb_neq; intro; subst; exact (blt_irrefl _ X)).
      f_equal. symmetry. apply amod_id. intro I. exact (blt_asym _ _ X (Fl _ I)).
  Qed.

  (** ** delete *)
  Lemma elems_some t : is_some V t = true -> elems t <> [].
  Proof. destruct t; simpl; [discriminate|]. intros _ X. destruct (elems t1); discriminate. Qed.

  Lemma delete_min_elems fuel : forall t t',
    delete_min H V vhash fuel t = Some t' -> elems t' = tl (elems t).
  Proof.
    induction fuel as [|fuel IH]; intros t t'; cbn [delete_min]; [discriminate|].
    destruct (left_of V t) as [|lc ll lk lv lr lh] eqn:L.
    - destruct t as [|c l k v r h]; [discriminate|]. simpl in L. subst.
      destruct r; [|discriminate]. intro X; injection X as <-. reflexivity.
    - rewrite <- L. clear L lc ll lk lv lr lh. intro X.
      destruct (if negb (is_red V (left_of V t)) && negb (is_red V (left_of V (left_of V t)))
                then move_red_left H V vhash t else Some t) as [h1|] eqn:E1; cbn [obind] in X; [|discriminate].
      assert (Q : elems h1 = elems t).
      { destruct (negb (is_red V (left_of V t)) && negb (is_red V (left_of V (left_of V t))));
          [apply elems_mrl; exact E1|injection E1 as <-; reflexivity]. }
      rewrite <- Q. destruct h1 as [|c l k v r hh]; [discriminate|].
      destruct (is_some V l) eqn:Sm; [|discriminate]. cbn [assert_] in X.
      destruct (delete_min H V vhash fuel l) as [l'|] eqn:E2; cbn [obind] in X; [|discriminate].
      apply IH in E2. apply elems_balance in X. rewrite X. simpl. rewrite E2.
      apply elems_some in Sm. destruct (elems l); [congruence|reflexivity].
  Qed.

  Lemma swap_min_elems k v t mk mv t' :
    swap_min V k v t = Some (mk, mv, t') ->
    exists rest, elems t = (mk, mv) :: rest /\ elems t' = (k, v) :: rest.
  Proof.
    revert mk mv t'. induction t as [|c l IHl k0 v0 r IHr h]; intros mk mv t'; [discriminate|].
    destruct l as [|lc ll lk lv lr lh].
    - simpl. intro X; injection X as <- <- <-. eexists; split; reflexivity.
    - set (l := T lc ll lk lv lr lh) in *.
      change (swap_min V k v (T c l k0 v0 r h)) with
        (match swap_min V k v l with Some (k', v', l') => Some (k', v', T c l' k0 v0 r h) | None => None end).
      destruct (swap_min V k v l) as [[[k' v'] l']|]; [|discriminate].
      intro X; injection X as <- <- <-. destruct (IHl k' v' l' eq_refl) as (rest & E1 & E2).
      cbn [RbTree.elems]. rewrite E1, E2. eexists; split; reflexivity.
  Qed.

  Lemma delete_go_elems fuel : forall key t t',
    bst t -> delete_go H V vhash fuel key t = Some t' -> elems t' = adel key (elems t).
  Proof.
    induction fuel as [|fuel IH]; intros key t t' S; cbn [delete_go]; [discriminate|].
    destruct t as [|c0 l0 k0 v0 r0 h0]; [discriminate|].
    set (t := T c0 l0 k0 v0 r0 h0) in *.
    destruct (bcmp_spec key k0) as [C|C|C].
    2:{ destruct (is_some V l0); cbn [assert_]; [|discriminate].
        destruct (if negb (is_red V l0) && negb (is_red V (left_of V l0))
                  then move_red_left H V vhash t else Some t) as [h1|] eqn:E1; cbn [obind]; [|discriminate].
        assert (Q : elems h1 = elems t /\ ble k0 (root_key h1)).
        { destruct (negb (is_red V l0) && negb (is_red V (left_of V l0))).
          - split; [apply elems_mrl; exact E1|]. apply mrl_root in E1; auto.
          - injection E1 as <-. split; [reflexivity|apply ble_refl]. }
        destruct Q as [Q K]. rewrite <- Q. assert (S1 := bst_ext _ _ Q S).
        destruct h1 as [|c l k v r hh]; [discriminate|]. simpl in K.
        destruct (is_some V l); cbn [assert_]; [|discriminate].
        destruct (delete_go H V vhash fuel key l) as [l'|] eqn:E2; cbn [obind]; [|discriminate].
        intro X. apply bst_node in S1. destruct S1 as (Sl & Sr & Fl & Fr).
        apply elems_balance in X. rewrite X. simpl. apply IH in E2; auto. rewrite E2.
        assert (KK : blt key k) by (eapply blt_ble_trans; eauto).
        rewrite adel_app. f_equal. symmetry. apply adel_id. simpl.
        intros [->|I]; [exact (blt_irrefl _ KK)|]. exact (blt_asym _ _ KK (Fr _ I)). }
    all: assert (C' : ble k0 key) by (first [apply blt_ble; exact C | rewrite C; apply ble_refl]).
    all: clear C; rename C' into C.
    all: destruct (if is_red V l0 then rotate_right H V vhash t else Some t) as [h1|] eqn:E1; cbn [obind]; [|discriminate].
    all: assert (Q : elems h1 = elems t /\ ble (root_key h1) k0)
      by (destruct (is_red V l0);
          [split; [apply elems_rotr; exact E1|apply rotr_root in E1; auto using blt_ble]
          |injection E1 as <-; split; [reflexivity|apply ble_refl]]).
    all: destruct Q as [Q K]; rewrite <- Q; assert (S1 := bst_ext _ _ Q S).
    all: destruct h1 as [|c1 l1 k1 v1 r1 hh1]; [discriminate|]; simpl in K.
    all: destruct (bytes_eqb key k1 && negb (is_some V r1)) eqn:G.
    1,3: apply andb_true_iff in G; destruct G as [G1 G2]; apply bytes_eqb_eq in G1; subst k1;
      destruct r1; [|discriminate]; destruct l1; [|discriminate];
      intro X; injection X as <-; simpl; rewrite bytes_eqb_refl; reflexivity.
    all: destruct (is_red V r1 || is_some V r1); cbn [assert_]; [|discriminate].
    all: set (h1 := T c1 l1 k1 v1 r1 hh1) in *.
    all: destruct (if negb (is_red V r1) && negb (is_red V (left_of V r1))
                  then move_red_right H V vhash h1 else Some h1) as [h2|] eqn:E2; cbn [obind]; [|discriminate].
    all: assert (Q2 : elems h2 = elems h1 /\ ble (root_key h2) k1)
      by (destruct (negb (is_red V r1) && negb (is_red V (left_of V r1)));
          [split; [apply elems_mrr; exact E2|apply mrr_root in E2; auto]
          |injection E2 as <-; split; [reflexivity|apply ble_refl]]).
    all: destruct Q2 as [Q2 K2]; rewrite <- Q2; assert (S2 := bst_ext _ _ Q2 S1).
    all: destruct h2 as [|c l k v r hh]; [discriminate|]; simpl in K2.
    all: destruct (is_some V r); cbn [assert_]; [|discriminate].
    all: apply bst_node in S2; destruct S2 as (Sl & Sr & Fl & Fr).
    all: assert (KK : ble k key) by (eapply ble_trans; [exact K2|eapply ble_trans; [exact K|exact C]]).
    all: destruct (bytes_eqb_spec key k) as [G'|G'].
    1,3: subst k; destruct (swap_min V key v r) as [[[mk mv] r']|] eqn:E3; [|discriminate];
      destruct (delete_min H V vhash fuel r') as [r''|] eqn:E4; cbn [obind]; [|discriminate];
      intro X; apply elems_balance in X; rewrite X; simpl;
      apply delete_min_elems in E4; apply swap_min_elems in E3; destruct E3 as (rest & R1 & R2);
      rewrite R2 in E4; simpl in E4; rewrite E4, <- R1, adel_app; simpl; rewrite bytes_eqb_refl; simpl;
      rewrite !adel_id; [reflexivity|intro I; exact (blt_irrefl _ (Fr _ I))|intro I; exact (blt_irrefl _ (Fl _ I))].
    all: destruct (delete_go H V vhash fuel key r) as [r'|] eqn:E3; cbn [obind]; [|discriminate];
      intro X; apply elems_balance in X; rewrite X; simpl; apply IH in E3; auto; rewrite E3, adel_app; simpl;
      assert (K3 : blt k key) by (apply ble_lt_eq in KK; destruct KK as [KK|KK]; [exact KK|congruence]);
      replace (bytes_eqb key k) with false by (symmetry; apply bytes_eqb_neq; exact G'); simpl;
      f_equal; symmetry; apply adel_id; intro I; exact (blt_asym _ _ K3 (Fl _ I)).
  Qed.

  Lemma delete_elems key t t' :
    bst t -> delete H V vhash key t = Some t' -> elems t' = adel key (elems t).
  Proof.
    unfold delete. intro S. destruct (get V key t) eqn:G.
    - set (t1 := if negb (is_red V (left_of V t)) && negb (is_red V (right_of V t)) then set_color V Red t else t).
      assert (Q : elems t1 = elems t) by (unfold t1; destruct (_ && _); [apply elems_set_color|reflexivity]).
      destruct (delete_go H V vhash (Datatypes.S (size V t1)) key t1) as [t2|] eqn:E1; cbn [obind]; [|discriminate].
      destruct (match get V key (set_color V Black t2) with Some _ => false | None => true end); [|discriminate].
      cbn [assert_]. intro X; injection X as <-. rewrite elems_set_color.
      apply delete_go_elems in E1; [congruence|]. eapply bst_ext; eauto.
    - intro X; injection X as <-. rewrite adel_id; [reflexivity|].
      rewrite get_elems in G by auto. apply aget_none in G. exact G.
  Qed.

  (** ** delete never panics on a present key *)
  Notation B := (B V). Notation A := (A V). Notation R := (R V). Notation BL := (BL V). Notation BR := (BR V).

  Lemma in_left key c l k v r h :
    bst (T c l k v r h) -> In key (map fst (elems (T c l k v r h))) -> blt key k -> In key (map fst (elems l)).
  Proof.
    intros S I L. apply bst_node in S. destruct S as (_ & _ & _ & Fr).
    simpl in I. rewrite map_app in I. apply in_app_or in I. destruct I as [I|[I|I]]; auto.
    - simpl in I. subst. exfalso; exact (blt_irrefl _ L).
    - exfalso. exact (blt_asym _ _ L (Fr _ I)).
  Qed.
  Lemma in_right key c l k v r h :
    bst (T c l k v r h) -> In key (map fst (elems (T c l k v r h))) -> blt k key -> In key (map fst (elems r)).
  Proof.
    intros S I L. apply bst_node in S. destruct S as (_ & _ & Fl & _).
    simpl in I. rewrite map_app in I. apply in_app_or in I. destruct I as [I|[I|I]]; auto.
    - exfalso. exact (blt_asym _ _ L (Fl _ I)).
    - simpl in I. subst. exfalso; exact (blt_irrefl _ L).
  Qed.
  Lemma in_some key t : In key (map fst (elems t)) -> is_some V t = true.
  Proof. destruct t; [simpl; tauto|reflexivity]. Qed.

  (** the tail of [delete_go] after the restructuring of the right spine *)
  Lemma del_right_ok fuel n key c l k v r h :
    (forall m t, size V t < fuel -> bst t -> In key (map fst (elems t)) ->
       (R m t -> exists t', delete_go H V vhash fuel key t = Some t' /\ A m t') /\
       (BL m t -> exists t', delete_go H V vhash fuel key t = Some t' /\ B m t') /\
       (BR m t -> ble (root_key t) key -> exists t', delete_go H V vhash fuel key t = Some t' /\ B m t')) ->
    size V r < fuel -> bst (T c l k v r h) -> In key (map fst (elems (T c l k v r h))) -> ble k key ->
    R n r ->
    exists r' mk mv,
      (assert_ (is_some V r)
         (if bytes_eqb key k then
            match swap_min V k v r with
            | None => None
            | Some (mk, mv, r') => do r'' <- delete_min H V vhash fuel r'; balance H V vhash (upd H V vhash c l mk mv r'')
            end
          else do r' <- delete_go H V vhash fuel key r; balance H V vhash (upd H V vhash c l k v r'))
       = balance H V vhash (upd H V vhash c l mk mv r')) /\ A n r'.
  Proof.
    intros IH Sz S I K Rr. rewrite (R_some _ _ _ Rr). cbn [assert_].
    destruct (bytes_eqb_spec key k) as [G|G].
    - destruct (swap_min_shape H V vhash k v r (R_some _ _ _ Rr)) as (mk & mv & r' & E1 & Z & Sm & Sh). rewrite E1.
      destruct (delete_min_shape H V vhash fuel n r') as [D _]; [lia|].
      destruct D as (r'' & E2 & Q); [apply Sh; exact Rr|]. rewrite E2. cbn [obind]. eauto.
    - assert (L : blt k key) by (apply ble_lt_eq in K; destruct K; [assumption|congruence]).
      assert (Ir := in_right _ _ _ _ _ _ _ S I L). apply bst_node in S.
      destruct (IH n r Sz) as [D _]; [apply S|exact Ir|].
      destruct (D Rr) as (r' & E2 & Q). rewrite E2. cbn [obind]. eauto.
  Qed.

  Lemma delete_go_shape fuel : forall key n t, size V t < fuel -> bst t -> In key (map fst (elems t)) ->
    (R n t -> exists t', delete_go H V vhash fuel key t = Some t' /\ A n t') /\
    (BL n t -> exists t', delete_go H V vhash fuel key t = Some t' /\ B n t') /\
    (BR n t -> ble (root_key t) key -> exists t', delete_go H V vhash fuel key t = Some t' /\ B n t').
  Proof.
    induction fuel as [|fuel IH]; intros key n t Sz S I; [lia|].
    specialize (IH key).
    split; [|split].
    - (* red root *)
      intro P. inversion P as [? l0 k0 v0 r0 h0 Bl Br]; subst.
      cbn [delete_go].
      set (t := T Red l0 k0 v0 r0 h0) in *.
      destruct (bcmp_spec key k0) as [C|C|C].
      2:{ assert (Il := in_left _ _ _ _ _ _ _ S I C).
          rewrite (in_some _ _ Il). cbn [assert_].
          rewrite (B_not_red _ _ _ Bl). cbn [negb andb].
          destruct (is_red V (left_of V l0)) eqn:N; cbn [negb].
          - unfold t. cbn [obind]. rewrite (in_some _ _ Il). cbn [assert_].
            inversion Bl as [|m ll lk lv lr lh All Blr]; subst l0; [discriminate|]. subst n. simpl in N.
            apply A_cases in All. destruct All as [Q|Q]; [rewrite (B_not_red _ _ _ Q) in N; congruence|].
            destruct (IH (Datatypes.S m) (T Black ll lk lv lr lh)) as (_ & D & _);
              [unfold t in Sz; simpl in *; lia|apply bst_node in S; apply S|exact Il|].
            destruct D as (l' & -> & Q'); [constructor; auto|]. cbn [obind].
            destruct (bal_red_B H V vhash (Datatypes.S m) l' k0 v0 r0 (compute_subtree_hash H V vhash l' k0 v0 r0)) as (t' & E1 & Rt); auto.
            exists t'. split; [exact E1|]. apply A_cases; auto.
          - assert (exists m, n = Datatypes.S m) as [m ->].
            { inversion Bl; subst; eauto. simpl in Il; tauto. }
            destruct (move_red_left_shape H V vhash m l0 k0 v0 r0 h0 Bl Br N) as (c' & l' & k' & v' & r' & h' & E1 & Cases).
            fold t in E1. rewrite E1. cbn [obind].
            assert (Z := size_mrl _ _ _ _ _ E1). assert (Q := elems_mrl _ _ E1). assert (K := mrl_root _ _ E1 S).
            assert (S1 := bst_ext _ _ Q S). unfold t in Z, K, Sz. cbn [size root_key] in Z, K, Sz.
            assert (Il' : In key (map fst (elems l'))).
            { eapply in_left; [exact S1|rewrite Q; exact I|eapply blt_ble_trans; eauto]. }
            rewrite (in_some _ _ Il'). cbn [assert_]. apply bst_node in S1.
            destruct (IH m l') as (D & _); [lia|apply S1|exact Il'|].
            destruct (IH (Datatypes.S m) l') as (_ & D' & _); [lia|apply S1|exact Il'|].
            destruct Cases as [(-> & Rl & Rr)|(-> & BLl & Br')].
            + destruct (D Rl) as (l'' & -> & Ql). cbn [obind].
              apply bal_black_AA; auto. apply A_cases; auto.
            + destruct (D' BLl) as (l'' & -> & Ql). cbn [obind].
              destruct (bal_red_B H V vhash (Datatypes.S m) l'' k' v' r' (compute_subtree_hash H V vhash l'' k' v' r')) as (t' & E2 & Rt); auto.
              exists t'. split; [exact E2|]. apply A_cases; auto. }
      all: assert (C' : ble k0 key) by (first [apply blt_ble; exact C | rewrite C; apply ble_refl]).
      all: clear C; rename C' into C.
      all: rewrite (B_not_red _ _ _ Bl); cbn [obind]; unfold t; cbv iota beta.
      all: destruct (bytes_eqb key k0 && negb (is_some V r0)) eqn:G.
      1,3: apply andb_true_iff in G; destruct G as [G1 G2]; destruct r0; [|discriminate];
        inversion Br; subst; inversion Bl; subst; cbn; eexists; split; [reflexivity|apply A_B; constructor].
      all: assert (Ir0 : is_some V r0 = true) by
        (destruct (bytes_eqb_spec key k0) as [X|X];
          [simpl in G; destruct (is_some V r0); [reflexivity|discriminate]
          |apply (in_some key); eapply in_right; [exact S|exact I|];
           apply ble_lt_eq in C; destruct C as [C|C]; [exact C|congruence]]).
      all: rewrite Ir0, orb_true_r; cbn [assert_]; rewrite (B_not_red _ _ _ Br); cbn [negb andb].
      all: assert (exists m, n = Datatypes.S m) as [m ->] by (inversion Br; subst; [discriminate|eauto]).
      all: destruct (is_red V (left_of V r0)) eqn:N; cbn [negb obind].
      1,3: inversion Br as [|m0 rl rk rv rr rh Arl Brr]; subst; simpl in N;
        apply A_cases in Arl; destruct Arl as [Q|Q]; [rewrite (B_not_red _ _ _ Q) in N; congruence|];
        set (r0 := T Black rl rk rv rr rh) in *;
        rewrite Ir0; cbn [assert_];
        destruct (bytes_eqb_spec key k0) as [X|X];
        [ destruct (swap_min_shape H V vhash k0 v0 r0 Ir0) as (mk & mv & r' & E1 & Z & Sm & Sh); rewrite E1;
          destruct (delete_min_shape H V vhash fuel (Datatypes.S m) r') as [_ D]; [unfold t in Sz; simpl in *; lia|];
          destruct D as (r'' & E2 & Qr); [apply Sh; constructor; auto|]; rewrite E2; cbn [obind];
          destruct (bal_red_B H V vhash (Datatypes.S m) l0 mk mv r'' (compute_subtree_hash H V vhash l0 mk mv r'')) as (t' & E3 & Rt); auto;
          exists t'; split; [exact E3|apply A_cases; auto]
        | assert (L : blt k0 key) by (apply ble_lt_eq in C; destruct C; [assumption|congruence]);
          assert (Ir := in_right _ _ _ _ _ _ _ S I L);
          destruct (IH (Datatypes.S m) r0) as (_ & D & _); [unfold t in Sz; simpl in *; lia|apply bst_node in S; apply S|exact Ir|];
          destruct D as (r' & E2 & Qr); [constructor; auto|]; rewrite E2; cbn [obind];
          destruct (bal_red_B H V vhash (Datatypes.S m) l0 k0 v0 r' (compute_subtree_hash H V vhash l0 k0 v0 r')) as (t' & E3 & Rt); auto;
          exists t'; split; [exact E3|apply A_cases; auto] ].
      all: destruct (move_red_right_shape H V vhash m l0 k0 v0 r0 h0 Bl Br N) as (c' & l' & k' & v' & r' & h' & E1 & Cases);
        rewrite E1; cbn [obind];
        assert (Z := size_mrr _ _ _ _ _ E1); assert (Q := elems_mrr _ _ E1); assert (K := mrr_root _ _ E1 S);
        assert (S1 := bst_ext _ _ Q S); unfold t in Sz; cbn [size root_key] in Z, K, Sz;
        assert (I1 : In key (map fst (elems (T c' l' k' v' r' h')))) by (rewrite Q; exact I);
        assert (KK : ble k' key) by (eapply ble_trans; eauto);
        destruct Cases as [(-> & -> & Rl & Rr)|(-> & Bl' & BRr & (a & v1 & b & h1 & Er))].
      1,3: destruct (del_right_ok fuel m key Black l' k0 v' r' h' IH) as (r'' & mk & mv & E2 & Qr); auto; try lia;
        rewrite E2; apply bal_black_AA; auto; apply A_cases; auto.
      all: assert (G2 : key <> k') by
        (intro; subst; apply bst_node in S1; destruct S1 as (_ & _ & _ & Fr);
         assert (X : blt k' k0) by (apply Fr; simpl; rewrite map_app; apply in_or_app; right; left; reflexivity);
         apply (ble_nblt _ _ C); exact X).
      all: replace (bytes_eqb key k') with false by (symmetry; apply bytes_eqb_neq; exact G2).
      all: assert (L : blt k' key) by (apply ble_lt_eq in KK; destruct KK; [assumption|congruence]);
        assert (Ir := in_right _ _ _ _ _ _ _ S1 I1 L); rewrite (in_some _ _ Ir); cbn [assert_];
        destruct (IH (Datatypes.S m) r') as (_ & _ & D); [lia|apply bst_node in S1; apply S1|exact Ir|];
        destruct D as (r'' & E2 & Qr); [exact BRr|subst r'; exact C|]; rewrite E2; cbn [obind];
        destruct (bal_red_B H V vhash (Datatypes.S m) l' k' v' r'' (compute_subtree_hash H V vhash l' k' v' r'')) as (t' & E3 & Rt); auto;
        exists t'; split; [exact E3|apply A_cases; auto].
    - (* black root, red left child *)
      intro P. inversion P as [m l0 k0 v0 r0 h0 Rl Br]; subst.
      cbn [delete_go].
      set (t := T Black l0 k0 v0 r0 h0) in *.
      destruct (bcmp_spec key k0) as [C|C|C].
      2:{ assert (Il := in_left _ _ _ _ _ _ _ S I C).
          rewrite (in_some _ _ Il). cbn [assert_].
          rewrite (R_red _ _ _ Rl). cbn [negb andb obind]. unfold t. rewrite (in_some _ _ Il). cbn [assert_].
          destruct (IH m l0) as (D & _); [unfold t in Sz; simpl in *; lia|apply bst_node in S; apply S|exact Il|].
          destruct (D Rl) as (l' & -> & Q). cbn [obind]. apply bal_black_AB; auto. }
      all: assert (C' : ble k0 key) by (first [apply blt_ble; exact C | rewrite C; apply ble_refl]).
      all: clear C; rename C' into C.
      all: rewrite (R_red _ _ _ Rl); inversion Rl as [? xl xk xv xr xh Bxl Bxr]; subst l0; subst n;
        destruct (rotate_right H V vhash t) as [h1|] eqn:E1; [|discriminate];
        assert (Z := size_rotr _ _ _ _ _ E1); assert (Q := elems_rotr _ _ E1); assert (K := rotr_root _ _ E1 S);
        assert (S1 := bst_ext _ _ Q S); unfold t in E1, Sz, K, Z; cbn [rotate_right] in E1; injection E1 as <-;
        cbn [obind]; unfold upd in Z, Q, K, S1 |- *; cbn [size root_key] in Z, K, Sz;
        cbn [is_some negb is_red andb orb assert_ upd]; rewrite andb_false_r; cbn [obind];
        set (r1 := T Red xr k0 v0 r0 (compute_subtree_hash H V vhash xr k0 v0 r0)) in *.
      all: assert (I1 : In key (map fst (elems (T Black xl xk xv r1 (compute_subtree_hash H V vhash xl xk xv r1))))) by (rewrite Q; exact I).
      all: destruct (del_right_ok fuel m key Black xl xk xv r1 (compute_subtree_hash H V vhash xl xk xv r1) IH) as (r' & mk & mv & E2 & Qr);
        [unfold r1; simpl in *; lia|exact S1|exact I1|eapply ble_trans; [apply blt_ble; exact K|exact C]|constructor; auto|].
      all: unfold upd in E2; unfold r1 at 1 in E2; cbn [is_some assert_] in E2; rewrite E2; apply bal_black_BA; auto.
    - (* black root, black left child, red right child, key not smaller *)
      intros P C. inversion P as [m l0 k0 v0 r0 h0 Bl Rr]; subst.
      cbn [root_key] in C.
      cbn [delete_go].
      set (t := T Black l0 k0 v0 r0 h0) in *.
      assert (X : forall X : option rb, match bcmp key k0 with Lt => X | _ => 
          do h1 <- (if is_red V l0 then rotate_right H V vhash t else Some t);
                match h1 with
                | E => None
                | T _ l1 k1 _ r1 _ =>
                    if bytes_eqb key k1 && negb (is_some V r1) then
                      assert_ (negb (is_some V l1)) (Some E)
                    else
                      assert_ (is_red V r1 || is_some V r1)
                      (do h2 <- (if negb (is_red V r1) && negb (is_red V (left_of V r1))
                                 then move_red_right H V vhash h1 else Some h1);
                       match h2 with
                       | E => None
                       | T c l k v r _ =>
                           assert_ (is_some V r)
                             (if bytes_eqb key k then
                                match swap_min V k v r with
                                | None => None
                                | Some (mk, mv, r') =>
                                    do r'' <- delete_min H V vhash fuel r';
                                    balance H V vhash (upd H V vhash c l mk mv r'')
                                end
                              else
                                do r' <- delete_go H V vhash fuel key r;
                                balance H V vhash (upd H V vhash c l k v r'))
                       end)
                end end =
           assert_ (is_some V r0)
                             (if bytes_eqb key k0 then
                                match swap_min V k0 v0 r0 with
                                | None => None
                                | Some (mk, mv, r') =>
                                    do r'' <- delete_min H V vhash fuel r';
                                    balance H V vhash (upd H V vhash Black l0 mk mv r'')
                                end
                              else
                                do r' <- delete_go H V vhash fuel key r0;
                                balance H V vhash (upd H V vhash Black l0 k0 v0 r'))).
      { intro X. destruct (bcmp_spec key k0) as [D|D|D]; [|exfalso; exact (ble_nblt _ _ C D)|];
        rewrite (B_not_red _ _ _ Bl); cbn [obind]; unfold t; rewrite (R_some _ _ _ Rr), (R_red _ _ _ Rr);
        cbn [negb]; rewrite andb_false_r; cbn [orb assert_ andb obind]; rewrite (R_some _ _ _ Rr); reflexivity. }
      rewrite X. clear X.
      destruct (del_right_ok fuel m key Black l0 k0 v0 r0 h0 IH) as (r' & mk & mv & E2 & Qr); auto.
      { unfold t in Sz. simpl in *. lia. }
      rewrite E2. apply bal_black_BA; auto.
  Qed.

  Lemma delete_shape key t n :
    bst t -> B n t -> exists t' m, delete H V vhash key t = Some t' /\ B m t'.
  Proof.
    intros S P. unfold delete. destruct (get V key t) as [v|] eqn:G; [|exists t, n; auto].
    rewrite get_elems in G by auto. assert (I : In key (map fst (elems t))).
    { apply aget_in in G. apply in_map_iff. exists (key, v); auto. }
    set (t1 := if negb (is_red V (left_of V t)) && negb (is_red V (right_of V t)) then set_color V Red t else t).
    assert (Q : elems t1 = elems t) by (unfold t1; destruct (_ && _); [apply elems_set_color|reflexivity]).
    assert (S1 := bst_ext _ _ Q S).
    assert (X : exists t2 m, delete_go H V vhash (Datatypes.S (size V t1)) key t1 = Some t2 /\ A m t2).
    { inversion P as [|m l k w r h Al Br]; subst; [simpl in I; tauto|].
      unfold t1 in *. cbn [left_of right_of] in *. rewrite (B_not_red _ _ _ Br) in *. cbn [negb] in *. rewrite andb_true_r in *.
      apply A_cases in Al. destruct Al as [Bl|Rl].
      - rewrite (B_not_red _ _ _ Bl) in *. cbn [negb] in *.
        destruct (delete_go_shape (Datatypes.S (size V (set_color V Red (T Black l k w r h)))) key m (set_color V Red (T Black l k w r h))) as (D & _ & _);
          [simpl; lia|exact S1|rewrite Q; exact I|].
        destruct D as (t2 & E1 & At); [constructor; auto|]. eauto.
      - rewrite (R_red _ _ _ Rl) in *. cbn [negb] in *.
        destruct (delete_go_shape (Datatypes.S (size V (T Black l k w r h))) key (Datatypes.S m) (T Black l k w r h)) as (_ & D & _);
          [simpl; lia|exact S1|exact I|].
        destruct D as (t2 & E1 & At); [constructor; auto|]. eexists _, _; split; [exact E1|]. apply A_B; exact At. }
    destruct X as (t2 & m & E1 & At). fold t1. rewrite E1. cbn [obind].
    assert (Q2 := delete_go_elems _ _ _ _ S1 E1).
    rewrite get_elems, elems_set_color, Q2, aget_adel, bytes_eqb_refl.
    - cbn [assert_]. destruct (set_black_A _ _ _ At) as [m' Pm]. eauto.
    - unfold bst. rewrite elems_set_color, Q2. apply adel_sorted. exact S1.
  Qed.

  (** ** Histories *)
  Definition spec_step (es : alist V) (o : op V) : alist V :=
    match o with
    | OpInsert _ k v => ains k v es
    | OpDelete _ k => adel k es
    | OpModify _ k f => amod k f es
    end.

  Definition good (t : rb) : Prop := bst t /\ exists n, B n t.

  Lemma step_good o t : good t ->
    exists t', step H V vhash t o = Some t' /\ good t' /\ elems t' = spec_step (elems t) o.
  Proof.
    intros [S [n P]]. destruct o as [k v|k|k f]; cbn [step spec_step].
    - destruct (insert_shape H V vhash k v t n P) as (t' & m & E1 & P').
      assert (Q := insert_elems k v t t' S E1).
      exists t'. split; [exact E1|]. split; [|exact Q]. split; [|eauto].
      unfold bst. rewrite Q. apply ains_sorted. exact S.
    - destruct (delete_shape k t n S P) as (t' & m & E1 & P').
      assert (Q := delete_elems k t t' S E1).
      exists t'. split; [exact E1|]. split; [|exact Q]. split; [|eauto].
      unfold bst. rewrite Q. apply adel_sorted. exact S.
    - assert (Q := modify_elems k f t S).
      eexists. split; [reflexivity|]. split; [|exact Q]. split.
      + unfold bst, sorted. rewrite Q, amod_keys. exact S.
      + exists n. apply modify_shape. exact P.
  Qed.

  Lemma good_E : good E.
  Proof. split; [constructor|]. exists 0. constructor. Qed.

  Lemma run_good ops : forall t, good t ->
    exists t', run H V vhash ops t = Some t' /\ good t' /\ elems t' = fold_left spec_step ops (elems t).
  Proof.
    induction ops as [|o ops IH]; intros t G; cbn [run fold_left].
    - exists t. auto.
    - destruct (step_good o t G) as (t1 & E1 & G1 & Q1). rewrite E1. cbn [obind].
      destruct (IH t1 G1) as (t2 & E2 & G2 & Q2). exists t2. rewrite <- Q1. auto.
  Qed.
End Content.
