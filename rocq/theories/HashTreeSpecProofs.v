(** Lookup agrees with the interface specification on well-formed trees (with
    or without pruned nodes), and [list_paths] is complete. *)
From Coq Require Import List NArith Bool Lia Arith Sorted.
From Verif Require Import Bytes HashTree HashTreeSpec HashTreeProofs.
Import ListNotations.

Definition hdgt (k : bytes) (es : list htree) : bool :=
  match es with e :: _ => gt_entry k e | [] => false end.
Fixpoint lastlt (k : bytes) (es : list htree) : bool :=
  match es with
  | [] => false
  | [e] => lt_entry k e
  | _ :: r => lastlt k r
  end.

Lemma lastlt_snoc k es e : lastlt k (es ++ [e]) = lt_entry k e.
Proof.
  induction es as [|a es IH]; [reflexivity|].
  rewrite <- app_comm_cons. cbn [lastlt]. destruct (es ++ [e]) eqn:E; [destruct es; discriminate|].
  exact IH.
Qed.
Lemma lastlt_rev k es :
  match rev es with e :: _ => lt_entry k e | [] => false end = lastlt k es.
Proof.
  destruct es as [|e es] using rev_ind; [reflexivity|].
  rewrite rev_app_distr, lastlt_snoc. reflexivity.
Qed.
Lemma lastlt_app k l r : r <> [] -> lastlt k (l ++ r) = lastlt k r.
Proof.
  intro N. induction l as [|a l IH]; [reflexivity|].
  rewrite <- app_comm_cons. cbn [lastlt].
  destruct (l ++ r) eqn:E; [destruct l; [contradiction|discriminate]|]. exact IH.
Qed.
Lemma hdgt_app k l r : l <> [] -> hdgt k (l ++ r) = hdgt k l.
Proof. destruct l; [congruence|reflexivity]. Qed.
Lemma first_child_app k l r :
  first_child k (l ++ r) = match first_child k l with Some t => Some t | None => first_child k r end.
Proof.
  induction l as [|a l IH]; [reflexivity|]. simpl. rewrite IH. destruct (child k a); reflexivity.
Qed.
Lemma adjacent_app k l r :
  adjacent k (l ++ r) = adjacent k l || (lastlt k l && hdgt k r) || adjacent k r.
Proof.
  induction l as [|a l IH]; [reflexivity|].
  rewrite <- app_comm_cons. destruct l as [|b l].
  - simpl app. destruct r as [|b r]; simpl; [destruct (lt_entry k a); reflexivity|reflexivity].
  - simpl app in *. cbn [adjacent lastlt] in *. rewrite IH. rewrite !orb_assoc. reflexivity.
Qed.

Definition entry_labels (es : list htree) : list bytes :=
  flat_map (fun e => match e with HLabeled l _ => [l] | _ => [] end) es.

Lemma flatten_labels t : entry_labels (flatten_forks t) = labels t.
Proof.
  unfold entry_labels.
  induction t as [ | l IHl r IHr | x t IH | v | h]; simpl; auto.
  rewrite flat_map_app, IHl, IHr. reflexivity.
Qed.

Lemma StronglySorted_app {A} (R : A -> A -> Prop) l r :
  StronglySorted R l -> StronglySorted R r ->
  (forall a b, In a l -> In b r -> R a b) -> StronglySorted R (l ++ r).
Proof.
  induction l as [|x l IH]; simpl; auto.
  intros S T C. inversion S; subst. constructor.
  - apply IH; auto.
  - apply Forall_app. split; [assumption|]. apply Forall_forall. auto.
Qed.

Lemma wf_sorted t : wf t -> StronglySorted blt (labels t).
Proof.
  induction t as [ | l IHl r IHr | x t IH | v | h]; simpl; intro W; try constructor.
  - destruct W as (Wl & Wr & _ & _ & S). apply StronglySorted_app; auto.
  - constructor.
  - constructor.
Qed.

Lemma first_child_none k es : ~ In k (entry_labels es) -> first_child k es = None.
Proof.
  induction es as [|e es IH]; [reflexivity|]. simpl. intro N.
  destruct e; simpl; try (apply IH; simpl in N; tauto).
  simpl in N. destruct (bytes_eqb_spec k lbl); [exfalso; apply N; auto|]. apply IH; tauto.
Qed.
Lemma first_child_some_in k es c : first_child k es = Some c -> In k (entry_labels es).
Proof.
  induction es as [|e es IH]; simpl; [congruence|].
  destruct e; simpl; auto.
  destruct (bytes_eqb_spec k lbl); auto.
Qed.

Lemma hdgt_all k es :
  StronglySorted blt (entry_labels es) -> hdgt k es = true ->
  forall a, In a (entry_labels es) -> blt k a.
Proof.
  destruct es as [|e es]; simpl; [tauto|].
  destruct e; simpl; try congruence.
  intros S. destruct (bcmp_spec k lbl) as [E|E|E]; try congruence. intros _ a [<-|I]; [exact E|].
  inversion S; subst. rewrite Forall_forall in *. eapply blt_trans; eauto.
Qed.
Lemma lastlt_all k es :
  StronglySorted blt (entry_labels es) -> lastlt k es = true ->
  forall a, In a (entry_labels es) -> blt a k.
Proof.
  destruct es as [|e es] using rev_ind; simpl; [tauto|].
  clear IHes. rewrite lastlt_snoc. unfold entry_labels. rewrite flat_map_app. simpl.
  destruct e; simpl; try congruence.
  intros S. destruct (bcmp_spec lbl k) as [E|E|E]; try congruence. intros _ a I.
  apply in_app_or in I. destruct I as [I|[<-|[]]]; [|exact E].
  eapply blt_trans; [|exact E].
  revert S I. generalize (flat_map (fun e0 => match e0 with HLabeled l _ => [l] | _ => [] end) es).
  induction l as [|x l IH]; simpl; [tauto|].
  intros S [->|I]; inversion S as [|? ? ? F]; subst.
  - rewrite Forall_forall in F. apply F. apply in_or_app; right; left; reflexivity.
  - apply IH; auto.
Qed.
Lemma adjacent_cons k a b es :
  adjacent k (a :: b :: es) = (lt_entry k a && gt_entry k b) || adjacent k (b :: es).
Proof. reflexivity. Qed.
Lemma adjacent_ex k es :
  adjacent k es = true ->
  (exists a, In a (entry_labels es) /\ blt a k) /\ (exists b, In b (entry_labels es) /\ blt k b).
Proof.
  induction es as [|a es IH]; [simpl; congruence|].
  destruct es as [|b es]; [simpl; congruence|].
  rewrite adjacent_cons, orb_true_iff. intros [E|E].
  - apply andb_true_iff in E. destruct E as [E F].
    destruct a; simpl in E; try congruence. destruct b; simpl in F; try congruence.
    split.
    + exists lbl. split; [simpl; auto|]. destruct (bcmp_spec lbl k); congruence.
    + exists lbl0. split; [simpl; auto|]. destruct (bcmp_spec k lbl0); congruence.
  - destruct (IH E) as [(x & Hx & Lx) (y & Hy & Ly)].
    split; [exists x|exists y]; (split; [|assumption]); simpl; apply in_or_app; right; assumption.
Qed.
Lemma adjacent_notin k es :
  StronglySorted blt (entry_labels es) -> adjacent k es = true -> ~ In k (entry_labels es).
Proof.
  induction es as [|a es IH]; [simpl; congruence|].
  destruct es as [|b es]; [simpl; congruence|].
  rewrite adjacent_cons, orb_true_iff. intros S [E|E].
  - apply andb_true_iff in E. destruct E as [E F].
    destruct a; simpl in E; try congruence. destruct b; simpl in F; try congruence.
    destruct (bcmp_spec lbl k) as [X|X|X]; try congruence.
    destruct (bcmp_spec k lbl0) as [Y|Y|Y]; try congruence.
    simpl. simpl in S. inversion S; subst. inversion H1; subst. rewrite Forall_forall in *.
    intros [->|[->|I]].
    + exact (blt_irrefl _ X).
    + exact (blt_irrefl _ Y).
    + apply (blt_irrefl k). eapply blt_trans; eauto.
  - intro I. simpl in I. apply in_app_or in I. destruct I as [I|I].
    + destruct a; simpl in I; try tauto. destruct I as [->|[]].
      apply adjacent_ex in E. destruct E as [(x & Hx & Lx) _].
      simpl in S. inversion S; subst. rewrite Forall_forall in *.
      apply (blt_asym k x); auto.
    + apply IH; auto. simpl in S. destruct a; simpl in S; auto. inversion S; auto.
Qed.

Lemma flatten_nonempty t : wf t -> fork_child_ok t = true -> flatten_forks t <> [].
Proof.
  induction t as [ | l IHl r IHr | x t IH | v | h]; simpl; try congruence.
  intros (Wl & Wr & Ol & Or & S) _. specialize (IHl Wl Ol).
  destruct (flatten_forks l); [congruence|discriminate].
Qed.

Lemma lookup_label_flat k t :
  wf t -> fork_child_ok t = true ->
  let es := flatten_forks t in
  match lookup_label k t with
  | LFound c => first_child k es = Some c
  | LLess => hdgt k es = true
  | LGreater => lastlt k es = true
  | LAbsent => adjacent k es = true
  | LUnknown => first_child k es = None /\ hdgt k es = false /\ lastlt k es = false /\ adjacent k es = false
  end.
Proof.
  induction t as [ | l IHl r IHr | x t IH | v | h]; simpl; try congruence.
  - intros (Wl & Wr & Ol & Or & S) _.
    specialize (IHl Wl Ol). specialize (IHr Wr Or).
    generalize (flatten_nonempty l Wl Ol) (flatten_nonempty r Wr Or). intros Nl Nr.
    assert (Sl := wf_sorted l Wl). assert (Sr := wf_sorted r Wr).
    rewrite <- flatten_labels in Sl, Sr.
    set (L := flatten_forks l) in *. set (R := flatten_forks r) in *.
    destruct (lookup_label k l) as [ | | | | c1] eqn:E1; simpl in IHl.
    + rewrite adjacent_app, IHl. reflexivity.
    + destruct IHl as (A1 & A2 & A3 & A4).
      destruct (lookup_label k r) as [ | | | | c2] eqn:E2; simpl in IHr.
      * rewrite adjacent_app, IHr. apply orb_true_r.
      * destruct IHr as (B1 & B2 & B3 & B4).
        rewrite first_child_app, A1, hdgt_app, lastlt_app, adjacent_app, A3, A4, B4 by assumption. auto.
      * rewrite first_child_app, A1, hdgt_app, lastlt_app, adjacent_app, A3, A4 by assumption.
        assert (G := hdgt_all k R Sr IHr).
        repeat split; auto.
        -- apply first_child_none. intro I. exact (blt_irrefl _ (G _ I)).
        -- destruct (lastlt k R) eqn:X; auto. exfalso.
           assert (G2 := lastlt_all k R Sr X).
           destruct R as [|e R']; [congruence|]. simpl in IHr. destruct e; simpl in IHr; try congruence.
           assert (I : In lbl (entry_labels (HLabeled lbl e :: R'))) by (simpl; auto).
           exact (blt_asym _ _ (G _ I) (G2 _ I)).
        -- simpl. destruct (adjacent k R) eqn:X; auto. exfalso.
           apply adjacent_ex in X. destruct X as [(a & Ia & La) _].
           exact (blt_asym _ _ (G _ Ia) La).
      * rewrite lastlt_app by assumption. exact IHr.
      * rewrite first_child_app, A1. exact IHr.
    + rewrite hdgt_app by assumption. exact IHl.
    + assert (G := lastlt_all k L Sl IHl).
      assert (FL : first_child k L = None)
        by (apply first_child_none; intro I; exact (blt_irrefl _ (G _ I))).
      destruct (lookup_label k r) as [ | | | | c2] eqn:E2; simpl in IHr.
      * rewrite adjacent_app, IHr. apply orb_true_r.
      * destruct IHr as (B1 & B2 & B3 & B4).
        rewrite first_child_app, FL, hdgt_app, lastlt_app, adjacent_app, B2, B4 by assumption.
        repeat split; auto.
        -- destruct (hdgt k L) eqn:X; auto. exfalso.
           assert (G2 := hdgt_all k L Sl X).
           destruct L as [|e L']; [congruence|]. simpl in X. destruct e; simpl in X; try congruence.
           assert (I : In lbl (entry_labels (HLabeled lbl e :: L'))) by (simpl; auto).
           exact (blt_asym _ _ (G _ I) (G2 _ I)).
        -- rewrite andb_false_r, !orb_false_r. destruct (adjacent k L) eqn:X; auto. exfalso.
           apply adjacent_ex in X. destruct X as [_ (a & Ia & La)].
           exact (blt_asym _ _ (G _ Ia) La).
      * rewrite adjacent_app, IHl, IHr. simpl. rewrite orb_true_r. reflexivity.
      * rewrite lastlt_app by assumption. exact IHr.
      * rewrite first_child_app, FL. exact IHr.
    + rewrite first_child_app, IHl. reflexivity.
  - intros _ _. destruct (bcmp_spec k x) as [E|E|E]; simpl.
    + subst. rewrite bytes_eqb_refl. reflexivity.
    + reflexivity.
    + unfold blt in E. rewrite E. reflexivity.
  - intros _ _. auto.
Qed.

Lemma lookup_label_find k t :
  wf t ->
  match lookup_label k t with
  | LFound c => find_label k (flatten_forks t) = FFound c
  | LUnknown => find_label k (flatten_forks t) = FUnknown
  | _ => find_label k (flatten_forks t) = FAbsent
  end.
Proof.
  intro W. destruct (fork_child_ok t) eqn:O.
  - generalize (lookup_label_flat k t W O) (flatten_nonempty t W O). cbv zeta. intros A N.
    assert (S := wf_sorted t W). rewrite <- flatten_labels in S.
    unfold find_label. rewrite lastlt_rev. fold (hdgt k (flatten_forks t)).
    destruct (lookup_label k t) as [ | | | | c].
    + rewrite first_child_none by (apply adjacent_notin; assumption). rewrite A. reflexivity.
    + destruct A as (A1 & A2 & A3 & A4). rewrite A1, A4, A2, A3.
      destruct t; simpl in *; try reflexivity; try congruence.
      destruct (flatten_forks t1 ++ flatten_forks t2) as [|[] [|? ?]] eqn:Z; try reflexivity; try congruence.
      exfalso. destruct W as (W1 & W2 & O1 & O2 & _).
      assert (N1 := flatten_nonempty _ W1 O1). assert (N2 := flatten_nonempty _ W2 O2).
      destruct (flatten_forks t1) as [|? [|? ?]]; try congruence; destruct (flatten_forks t2); simpl in Z; congruence.
    + assert (G := hdgt_all k _ S A).
      rewrite first_child_none by (intro I; exact (blt_irrefl _ (G _ I))).
      destruct (adjacent k (flatten_forks t)); [reflexivity|]. rewrite A. reflexivity.
    + assert (G := lastlt_all k _ S A).
      rewrite first_child_none by (intro I; exact (blt_irrefl _ (G _ I))).
      destruct (adjacent k (flatten_forks t)); [reflexivity|].
      destruct (hdgt k (flatten_forks t)); [reflexivity|]. rewrite A. reflexivity.
    + rewrite A. reflexivity.
  - destruct t; simpl in O; try congruence; reflexivity.
Qed.

Lemma lookup_path_spec p t : wf t -> lookup_path p t = spec_lookup p t.
Proof.
  revert t. induction p as [|k p IH]; intros t W; simpl.
  - destruct t; reflexivity.
  - generalize (lookup_label_find k t W).
    destruct (lookup_label k t) as [ | | | | c] eqn:E; intros ->; auto.
    apply IH. eapply child_at_wf; [exact W|]. apply lookup_label_found_child; exact E.
Qed.

(** Found exactly the children, also in the presence of pruned nodes. *)
Lemma first_child_child_at k t c :
  wf t -> child_at k t c -> first_child k (flatten_forks t) = Some c.
Proof.
  intros W C. induction C as [k t|k l r t C IH|k l r t C IH]; simpl.
  - rewrite bytes_eqb_refl. reflexivity.
  - simpl in W. rewrite first_child_app, IH by tauto. reflexivity.
  - simpl in W. destruct W as (Wl & Wr & _ & _ & S). rewrite first_child_app, IH by tauto.
    rewrite first_child_none; [reflexivity|]. rewrite flatten_labels.
    intro I. apply (blt_irrefl k). apply S; [exact I|]. eapply child_at_labels; eauto.
Qed.
Lemma lookup_label_child_iff k t c :
  wf t -> (lookup_label k t = LFound c <-> child_at k t c).
Proof.
  intro W. split; [apply lookup_label_found_child|].
  intro C. assert (E := first_child_child_at k t c W C).
  generalize (lookup_label_find k t W). unfold find_label. rewrite E.
  destruct (lookup_label k t); congruence.
Qed.
Lemma lookup_path_at_iff p t v :
  wf t -> (lookup_path p t = Found v <-> at_path p t (HLeaf v)).
Proof.
  revert t. induction p as [|k p IH]; intros t W; simpl.
  - split.
    + destruct t; try congruence. intro E; injection E as ->. constructor.
    + inversion 1; reflexivity.
  - split.
    + destruct (lookup_label k t) eqn:E; try congruence. intro F.
      apply lookup_label_found_child in E.
      econstructor; [exact E|]. apply IH; [|exact F]. eapply child_at_wf; eauto.
    + intro A. inversion A as [|? ? ? c ? C B]; subst.
      assert (E := C). apply (lookup_label_child_iff k t c W) in E. rewrite E.
      apply IH; auto. eapply child_at_wf; eauto.
Qed.

(** ** list_paths *)
Lemma list_paths_from_map pre t :
  list_paths_from pre t = map (app pre) (list_paths t).
Proof.
  unfold list_paths. revert pre.
  induction t as [ | l IHl r IHr | x t IH | v | h]; simpl; intro pre; auto.
  - rewrite IHl, IHr, map_app. reflexivity.
  - rewrite IH, (IH [x]). rewrite map_map. apply map_ext. intro p. rewrite <- app_assoc. reflexivity.
  - rewrite app_nil_r. reflexivity.
Qed.
Lemma list_paths_labeled x t : list_paths (HLabeled x t) = map (cons x) (list_paths t).
Proof. unfold list_paths at 1. simpl. rewrite list_paths_from_map. reflexivity. Qed.

Lemma list_paths_in p t :
  wf t -> (In p (list_paths t) <-> exists v, at_path p t (HLeaf v)).
Proof.
  revert p. induction t as [ | l IHl r IHr | x t IH | v | h]; intros p W.
  - simpl. split; [tauto|]. intros [v A]. inversion A as [|? ? ? c ? C B]; subst. inversion C.
  - unfold list_paths. simpl. fold (list_paths l) (list_paths r).
    simpl in W. destruct W as (Wl & Wr & Ol & Or & S).
    rewrite in_app_iff, IHl, IHr by assumption. split.
    + intros [[v A]|[v A]]; exists v; inversion A; subst; try discriminate.
      * econstructor; [apply ChLeft; eassumption|assumption].
      * econstructor; [apply ChRight; eassumption|assumption].
    + intros [v A]. inversion A as [|? ? ? c ? C0 B]; subst. apply child_at_fork in C0. destruct C0 as [C|C].
      * left. exists v. econstructor; eauto.
      * right. exists v. econstructor; eauto.
  - rewrite list_paths_labeled, in_map_iff. simpl in W. split.
    + intros (q & <- & I). apply IH in I; auto. destruct I as [v A]. exists v.
      econstructor; [constructor|exact A].
    + intros [v A]. inversion A as [|? ? ? c ? C0 B]; subst. apply child_at_labeled in C0. destruct C0 as [-> ->].
      eexists; split; [reflexivity|]. apply IH; auto. exists v; assumption.
  - unfold list_paths. simpl. split.
    + intros [<-|[]]. exists v. constructor.
    + intros [v' A]. inversion A as [|? ? ? c ? C B]; subst; auto. inversion C.
  - simpl. split; [tauto|]. intros [v A]. inversion A as [|? ? ? c ? C B]; subst. inversion C.
Qed.

Lemma NoDup_app_disj {A} (l r : list A) :
  NoDup l -> NoDup r -> (forall x, In x l -> In x r -> False) -> NoDup (l ++ r).
Proof.
  induction l as [|x l IH]; simpl; auto.
  intros N M D. inversion N; subst. constructor.
  - intro I. apply in_app_or in I. destruct I; [auto|eapply D; eauto].
  - apply IH; auto. intros; eapply D; eauto.
Qed.

Lemma list_paths_nodup t : wf t -> NoDup (list_paths t).
Proof.
  induction t as [ | l IHl r IHr | x t IH | v | h]; intro W.
  - constructor.
  - unfold list_paths. simpl. fold (list_paths l) (list_paths r).
    simpl in W. destruct W as (Wl & Wr & Ol & Or & S).
    apply NoDup_app_disj; auto.
    intros p Il Ir. apply list_paths_in in Il; auto. apply list_paths_in in Ir; auto.
    destruct Il as [v A], Ir as [v' B]. destruct A as [|k p t c s C A]; inversion B; subst.
    + discriminate.
    + apply (blt_irrefl k). apply S; eapply child_at_labels; eauto.
  - rewrite list_paths_labeled. simpl in W.
    assert (N := IH W). induction N; simpl; constructor; auto.
    intro I. apply in_map_iff in I. destruct I as (y & E & I). injection E as ->. contradiction.
  - unfold list_paths. simpl. constructor; [tauto|constructor].
  - constructor.
Qed.
