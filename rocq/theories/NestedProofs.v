From Coq Require Import List NArith Bool Lia Sorted.
From Verif Require Import Bytes HashTree HashTreeSpec HashTreeProofs HashTreeSpecProofs RbTree RbShape RbContent RbHash RbWitness RbBounds Nested NestedSpec.
Import ListNotations.

(** ** Merging *)
Section Merge.
  Variable H : bytes -> bytes.
  Lemma prunes_pruned_inv t h : prunes H t (HPruned h) -> h = digest H t.
  Proof. inversion 1; reflexivity. Qed.
  Lemma merge_pl h r : (forall h', r <> HPruned h') -> merge (HPruned h) r = Some r.
  Proof. destruct r; simpl; try reflexivity. intro X. exfalso. eapply X; reflexivity. Qed.
  Lemma merge_pr l h : (forall h', l <> HPruned h') -> merge l (HPruned h) = Some l.
  Proof. destruct l; simpl; try reflexivity. intro X. exfalso. eapply X; reflexivity. Qed.

  Lemma merge_prunes t a b : prunes H t a -> prunes H t b ->
    exists m, merge a b = Some m /\ prunes H t m /\ prunes H m a /\ prunes H m b.
  Proof.
    intro Pa. revert b. induction Pa as [ | v | h | l r l' r' Pl IHl Pr IHr | x t t' P IH | t]; intros b Pb.
    - inversion Pb; subst; (eexists; split; [reflexivity|]); repeat split; constructor.
    - inversion Pb; subst; simpl; rewrite ?bytes_eqb_refl; (eexists; split; [reflexivity|]); repeat split; constructor.
    - inversion Pb; subst; simpl; rewrite ?bytes_eqb_refl; (eexists; split; [reflexivity|]); repeat split; constructor.
    - inversion Pb as [ | | | ? ? bl br Q1 Q2 | | ]; subst.
      + destruct (IHl _ Q1) as (ml & El & A1 & A2 & A3). destruct (IHr _ Q2) as (mr & Er & B1 & B2 & B3).
        exists (HFork ml mr). simpl. rewrite El. cbn [obind]. rewrite Er. cbn [obind].
        split; [reflexivity|]. repeat split; constructor; assumption.
      + exists (HFork l' r'). split; [reflexivity|]. split; [constructor; assumption|]. split; [apply prunes_refl|].
        replace (digest H (HFork l r)) with (digest H (HFork l' r')); [apply PrPruned|].
        simpl. rewrite (prunes_digest _ _ _ Pl), (prunes_digest _ _ _ Pr). reflexivity.
    - inversion Pb as [ | | | | ? ? b' Q | ]; subst.
      + destruct (IH _ Q) as (m & E1 & A1 & A2 & A3).
        exists (HLabeled x m). simpl. rewrite bytes_eqb_refl, E1. cbn [obind].
        split; [reflexivity|]. repeat split; constructor; assumption.
      + exists (HLabeled x t'). split; [reflexivity|]. split; [constructor; assumption|]. split; [apply prunes_refl|].
        replace (digest H (HLabeled x t)) with (digest H (HLabeled x t')); [apply PrPruned|].
        simpl. rewrite (prunes_digest _ _ _ P). reflexivity.
    - assert (D := prunes_digest _ _ _ Pb).
      assert (C : (exists h, b = HPruned h) \/ (forall h, b <> HPruned h)) by (destruct b; eauto; right; discriminate).
      destruct C as [[h ->]|C].
      + simpl in D. subst h. exists (HPruned (digest H t)). simpl. rewrite bytes_eqb_refl.
        split; [reflexivity|]. repeat split; try apply PrPruned; apply PrSame.
      + exists b. rewrite merge_pl by exact C. split; [reflexivity|]. split; [exact Pb|]. split; [|apply prunes_refl].
        rewrite <- D. apply PrPruned.
  Qed.
End Merge.

(** ** Lookups are monotone in the amount shown (also on partially pruned trees) *)
Section Mono.
  Variable H : bytes -> bytes.

  Lemma ll_less_ex k t : lookup_label k t = LLess -> exists a, In a (labels t) /\ blt k a.
  Proof.
    induction t as [ | l IHl r IHr | x t IH | v | h]; simpl; try discriminate.
    - destruct (lookup_label k l) eqn:El; try discriminate.
      + destruct (lookup_label k r); discriminate.
      + intros _. destruct (IHl eq_refl) as (a & I & L). exists a. split; auto. apply in_or_app; auto.
      + destruct (lookup_label k r) eqn:Er; discriminate.
    - destruct (bcmp_spec k x) as [C|C|C]; try discriminate. intros _. exists x; auto.
  Qed.
  Lemma ll_greater_ex k t : lookup_label k t = LGreater -> exists a, In a (labels t) /\ blt a k.
  Proof.
    induction t as [ | l IHl r IHr | x t IH | v | h]; simpl; try discriminate.
    - destruct (lookup_label k l) eqn:El; try discriminate;
      destruct (lookup_label k r) eqn:Er; try discriminate; intros _;
      destruct (IHr eq_refl) as (a & I & L); exists a; split; auto; apply in_or_app; auto.
    - destruct (bcmp_spec k x) as [C|C|C]; try discriminate. intros _. exists x; auto.
  Qed.
  Lemma ll_absent_ex k t : wf t -> fork_child_ok t = true -> lookup_label k t = LAbsent ->
    (exists a, In a (labels t) /\ blt a k) /\ (exists a, In a (labels t) /\ blt k a).
  Proof.
    intros W O E. generalize (lookup_label_flat k t W O). rewrite E. cbv zeta. intro A.
    apply adjacent_ex in A. rewrite flatten_labels in A. exact A.
  Qed.

  Definition ll_le (m a : llr) : Prop :=
    match a with
    | LUnknown => True
    | LFound c => exists c', m = LFound c' /\ prunes H c' c
    | r => m = r
    end.

  Lemma lookup_label_mono k m a : prunes H m a -> wf m -> ll_le (lookup_label k m) (lookup_label k a).
  Proof.
    intro P. assert (P0 := P). induction P as [ | v | h | l r l' r' Pl IHl Pr IHr | x t t' P IH | t]; intro W.
    - simpl. auto.
    - simpl; auto.
    - simpl; auto.
    - destruct (lookup_label k (HFork l' r')) as [ | | | | c] eqn:Ea; simpl; auto.
      4:{ apply lookup_label_found_child in Ea.
          destruct (prunes_child_at _ _ _ _ _ P0 Ea) as (c' & C' & Q). exists c'. split; [|exact Q].
          exact (proj2 (lookup_label_child_iff k (HFork l r) c' W) C'). }
      all: destruct W as (Wl & Wr & Ol & Or & S); specialize (IHl Pl Wl); specialize (IHr Pr Wr).
      all: simpl in Ea.
      all: destruct (lookup_label k l') as [ | | | | c0] eqn:El; try discriminate; simpl in IHl; try (rewrite IHl; reflexivity).
      all: try (rewrite IHl).
      all: destruct (lookup_label k r') as [ | | | | c1] eqn:Er; try discriminate; simpl in IHr; try (rewrite IHr; reflexivity).
      all: rewrite IHr.
      all: assert (LT : exists b, In b (labels r) /\ blt b k) by
        (first [apply ll_greater_ex; exact IHr | apply (ll_absent_ex k r Wr Or IHr)]);
        destruct LT as (b & Ib & Lb).
      all: assert (NG : forall a0, In a0 (labels l) -> blt a0 k) by
        (intros a0 Ia; eapply blt_trans; [apply S; [exact Ia|exact Ib]|exact Lb]).
      all: destruct (lookup_label k l) as [ | | | | c2] eqn:Em; try reflexivity; exfalso.
      all: try (apply ll_less_ex in Em; destruct Em as (a0 & Ia & La); exact (blt_asym _ _ La (NG _ Ia))).
      all: try (apply lookup_label_found_child, child_at_labels in Em; exact (blt_irr _ (NG _ Em))).
      all: try (destruct (ll_absent_ex k l Wl Ol Em) as [_ (a0 & Ia & La)]; exact (blt_asym _ _ La (NG _ Ia))).
    - cbn [lookup_label]. destruct (bcmp k x); simpl; auto. exists t; auto.
    - simpl; auto.
  Qed.

  Lemma lookup_path_mono p m a : prunes H m a -> wf m ->
    match lookup_path p a with
    | Unknown => True
    | r => lookup_path p m = r
    end.
  Proof.
    revert m a. induction p as [|k p IH]; intros m a P W; cbn [lookup_path].
    - inversion P; subst; auto.
    - generalize (lookup_label_mono k m a P W).
      destruct (lookup_label k a) as [ | | | | c]; simpl; intro L; try (rewrite L; reflexivity); auto.
      destruct L as (c' & L & Q). rewrite L. apply IH; [exact Q|].
      apply lookup_label_found_child in L. eapply child_at_wf; eauto.
  Qed.
  Lemma lookup_subtree_mono p m a : prunes H m a -> wf m ->
    match lookup_subtree p a with
    | SUnknown => True
    | SAbsent => lookup_subtree p m = SAbsent
    | SFound c => exists c', lookup_subtree p m = SFound c' /\ prunes H c' c
    end.
  Proof.
    revert m a. induction p as [|k p IH]; intros m a P W; cbn [lookup_subtree].
    - exists m; auto.
    - generalize (lookup_label_mono k m a P W).
      destruct (lookup_label k a) as [ | | | | c]; simpl; intro L; try (rewrite L; reflexivity); auto.
      destruct L as (c' & L & Q). rewrite L. apply IH; [exact Q|].
      apply lookup_label_found_child in L. eapply child_at_wf; eauto.
  Qed.
End Mono.

(** ** Nested trees *)
Section NInd.
  Variable P : ntree -> Prop.
  Hypothesis Pleaf : forall v, P (NLeaf v).
  Hypothesis Pnest : forall tr, allv ntree (fun _ c => P c) tr -> P (NNested tr).
  Fixpoint ntree_ind' (t : ntree) : P t :=
    match t with
    | NLeaf v => Pleaf v
    | NNested tr => Pnest tr
        ((fix go (tr : rb ntree) : allv ntree (fun _ c => P c) tr :=
            match tr with
            | E => I
            | T _ l _ c r _ => conj (go l) (conj (ntree_ind' c) (go r))
            end) tr)
    end.
End NInd.

Section NestedOk.
  Variable H : bytes -> bytes.
  Notation nhash := (nhash H).
  Notation nhtree := (nhtree H).
  Notation good := (good ntree).
  Notation hok := (hok H ntree nhash).
  Notation elems := (elems ntree).
  Notation get := (get ntree).

  (** the invariant of reachable nested trees *)
  Inductive nok : ntree -> Prop :=
  | OkLeaf v : nok (NLeaf v)
  | OkNest tr : good tr -> hok tr -> (forall k c, In (k, c) (elems tr) -> nok c) -> nok (NNested tr).
  (** no empty subtree below the root *)
  Inductive noempty : ntree -> Prop :=
  | NeLeaf v : noempty (NLeaf v)
  | NeNest tr : (forall k c, In (k, c) (elems tr) -> noempty c /\ c <> ndefault) -> noempty (NNested tr).

  Lemma allv_in (P : ntree -> Prop) tr : allv ntree (fun _ c => P c) tr <-> (forall k c, In (k, c) (elems tr) -> P c).
  Proof.
    rewrite allv_elems, Forall_forall. split.
    - intros X k c I. exact (X (k, c) I).
    - intros X [k c] I. exact (X k c I).
  Qed.

  Lemma nhtree_nested tr : nhtree (NNested tr) = as_hash_tree H ntree nhtree tr.
  Proof. reflexivity. Qed.

  Lemma nok_tree t : nok t ->
    nhash t = digest H (nhtree t) /\ wf (nhtree t) /\ full (nhtree t) = true.
  Proof.
    induction t as [v|tr IH] using ntree_ind'; intro K; [simpl; auto|].
    inversion K as [|? G Hk C]; subst. destruct G as [S _].
    assert (A : allv ntree (fun _ c => nhash c = digest H (nhtree c) /\ wf (nhtree c) /\ full (nhtree c) = true) tr).
    { rewrite allv_in in IH. apply allv_in. intros k c I. apply (IH k c I). eapply C; eauto. }
    rewrite nhtree_nested. split; [|split].
    - apply (root_hash_digest_loc H ntree nhash nhtree tr Hk). apply allv_elems. apply allv_elems in A.
      eapply Forall_impl; [|exact A]. simpl. unfold vok. tauto.
    - apply wf_full; [exact S|]. apply allv_elems. apply allv_elems in A. eapply Forall_impl; [|exact A]. simpl. tauto.
    - apply full_full. apply allv_elems. apply allv_elems in A. eapply Forall_impl; [|exact A]. simpl. tauto.
  Qed.

  Lemma nok_tree_ok tr : nok (NNested tr) -> tree_ok H ntree nhash nhtree tr.
  Proof.
    intro K. inversion K as [|? G Hk C]; subst. split; [apply G|]. split; [exact Hk|].
    apply allv_in. intros k c I. destruct (nok_tree c (C k c I)) as (A & B & _). split; assumption.
  Qed.
  Lemma get_in tr k c : good tr -> get k tr = Some c -> In (k, c) (elems tr).
  Proof. intros [S _] G. rewrite get_elems in G by exact S. apply aget_in; exact G. Qed.
  Lemma in_get tr k c : good tr -> In (k, c) (elems tr) -> get k tr = Some c.
  Proof. intros [S _] I. rewrite get_elems by exact S. apply aget_some_iff; assumption. Qed.
  Lemma nok_get tr k c : nok (NNested tr) -> get k tr = Some c -> nok c.
  Proof. intros K G. inversion K; subst. eauto using get_in. Qed.

  (** one step on a map: good, hashes, lookups *)
  Lemma ins_ok tr k c : good tr -> hok tr -> exists tr', insert H ntree nhash k c tr = Some tr' /\
    good tr' /\ hok tr' /\ forall x, get x tr' = if bytes_eqb x k then Some c else get x tr.
  Proof.
    intros G Hk. destruct (step_good H ntree nhash (OpInsert _ k c) tr G) as (tr' & E1 & G' & Q).
    exists tr'. split; [exact E1|]. split; [exact G'|]. split; [eapply (step_hok H ntree nhash nhtree (OpInsert _ k c)); eauto|].
    intro x. rewrite get_elems by apply G'. rewrite Q. cbn [spec_step]. rewrite aget_ains by apply G.
    rewrite get_elems by apply G. reflexivity.
  Qed.
  Lemma mod_ok tr k f : good tr -> hok tr ->
    let tr' := modify H ntree nhash k f tr in
    good tr' /\ hok tr' /\ forall x, get x tr' = if bytes_eqb x k then option_map f (get x tr) else get x tr.
  Proof.
    intros G Hk. destruct (step_good H ntree nhash (OpModify _ k f) tr G) as (tr' & E1 & G' & Q).
    cbn [step] in E1. injection E1 as <-.
    split; [exact G'|]. split; [eapply (step_hok H ntree nhash nhtree (OpModify _ k f)); eauto; reflexivity|].
    intro x. rewrite get_elems by apply G'. rewrite Q. cbn [spec_step]. rewrite aget_amod.
    rewrite get_elems by apply G. reflexivity.
  Qed.
  Lemma del_ok tr k : good tr -> hok tr -> exists tr', delete H ntree nhash k tr = Some tr' /\
    good tr' /\ hok tr' /\ forall x, get x tr' = if bytes_eqb x k then None else get x tr.
  Proof.
    intros G Hk. destruct (step_good H ntree nhash (OpDelete _ k) tr G) as (tr' & E1 & G' & Q).
    exists tr'. split; [exact E1|]. split; [exact G'|]. split; [eapply (step_hok H ntree nhash nhtree (OpDelete _ k)); eauto|].
    intro x. rewrite get_elems by apply G'. rewrite Q. cbn [spec_step]. rewrite aget_adel.
    rewrite get_elems by apply G. reflexivity.
  Qed.
  Lemma nok_intro tr : good tr -> hok tr -> (forall k c, get k tr = Some c -> nok c) -> nok (NNested tr).
  Proof. intros G Hk X. constructor; auto. intros k c I. eapply X, in_get; eauto. Qed.
  Lemma noempty_intro tr : good tr -> (forall k c, get k tr = Some c -> noempty c /\ c <> ndefault) -> noempty (NNested tr).
  Proof. intros G X. constructor. intros k c I. eapply X, in_get; eauto. Qed.
  Lemma noempty_get tr k c : good tr -> noempty (NNested tr) -> get k tr = Some c -> noempty c /\ c <> ndefault.
  Proof. intros G N E1. inversion N; subst. eauto using get_in. Qed.
  Lemma nok_E : nok ndefault.
  Proof. constructor; [apply good_E|simpl; auto|simpl; tauto]. Qed.
  Lemma noempty_E : noempty ndefault.
  Proof. constructor. simpl. tauto. Qed.

  (** specification maps *)
  Fixpoint pprefix (p q : path) : bool :=
    match p, q with
    | [], _ => true
    | x :: p, y :: q => bytes_eqb x y && pprefix p q
    | _ :: _, [] => false
    end.
  Lemma pprefix_spec p q : pprefix p q = true <-> is_prefix p q.
  Proof.
    revert q. induction p as [|x p IH]; intros q; simpl.
    - split; auto. exists q; reflexivity.
    - destruct q as [|y q]; [split; [discriminate|intros [r X]; discriminate]|].
      rewrite andb_true_iff, bytes_eqb_eq, IH. split.
      + intros [-> [r ->]]. exists r; reflexivity.
      + intros [r X]. injection X as -> ->. split; auto. exists r; reflexivity.
  Qed.
  Fixpoint peqb (p q : path) : bool :=
    match p, q with
    | [], [] => true
    | x :: p, y :: q => bytes_eqb x y && peqb p q
    | _, _ => false
    end.
  Lemma peqb_spec p q : peqb p q = true <-> p = q.
  Proof.
    revert q. induction p as [|x p IH]; intros [|y q]; simpl; try (split; congruence).
    rewrite andb_true_iff, bytes_eqb_eq, IH. split; [intros [-> ->]|intro X; injection X]; auto.
  Qed.

  Lemma ninsert_ok p v : forall t, nok t ->
    exists t', ninsert H p v t = Some t' /\ nok t' /\
      (forall q, nget q t' = if peqb p q then Some v else if pprefix p q || pprefix q p then None else nget q t) /\
      (noempty t -> noempty t') /\ t' <> ndefault.
  Proof.
    induction p as [|key rest IH]; intros t K.
    - exists (NLeaf v). split; [reflexivity|]. split; [constructor|]. split; [|split; [constructor|discriminate]].
      intros [|y q]; reflexivity.
    - set (tr := match t with NLeaf _ => E | NNested tr => tr end).
      assert (Ktr : nok (NNested tr)) by (destruct t; [apply nok_E|exact K]).
      assert (Etr : forall x q, nget (x :: q) t = nget (x :: q) (NNested tr)) by (intros; destruct t; reflexivity).
      assert (Ntr : noempty t -> noempty (NNested tr)) by (destruct t; [intros; apply noempty_E|auto]).
      assert (Gtr : good tr) by (inversion Ktr; assumption). assert (Htr : hok tr) by (inversion Ktr; assumption).
      (* the child [c0] that the recursive call works on *)
      assert (X : exists tr1 c0, (match get key tr with Some _ => Some tr | None => insert H ntree nhash key ndefault tr end) = Some tr1 /\
        good tr1 /\ hok tr1 /\ get key tr1 = Some c0 /\ nok c0 /\
        (forall x, x <> key -> get x tr1 = get x tr) /\
        (forall q, nget q c0 = nget (key :: q) (NNested tr)) /\
        (noempty (NNested tr) -> noempty c0)).
      { destruct (get key tr) as [c0|] eqn:G0.
        - exists tr, c0. repeat split; auto; try apply Gtr.
          + eapply nok_get; eauto.
          + intro q. simpl. rewrite G0. reflexivity.
          + intro N. eapply noempty_get; eauto.
        - destruct (ins_ok tr key ndefault Gtr Htr) as (tr1 & E1 & G1 & H1 & L1).
          exists tr1, ndefault. split; [exact E1|]. split; [exact G1|]. split; [exact H1|].
          split; [rewrite L1, bytes_eqb_refl; reflexivity|]. split; [apply nok_E|]. split; [|split].
          + intros x N. rewrite L1. rewrite (proj2 (bytes_eqb_neq x key) N). reflexivity.
          + intro q. simpl. rewrite G0. destruct q; reflexivity.
          + intros; apply noempty_E. }
      destruct X as (tr1 & c0 & E1 & G1 & H1 & Gk & K0 & L1 & L0 & N0).
      destruct (IH c0 K0) as (c' & E2 & K2 & L2 & N2 & D2).
      destruct (mod_ok tr1 key (fun _ => c') G1 H1) as (G3 & H3 & L3).
      exists (NNested (modify H ntree nhash key (fun _ => c') tr1)).
      split. { cbn [ninsert]. fold tr. rewrite E1. cbn [obind]. rewrite Gk, E2. reflexivity. }
      assert (Kids : forall x, get x (modify H ntree nhash key (fun _ => c') tr1) =
        if bytes_eqb x key then Some c' else get x tr).
      { intro x. rewrite L3. destruct (bytes_eqb_spec x key) as [->|N]; [rewrite Gk; reflexivity|apply L1; exact N]. }
      split; [|split; [|split]].
      + apply nok_intro; auto. intros k c. rewrite Kids. destruct (bytes_eqb k key); [congruence|].
        intro G. exact (nok_get tr _ _ Ktr G).
      + intros [|x q]; [reflexivity|]. rewrite Etr. cbn [nget peqb pprefix]. rewrite Kids.
        rewrite (bytes_eqb_sym key x). destruct (bytes_eqb_spec x key) as [->|N]; cbn [andb orb].
        * rewrite L2, L0. reflexivity.
        * simpl. reflexivity.
      + intro N. specialize (Ntr N). apply noempty_intro; auto. intros k c. rewrite Kids. destruct (bytes_eqb k key).
        * intro Y; injection Y as <-. auto.
        * intro G. exact (noempty_get tr _ _ Gtr Ntr G).
      + intro Y. injection Y as Y. specialize (Kids key). rewrite Y, bytes_eqb_refl in Kids. discriminate.
  Qed.

  Lemma ndelete_ok p : forall t, nok t ->
    exists t', ndelete H p t = Some t' /\ nok t' /\
      (forall q, nget q t' = if pprefix p q then None else nget q t) /\
      (noempty t -> noempty t').
  Proof.
    induction p as [|key rest IH]; intros t K.
    - exists ndefault. split; [reflexivity|]. split; [apply nok_E|]. split; [|intros; apply noempty_E].
      intros [|y q]; reflexivity.
    - destruct t as [v|tr].
      { exists (NLeaf v). split; [reflexivity|]. split; [exact K|]. split; [|auto].
        intros [|y q]; [reflexivity|]. simpl. destruct (_ && _); reflexivity. }
      assert (Gtr : good tr) by (inversion K; assumption). assert (Htr : hok tr) by (inversion K; assumption).
      cbn [ndelete]. destruct (get key tr) as [c0|] eqn:G0.
      + destruct (IH c0 (nok_get _ _ _ K G0)) as (c' & E2 & K2 & L2 & N2). rewrite E2. cbn [obind].
        destruct (mod_ok tr key (fun _ => c') Gtr Htr) as (G3 & H3 & L3).
        set (tr1 := modify H ntree nhash key (fun _ => c') tr) in *.
        assert (Kids : forall x, get x tr1 = if bytes_eqb x key then Some c' else get x tr).
        { intro x. rewrite L3. destruct (bytes_eqb_spec x key) as [->|N]; [rewrite G0; reflexivity|reflexivity]. }
        assert (Hit : forall q, nget q c' = if pprefix rest q then None else nget (key :: q) (NNested tr)).
        { intro q. rewrite L2. simpl. rewrite G0. reflexivity. }
        assert (KN : nok (NNested tr1)).
        { apply nok_intro; auto. intros k c. rewrite Kids. destruct (bytes_eqb k key); [congruence|]. intro G. exact (nok_get tr _ _ K G). }
        assert (Look : forall q, nget q (NNested tr1) = if pprefix (key :: rest) q then None else nget q (NNested tr)).
        { intros [|x q]; [reflexivity|]. cbn [nget pprefix]. rewrite Kids, (bytes_eqb_sym key x).
          destruct (bytes_eqb_spec x key) as [->|N]; cbn [andb]; [rewrite Hit; reflexivity|reflexivity]. }
        assert (Gc : get key tr1 = Some c') by (rewrite Kids, bytes_eqb_refl; reflexivity). rewrite Gc.
        assert (Keep : c' <> ndefault -> noempty (NNested tr) -> noempty (NNested tr1)).
        { intros D N. apply noempty_intro; auto. intros k c. rewrite Kids. destruct (bytes_eqb k key).
          - intro Y; injection Y as <-. split; auto. apply N2. exact (proj1 (noempty_get tr _ _ Gtr N G0)).
          - intro G. exact (noempty_get tr _ _ Gtr N G). }
        destruct c' as [v'|sub].
        * exists (NNested tr1). split; [reflexivity|]. split; [exact KN|]. split; [exact Look|]. apply Keep; discriminate.
        * destruct sub as [|sc sl sk sv sr sh].
          -- cbn [is_empty]. destruct (del_ok tr1 key G3 H3) as (tr2 & E4 & G4 & H4 & L4). rewrite E4. cbn [obind].
             exists (NNested tr2). split; [reflexivity|].
             assert (Kids2 : forall x, get x tr2 = if bytes_eqb x key then None else get x tr).
             { intro x. rewrite L4, Kids. destruct (bytes_eqb x key); reflexivity. }
             split; [|split].
             ++ apply nok_intro; auto. intros k c. rewrite Kids2. destruct (bytes_eqb k key); [congruence|]. intro G. exact (nok_get tr _ _ K G).
             ++ intros [|x q]; [reflexivity|]. cbn [nget pprefix]. rewrite Kids2, (bytes_eqb_sym key x).
                destruct (bytes_eqb_spec x key) as [->|N]; cbn [andb]; [|reflexivity].
                specialize (Hit q). simpl in Hit. destruct (pprefix rest q); [reflexivity|].
                rewrite <- Hit. destruct q; reflexivity.
             ++ intro N. apply noempty_intro; auto. intros k c. rewrite Kids2. destruct (bytes_eqb k key); [congruence|].
                intro G. exact (noempty_get tr _ _ Gtr N G).
          -- cbn [is_empty]. eexists. split; [reflexivity|]. split; [exact KN|]. split; [exact Look|].
             apply Keep; discriminate.
      + cbn [obind]. rewrite G0. exists (NNested tr). split; [reflexivity|]. split; [exact K|]. split; [|auto].
        intros [|x q]; [reflexivity|]. cbn [nget pprefix]. rewrite (bytes_eqb_sym key x).
        destruct (bytes_eqb_spec x key) as [->|N]; cbn [andb]; [|reflexivity]. rewrite G0. destruct (pprefix rest q); reflexivity.
  Qed.

  Lemma nrun_app a b t : nrun H (a ++ b) t = obind (nrun H a t) (nrun H b).
  Proof.
    revert t. induction a as [|o a IH]; intro t; [reflexivity|]. simpl.
    destruct (nstep H t o); [apply IH|reflexivity].
  Qed.

  Lemma holds_snoc_inv ops o q w : holds (ops ++ [o]) q w ->
    match o with
    | NInsert p v => (q = p /\ w = v) \/ (holds ops q w /\ ~ is_prefix p q /\ ~ is_prefix q p)
    | NDelete p => holds ops q w /\ ~ is_prefix p q
    | NClear => False
    end.
  Proof.
    intro X. remember (ops ++ [o]) as l eqn:Q.
    destruct X as [ops' p' v'|ops' p' v' q' w' Ho A B|ops' p' q' w' Ho A];
    apply app_inj_tail in Q; destruct Q as [-> <-]; auto.
  Qed.

  Lemma nrun_ok ops :
    exists t, nrun H ops ndefault = Some t /\ nok t /\ noempty t /\
      (forall q v, nget q t = Some v <-> holds ops q v).
  Proof.
    induction ops as [|o ops IH] using rev_ind.
    - exists ndefault. split; [reflexivity|]. split; [apply nok_E|]. split; [apply noempty_E|].
      intros q v. split; [destruct q; discriminate|]. intro X; inversion X; destruct ops; discriminate.
    - destruct IH as (t & E1 & K & N & L). destruct o as [p v|p|].
      + destruct (ninsert_ok p v t K) as (t' & E2 & K2 & L2 & N2 & _). exists t'.
        split; [rewrite nrun_app, E1; simpl; rewrite E2; reflexivity|]. split; [exact K2|]. split; [auto|].
        intros q w. rewrite L2. destruct (peqb p q) eqn:PQ.
        * apply peqb_spec in PQ. subst q. split.
          -- intro X; injection X as ->. constructor.
          -- intro X. apply holds_snoc_inv in X. destruct X as [[_ ->]|(_ & A & _)]; [reflexivity|].
             exfalso. apply A. exists []. rewrite app_nil_r. reflexivity.
        * assert (NE : q <> p) by (intros ->; rewrite (proj2 (peqb_spec p p) eq_refl) in PQ; discriminate).
          destruct (pprefix p q || pprefix q p) eqn:PP.
          -- split; [discriminate|]. intro X. apply holds_snoc_inv in X. exfalso.
             apply orb_true_iff in PP. rewrite !pprefix_spec in PP. tauto.
          -- apply orb_false_iff in PP. destruct PP as [P1 P2]. rewrite L. split.
             ++ intro X. apply HoldsIns; auto; rewrite <- pprefix_spec; congruence.
             ++ intro X. apply holds_snoc_inv in X. tauto.
      + destruct (ndelete_ok p t K) as (t' & E2 & K2 & L2 & N2). exists t'.
        split; [rewrite nrun_app, E1; simpl; rewrite E2; reflexivity|]. split; [exact K2|]. split; [auto|].
        intros q w. rewrite L2. destruct (pprefix p q) eqn:PP.
        * split; [discriminate|]. intro X. apply holds_snoc_inv in X. apply pprefix_spec in PP. tauto.
        * rewrite L. split.
          -- intro X. apply HoldsDel; auto. rewrite <- pprefix_spec. congruence.
          -- intro X. apply holds_snoc_inv in X. tauto.
      + exists ndefault. split; [rewrite nrun_app, E1; reflexivity|]. split; [apply nok_E|]. split; [apply noempty_E|].
        intros q v. split; [destruct q; discriminate|]. intro X. apply holds_snoc_inv in X. tauto.
  Qed.

  (** no empty subtrees: every path that exists leads to a leaf *)
  Lemma noempty_leaf t : nok t -> noempty t -> t <> ndefault -> exists q v, nget q t = Some v.
  Proof.
    induction t as [v|tr IH] using ntree_ind'; intros K N D; [exists [], v; reflexivity|].
    assert (Gtr : good tr) by (inversion K; assumption).
    destruct tr as [|c l k ch r h]; [contradiction D; reflexivity|].
    set (tr := T c l k ch r h) in *.
    assert (I : In (k, ch) (elems tr)) by (simpl; apply in_or_app; right; left; reflexivity).
    assert (G := in_get tr k ch Gtr I).
    rewrite allv_in in IH. destruct (noempty_get tr k ch Gtr N G) as [N1 D1].
    destruct (IH k ch I (nok_get _ _ _ K G) N1 D1) as (q & v & X).
    exists (k :: q), v. cbn [nget]. rewrite G. exact X.
  Qed.
  Lemma contains_path_leaf p t : nok t -> noempty t -> contains_path p t = true -> p <> [] ->
    exists q v, nget (p ++ q) t = Some v.
  Proof.
    revert t. induction p as [|k p IH]; intros t K N C D; [contradiction|].
    destruct t as [v|tr]; [discriminate|]. cbn [contains_path] in C.
    destruct (get k tr) as [c|] eqn:G; [|discriminate].
    assert (Gtr : good tr) by (inversion K; assumption).
    destruct (noempty_get tr k c Gtr N G) as [N1 D1]. assert (Kc := nok_get _ _ _ K G).
    cbn [app nget]. rewrite G. destruct p as [|k' p].
    - simpl. apply noempty_leaf; auto.
    - apply IH; auto. discriminate.
  Qed.
  Lemma contains_leaf_get p t : contains_leaf p t = match nget p t with Some _ => true | None => false end.
  Proof.
    revert t. induction p as [|k p IH]; intros [v|tr]; simpl; try reflexivity.
    destruct (get k tr); [apply IH|reflexivity].
  Qed.

  (** ** Witnesses *)
  Lemma nwitness_ok p : forall t, nok t ->
    exists w, nwitness H p t = Some w /\ prunes H (nhtree t) w /\ wf w /\
      match nget p t with
      | Some v => lookup_path p w = Found v
      | None => if contains_path p t then exists c, lookup_subtree p w = SFound (nhtree (NNested c))
                else lookup_path p w = Absent /\ lookup_subtree p w = SAbsent
      end /\
      (forall q v, lookup_path q w = Found v -> is_prefix p q \/ is_prefix q p).
  Proof.
    induction p as [|key rest IH]; intros t K.
    - exists (nhtree t). split; [reflexivity|]. split; [apply prunes_refl|]. split; [apply nok_tree; exact K|].
      split; [destruct t; simpl; [reflexivity|]; eexists; reflexivity|].
      intros q v _. left. exists q. reflexivity.
    - assert (Nil : forall q : path, is_prefix [] q) by (intro q; exists q; reflexivity).
      destruct t as [v|tr].
      { exists (HLeaf v). split; [reflexivity|]. split; [apply prunes_refl|]. split; [simpl; auto|].
        split; [simpl; auto|]. intros [|k q] v' X; [auto|discriminate]. }
      cbn [nwitness nget contains_path]. assert (TO := nok_tree_ok tr K).
      destruct (get key tr) as [c|] eqn:G.
      + destruct (IH c (nok_get _ _ _ K G)) as (w & E1 & P1 & W1 & L1 & O1). rewrite E1. cbn [obind].
        destruct (nested_witness_ok H ntree nhash nhtree (fun _ => w) key tr TO) as (w' & E2 & (P2 & _) & W2 & L2).
        { intros c0 G0. rewrite G in G0. injection G0 as <-. exact P1. }
        rewrite G in L2. destruct L2 as [L2 L3].
        exists w'. split; [exact E2|]. split; [exact P2|]. split; [exact W2|]. split.
        * cbn [lookup_path lookup_subtree]. rewrite L2. exact L1.
        * intros [|k q] v; [auto|]. cbn [lookup_path]. destruct (lookup_label k w') as [ | | | | c'] eqn:F; try discriminate.
          assert (k = key) by (apply lookup_label_found_child in F; exact (L3 _ _ F)). subst k.
          rewrite L2 in F. injection F as <-. intro X. destruct (O1 q v X) as [[r ->]|[r ->]].
          -- left. exists r. reflexivity.
          -- right. exists r. reflexivity.
      + destruct (nested_witness_ok H ntree nhash nhtree (fun _ => HEmpty) key tr TO) as (w' & E2 & (P2 & _) & W2 & L2).
        { intros c0 G0. rewrite G in G0. discriminate. }
        rewrite G in L2. destruct L2 as [L2 L3].
        exists w'. split; [exact E2|]. split; [exact P2|]. split; [exact W2|]. split.
        * cbn [lookup_path lookup_subtree]. destruct (lookup_label key w'); simpl in L2; try contradiction; auto.
        * intros [|k q] v; [auto|]. cbn [lookup_path]. destruct (lookup_label k w') as [ | | | | c'] eqn:F; try discriminate.
          apply lookup_label_found_child in F. destruct (L3 _ _ F) as [h ->]. destruct q; discriminate.
  Qed.
End NestedOk.
