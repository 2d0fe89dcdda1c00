(** Proofs about hash trees. *)
From Coq Require Import List NArith Bool Lia Arith.
From Verif Require Import Bytes HashTree HashTreeSpec.
Import ListNotations.

(** ** Digest, pruning and binding *)

Section Binding.
  Variable H : bytes -> bytes.

  Lemma prunes_refl t : prunes H t t.
  Proof. induction t; constructor; assumption. Qed.

  Lemma prunes_digest t w : prunes H t w -> digest H w = digest H t.
  Proof.
    induction 1; simpl; try reflexivity; congruence.
  Qed.

  Lemma prunes_trans a b c : prunes H a b -> prunes H b c -> prunes H a c.
  Proof.
    intros P. revert c. induction P as [ | v | h | l r l' r' P1 IH1 P2 IH2 | lbl t t' P IH | t]; intros c Q.
    - inversion Q; subst; constructor.
    - inversion Q; subst; constructor.
    - inversion Q; subst; constructor.
    - inversion Q; subst.
      + constructor; auto.
      + assert (E : digest H (HFork l' r') = digest H (HFork l r))
          by (apply prunes_digest; constructor; assumption).
        rewrite E. constructor.
    - inversion Q; subst.
      + constructor; auto.
      + assert (E : digest H (HLabeled lbl t') = digest H (HLabeled lbl t))
          by (apply prunes_digest; constructor; assumption).
        rewrite E. constructor.
    - inversion Q; subst; simpl; constructor.
  Qed.

  Hypothesis Hlen : forall x, length (H x) = 32.

  Lemma digest_len t : hashes32 t = true -> length (digest H t) = 32.
  Proof.
    destruct t; simpl; intro W; try apply Hlen. apply Nat.eqb_eq. exact W.
  Qed.

  Lemma prunes_hashes32 t w : prunes H t w -> hashes32 t = true -> hashes32 w = true.
  Proof.
    induction 1; simpl; auto.
    - rewrite !andb_true_iff. tauto.
    - intro W. apply Nat.eqb_eq. apply digest_len. exact W.
  Qed.

  Lemma full_hashes32 t : full t = true -> hashes32 t = true.
  Proof.
    induction t; simpl; auto; rewrite ?andb_true_iff; try tauto. congruence.
  Qed.

  Lemma collision_intro xs ys x y :
    In x xs -> In y ys -> H x = H y -> x <> y -> collision H xs ys.
  Proof. intros; exists x, y; auto. Qed.

  Lemma collision_mono xs ys xs' ys' :
    incl xs xs' -> incl ys ys' -> collision H xs ys -> collision H xs' ys'.
  Proof. intros I J (x & y & A & B & C & D). exists x, y; auto. Qed.

  (** Different node kinds hash different messages. *)
  Ltac sepdiff := let E := fresh in intro E; apply (f_equal (fun l => nth 0 l x00 :: skipn 13 (firstn 20 l))) in E; vm_compute in E; discriminate.

  Lemma sep_neq_ef a : sep_empty <> sep_fork ++ a. Proof. unfold sep_empty, sep_fork; cbv; discriminate. Qed.
  Lemma sep_neq_el a : sep_empty <> sep_labeled ++ a. Proof. unfold sep_empty, sep_fork; cbv; discriminate. Qed.
  Lemma sep_neq_ev a : sep_empty <> sep_leaf ++ a. Proof. unfold sep_empty, sep_fork; cbv; discriminate. Qed.
  Lemma sep_neq_fl a b : sep_fork ++ a <> sep_labeled ++ b. Proof. cbv; discriminate. Qed.
  Lemma sep_neq_fv a b : sep_fork ++ a <> sep_leaf ++ b.
  Proof. cbv; discriminate. Qed.
  Lemma sep_neq_lv a b : sep_labeled ++ a <> sep_leaf ++ b. Proof. cbv; discriminate. Qed.

  Lemma binding t1 t2 :
    hashes32 t1 = true -> hashes32 t2 = true ->
    digest H t1 = digest H t2 ->
    consistent t1 t2 \/ collision H (preimages H t1) (preimages H t2).
  Proof.
    revert t2. induction t1 as [ | l1 IHl r1 IHr | k1 t1 IH | v1 | h1]; intros t2 W1 W2 E;
      destruct t2 as [ | l2 r2 | k2 t2 | v2 | h2]; simpl in E, W1, W2; try (left; exact I).
    - right. eapply collision_intro; [left; reflexivity|left; reflexivity|exact E|apply sep_neq_ef].
    - right. eapply collision_intro; [left; reflexivity|left; reflexivity|exact E|apply sep_neq_el].
    - right. eapply collision_intro; [left; reflexivity|left; reflexivity|exact E|apply sep_neq_ev].
    - right. eapply collision_intro; [left; reflexivity|left; reflexivity|exact E|].
      intro C; symmetry in C; exact (sep_neq_ef _ C).
    - apply andb_true_iff in W1, W2. destruct W1 as [W1l W1r], W2 as [W2l W2r].
      destruct (bytes_eq_dec (sep_fork ++ digest H l1 ++ digest H r1) (sep_fork ++ digest H l2 ++ digest H r2)) as [M|M].
      + apply app_inv_head in M.
        apply app_inj_len in M; [|rewrite !digest_len; auto].
        destruct M as [Ml Mr].
        destruct (IHl l2 W1l W2l Ml) as [Cl|Cl].
        * destruct (IHr r2 W1r W2r Mr) as [Cr|Cr].
          -- left; split; assumption.
          -- right. eapply collision_mono; [| |exact Cr]; intros x Hx; simpl; right; apply in_or_app; auto.
        * right. eapply collision_mono; [| |exact Cl]; intros x Hx; simpl; right; apply in_or_app; auto.
      + right. eapply collision_intro; [left; reflexivity|left; reflexivity|exact E|exact M].
    - right. eapply collision_intro; [left; reflexivity|left; reflexivity|exact E|apply sep_neq_fl].
    - right. eapply collision_intro; [left; reflexivity|left; reflexivity|exact E|apply sep_neq_fv].
    - right. eapply collision_intro; [left; reflexivity|left; reflexivity|exact E|].
      intro C; symmetry in C; exact (sep_neq_el _ C).
    - right. eapply collision_intro; [left; reflexivity|left; reflexivity|exact E|].
      intro C; symmetry in C; exact (sep_neq_fl _ _ C).
    - destruct (bytes_eq_dec (sep_labeled ++ k1 ++ digest H t1) (sep_labeled ++ k2 ++ digest H t2)) as [M|M].
      + apply app_inv_head in M.
        apply app_inj_len_r in M; [|rewrite !digest_len; auto].
        destruct M as [Mk Mt].
        destruct (IH t2 W1 W2 Mt) as [C|C].
        * left; split; assumption.
        * right. eapply collision_mono; [| |exact C]; intros x Hx; simpl; right; auto.
      + right. eapply collision_intro; [left; reflexivity|left; reflexivity|exact E|exact M].
    - right. eapply collision_intro; [left; reflexivity|left; reflexivity|exact E|apply sep_neq_lv].
    - right. eapply collision_intro; [left; reflexivity|left; reflexivity|exact E|].
      intro C; symmetry in C; exact (sep_neq_ev _ C).
    - right. eapply collision_intro; [left; reflexivity|left; reflexivity|exact E|].
      intro C; symmetry in C; exact (sep_neq_fv _ _ C).
    - right. eapply collision_intro; [left; reflexivity|left; reflexivity|exact E|].
      intro C; symmetry in C; exact (sep_neq_lv _ _ C).
    - destruct (bytes_eq_dec (sep_leaf ++ v1) (sep_leaf ++ v2)) as [M|M].
      + apply app_inv_head in M. left; exact M.
      + right. eapply collision_intro; [left; reflexivity|left; reflexivity|exact E|exact M].
  Qed.

  (** A witness with the digest of a full tree is a pruning of that tree. *)
  Lemma digest_eq_prunes t w :
    full t = true -> hashes32 w = true ->
    digest H t = digest H w ->
    prunes H t w \/ collision H (preimages H t) (preimages H w).
  Proof.
    intros F W E.
    destruct (binding t w (full_hashes32 _ F) W E) as [C|C]; [|right; exact C].
    assert (Col : forall xs ys, collision H xs ys -> collision H xs ys) by auto.
    revert w F W E C. induction t as [ | l IHl r IHr | k t IH | v | h]; intros w F W E C.
    - destruct w; simpl in C; try contradiction; [left; constructor|].
      simpl in E. subst. left. constructor.
    - destruct w as [ | l2 r2 | | | h2]; simpl in C; try contradiction.
      + destruct C as [Cl Cr]. simpl in F, W. apply andb_true_iff in F, W.
        destruct F as [Fl Fr], W as [Wl Wr].
        simpl in E.
        destruct (bytes_eq_dec (sep_fork ++ digest H l ++ digest H r) (sep_fork ++ digest H l2 ++ digest H r2)) as [M|M].
        * apply app_inv_head in M.
          apply app_inj_len in M; [|rewrite !digest_len; auto using full_hashes32].
          destruct M as [Ml Mr].
          destruct (IHl l2 Fl Wl Ml Cl) as [Pl|Pl].
          -- destruct (IHr r2 Fr Wr Mr Cr) as [Pr|Pr].
             ++ left; constructor; assumption.
             ++ right. eapply collision_mono; [| |exact Pr]; intros x Hx; simpl; right; apply in_or_app; auto.
          -- right. eapply collision_mono; [| |exact Pl]; intros x Hx; simpl; right; apply in_or_app; auto.
        * right. eapply collision_intro; [left; reflexivity|left; reflexivity|exact E|exact M].
      + left. simpl in E. rewrite <- E. apply (PrPruned H (HFork l r)).
    - destruct w as [ | | k2 t2 | | h2]; simpl in C; try contradiction.
      + destruct C as [-> Ct]. simpl in F, W, E.
        destruct (bytes_eq_dec (sep_labeled ++ k2 ++ digest H t) (sep_labeled ++ k2 ++ digest H t2)) as [M|M].
        * apply app_inv_head in M. apply app_inv_head in M.
          destruct (IH t2 F W M Ct) as [P|P].
          -- left; constructor; assumption.
          -- right. eapply collision_mono; [| |exact P]; intros x Hx; simpl; right; auto.
        * right. eapply collision_intro; [left; reflexivity|left; reflexivity|exact E|exact M].
      + left. simpl in E. rewrite <- E. apply (PrPruned H (HLabeled k t)).
    - destruct w; simpl in C; try contradiction.
      + subst. left; constructor.
      + simpl in E. subst. left. apply (PrPruned H (HLeaf v)).
    - discriminate.
  Qed.

  (** Pruning of a full tree is determined by its shape; consistency of two prunings. *)
  Lemma prunes_consistent t a b : prunes H t a -> prunes H t b -> consistent a b.
  Proof.
    intros P; revert b; induction P as [ | v | h | l r l' r' P1 IH1 P2 IH2 | lbl t t' P IH | t]; intros b Q;
      inversion Q; subst; simpl; auto.
  Qed.
End Binding.

(** ** Lookup *)

Lemma child_at_labels k t c : child_at k t c -> In k (labels t).
Proof. induction 1; simpl; auto; apply in_or_app; auto. Qed.

Lemma labels_child_at k t : In k (labels t) -> exists c, child_at k t c.
Proof.
  induction t as [ | l IHl r IHr | x t IH | v | h]; simpl; try tauto.
  - intro I. apply in_app_or in I. destruct I as [I|I].
    + destruct (IHl I) as [c C]. exists c. constructor; assumption.
    + destruct (IHr I) as [c C]. exists c. constructor; assumption.
  - intros [<-|[]]. exists t. constructor.
Qed.

Lemma child_at_fork k l r c :
  child_at k (HFork l r) c <-> child_at k l c \/ child_at k r c.
Proof.
  split.
  - inversion 1; subst; auto.
  - intros [C|C]; constructor; assumption.
Qed.
Lemma child_at_labeled k x t c :
  child_at k (HLabeled x t) c <-> k = x /\ c = t.
Proof.
  split.
  - inversion 1; subst; auto.
  - intros [-> ->]; constructor.
Qed.

Lemma child_at_unique k t c c' : wf t -> child_at k t c -> child_at k t c' -> c = c'.
Proof.
  intros W C. revert c'. induction C as [k t|k l r t C IH|k l r t C IH]; intros c' D.
  - apply child_at_labeled in D. symmetry; tauto.
  - apply child_at_fork in D. simpl in W. destruct W as (Wl & Wr & _ & _ & S).
    destruct D as [D|D]; [apply IH; auto|].
    exfalso. apply (blt_irrefl k). apply S; eapply child_at_labels; eauto.
  - apply child_at_fork in D. simpl in W. destruct W as (Wl & Wr & _ & _ & S).
    destruct D as [D|D]; [|apply IH; auto].
    exfalso. apply (blt_irrefl k). apply S; eapply child_at_labels; eauto.
Qed.

Lemma child_at_wf k t c : wf t -> child_at k t c -> wf c.
Proof. intros W C. induction C; simpl in W; tauto. Qed.
Lemma child_at_full k t c : full t = true -> child_at k t c -> full c = true.
Proof.
  intros W C. induction C; simpl in W; auto; apply andb_true_iff in W; tauto.
Qed.

Section Lookup.
  Variable H : bytes -> bytes.

  (** What each answer of [lookup_label] on a pruning says about the full tree
      (below a fork, i.e. for trees that are neither empty nor leaf). *)
  Definition label_answer (k : bytes) (t : htree) (r : llr) : Prop :=
    match r with
    | LFound w' => exists c, child_at k t c /\ prunes H c w'
    | LLess => forall a, In a (labels t) -> blt k a
    | LGreater => forall a, In a (labels t) -> blt a k
    | LAbsent => ~ In k (labels t) /\
                 (exists a, In a (labels t) /\ blt a k) /\
                 (exists b, In b (labels t) /\ blt k b)
    | LUnknown => True
    end.

  Lemma full_fork_child_labels t :
    wf t -> full t = true -> fork_child_ok t = true -> exists a, In a (labels t).
  Proof.
    induction t as [ | l IHl r IHr | x t IH | v | h]; simpl; try congruence.
    - intros (Wl & Wr & Ol & Or & S) F _. apply andb_true_iff in F. destruct F as [Fl Fr].
      destruct (IHl Wl Fl Ol) as [a Ha]. exists a. apply in_or_app; auto.
    - intros _ _ _. exists x; auto.
  Qed.

  Lemma lookup_label_prunes k t w :
    wf t -> full t = true -> fork_child_ok t = true -> prunes H t w ->
    label_answer k t (lookup_label k w).
  Proof.
    intros W F O P. revert W F O.
    induction P as [ | v | h | l r l' r' P1 IH1 P2 IH2 | lbl t t' P IH | t]; simpl; intros W F O; try congruence.
    - destruct W as (Wl & Wr & Ol & Or & S). apply andb_true_iff in F. destruct F as [Fl Fr].
      specialize (IH1 Wl Fl Ol). specialize (IH2 Wr Fr Or).
      destruct (full_fork_child_labels l Wl Fl Ol) as [la Hla].
      destruct (full_fork_child_labels r Wr Fr Or) as [ra Hra].
      destruct (lookup_label k l') as [ | | | | c1] eqn:E1; simpl in IH1.
      + (* left Absent *)
        destruct IH1 as (N1 & (a & Ha & La) & (b & Hb & Lb)).
        simpl. split; [|split].
        * intro I. apply in_app_or in I. destruct I as [I|I]; [contradiction|].
          apply (blt_asym k b Lb). apply S; assumption.
        * exists a; split; [apply in_or_app; auto|exact La].
        * exists b; split; [apply in_or_app; auto|exact Lb].
      + (* left Unknown *)
        destruct (lookup_label k r') as [ | | | | c2] eqn:E2; simpl in IH2; simpl; auto.
        * destruct IH2 as (N2 & (a & Ha & La) & (b & Hb & Lb)).
          split; [|split].
          -- intro I. apply in_app_or in I. destruct I as [I|I]; [|contradiction].
             apply (blt_asym a k La). apply S; assumption.
          -- exists a; split; [apply in_or_app; auto|exact La].
          -- exists b; split; [apply in_or_app; auto|exact Lb].
        * intros a I. apply in_app_or in I. destruct I as [I|I]; [|auto].
          eapply blt_trans; [apply S; [exact I|exact Hra]|]. apply IH2; exact Hra.
        * destruct IH2 as (c & C & PC). exists c. split; [constructor; exact C|exact PC].
      + (* left Less *)
        simpl. intros a I. apply in_app_or in I. destruct I as [I|I]; [auto|].
        eapply blt_trans; [apply IH1; exact Hla|]. apply S; assumption.
      + (* left Greater *)
        destruct (lookup_label k r') as [ | | | | c2] eqn:E2; simpl in IH2; simpl; auto.
        * destruct IH2 as (N2 & (a & Ha & La) & (b & Hb & Lb)).
          split; [|split].
          -- intro I. apply in_app_or in I. destruct I as [I|I]; [|contradiction].
             apply (blt_irrefl k). apply IH1; exact I.
          -- exists a; split; [apply in_or_app; auto|exact La].
          -- exists b; split; [apply in_or_app; auto|exact Lb].
        * split; [|split].
          -- intro I. apply in_app_or in I. destruct I as [I|I]; apply (blt_irrefl k); auto.
          -- exists la; split; [apply in_or_app; auto|auto].
          -- exists ra; split; [apply in_or_app; auto|auto].
        * intros a I. apply in_app_or in I. destruct I as [I|I]; auto.
        * destruct IH2 as (c & C & PC). exists c. split; [constructor; exact C|exact PC].
      + destruct IH1 as (c & C & PC). exists c. split; [constructor; exact C|exact PC].
    - destruct (bcmp_spec k lbl) as [E|E|E]; simpl.
      + subst. exists t. split; [constructor|exact P].
      + intros a [<-|[]]; exact E.
      + intros a [<-|[]]; exact E.
    - exact I.
  Qed.

  (** Root-level version: for every well-formed full tree. *)
  Lemma lookup_label_sound k t w :
    wf t -> full t = true -> prunes H t w ->
    match lookup_label k w with
    | LFound w' => exists c, child_at k t c /\ prunes H c w'
    | LUnknown => True
    | _ => ~ In k (labels t)
    end.
  Proof.
    intros W F P. destruct (fork_child_ok t) eqn:O.
    - generalize (lookup_label_prunes k t w W F O P).
      destruct (lookup_label k w); simpl; auto.
      + tauto.
      + intros A I. apply (blt_irrefl k); auto.
      + intros A I. apply (blt_irrefl k); auto.
    - destruct t; simpl in O; try discriminate; inversion P; subst; simpl; auto.
  Qed.

  Lemma at_path_unique p t c c' : wf t -> at_path p t c -> at_path p t c' -> c = c'.
  Proof.
    intros W A. revert c' W. induction A as [t|k p t c s C A IH]; intros c' W B; inversion B; subst; auto.
    assert (c = c0) by (eapply child_at_unique; eauto). subst.
    apply IH; auto. eapply child_at_wf; eauto.
  Qed.
  Lemma at_path_wf p t c : wf t -> at_path p t c -> wf c.
  Proof. intros W A. induction A; auto. apply IHA. eapply child_at_wf; eauto. Qed.
  Lemma at_path_full p t c : full t = true -> at_path p t c -> full c = true.
  Proof. intros W A. induction A; auto. apply IHA. eapply child_at_full; eauto. Qed.

  Lemma lookup_subtree_sound p t w :
    wf t -> full t = true -> prunes H t w ->
    match lookup_subtree p w with
    | SFound w' => exists c, at_path p t c /\ prunes H c w'
    | SAbsent => forall c, ~ at_path p t c
    | SUnknown => True
    end.
  Proof.
    revert t w. induction p as [|k p IH]; intros t w W F P; simpl.
    - exists t. split; [constructor|exact P].
    - generalize (lookup_label_sound k t w W F P).
      destruct (lookup_label k w) as [ | | | | w']; auto; intro A;
        try (intros c C; inversion C; subst; apply A; eapply child_at_labels; eauto; fail).
      destruct A as (c & C & PC).
      generalize (IH c w' (child_at_wf _ _ _ W C) (child_at_full _ _ _ F C) PC).
      destruct (lookup_subtree p w') as [ | | w'']; auto.
      + intros A s S. inversion S; subst.
        assert (c0 = c) by (eapply child_at_unique; eauto). subst. eapply A; eauto.
      + intros (s & S & PS). exists s. split; [econstructor; eauto|exact PS].
  Qed.

  Lemma lookup_path_sound p t w :
    wf t -> full t = true -> prunes H t w ->
    match lookup_path p w with
    | Found v => at_path p t (HLeaf v)
    | Absent => forall v, ~ at_path p t (HLeaf v)
    | Unknown => True
    | Error => exists c, at_path p t c /\ fork_child_ok c = true
    end.
  Proof.
    revert t w. induction p as [|k p IH]; intros t w W F P; simpl.
    - inversion P; subst; simpl; auto.
      + intros v C. inversion C.
      + constructor.
      + eexists; split; [constructor|reflexivity].
      + eexists; split; [constructor|reflexivity].
    - generalize (lookup_label_sound k t w W F P).
      destruct (lookup_label k w) as [ | | | | w']; auto; intro A;
        try (intros c C; inversion C; subst; apply A; eapply child_at_labels; eauto; fail).
      destruct A as (c & C & PC).
      generalize (IH c w' (child_at_wf _ _ _ W C) (child_at_full _ _ _ F C) PC).
      destruct (lookup_path p w') as [ | | v | ]; auto.
      + intros A v S. inversion S; subst.
        assert (c0 = c) by (eapply child_at_unique; eauto). subst. eapply A; eauto.
      + intros S. econstructor; eauto.
      + intros (s & S & O). exists s; split; auto. econstructor; eauto.
  Qed.

  (** On full trees the answers are complete: never unknown. *)
  Lemma lookup_label_full k t :
    full t = true -> lookup_label k t <> LUnknown.
  Proof.
    induction t as [ | l IHl r IHr | x t IH | v | h]; simpl; try congruence.
    - intro F; apply andb_true_iff in F; destruct F as [Fl Fr].
      specialize (IHl Fl). specialize (IHr Fr).
      destruct (lookup_label k l); try congruence; destruct (lookup_label k r); congruence.
    - intros _. destruct (bcmp k x); congruence.
  Qed.
End Lookup.

(** Lookup in the full tree is exactly [at_path]. *)
Definition idH : bytes -> bytes := fun x => x.

Lemma lookup_label_found_child k t c : lookup_label k t = LFound c -> child_at k t c.
Proof.
  revert c. induction t as [ | l IHl r IHr | x t IH | v | h]; simpl; intros c; try congruence.
  - destruct (lookup_label k l) eqn:E1; try congruence.
    + destruct (lookup_label k r) eqn:E2; try congruence.
      intro G. injection G as ->. apply ChRight. apply IHr. reflexivity.
    + destruct (lookup_label k r) eqn:E2; try congruence.
      intro G. injection G as ->. apply ChRight. apply IHr. reflexivity.
    + intro G. injection G as ->. apply ChLeft. apply IHl. reflexivity.
  - destruct (bcmp_spec k x); try congruence. intro G. injection G as ->. subst. constructor.
Qed.

Lemma lookup_label_complete k t c :
  wf t -> full t = true -> child_at k t c -> lookup_label k t = LFound c.
Proof.
  intros W F C.
  generalize (lookup_label_sound idH k t t W F (prunes_refl idH t)).
  generalize (lookup_label_full k t F).
  destruct (lookup_label k t) as [ | | | | c'] eqn:E; intros N A; try congruence;
    try (exfalso; apply A; eapply child_at_labels; eauto; fail).
  destruct A as (c0 & C0 & _).
  apply lookup_label_found_child in E.
  f_equal. eapply child_at_unique; eauto.
Qed.

Lemma lookup_path_complete p t v :
  wf t -> full t = true -> at_path p t (HLeaf v) -> lookup_path p t = Found v.
Proof.
  revert t. induction p as [|k p IH]; intros t W F A; inversion A; subst; simpl; auto.
  rewrite (lookup_label_complete k t c); auto.
  apply IH; eauto using child_at_wf, child_at_full.
Qed.

Lemma lookup_subtree_complete p t c :
  wf t -> full t = true -> at_path p t c -> lookup_subtree p t = SFound c.
Proof.
  revert t. induction p as [|k p IH]; intros t W F A; inversion A; subst; simpl; auto.
  rewrite (lookup_label_complete k t c0); auto.
  apply IH; eauto using child_at_wf, child_at_full.
Qed.

Lemma lookup_label_absent_full k t :
  wf t -> full t = true -> ~ In k (labels t) ->
  lookup_label k t = LAbsent \/ lookup_label k t = LGreater \/ lookup_label k t = LLess.
Proof.
  intros W F N.
  generalize (lookup_label_full k t F).
  destruct (lookup_label k t) as [ | | | | c] eqn:E; auto; try congruence.
  intros _. exfalso. apply N. eapply child_at_labels. eapply lookup_label_found_child; eauto.
Qed.

Lemma lookup_subtree_absent_full p t :
  wf t -> full t = true -> (forall c, ~ at_path p t c) -> lookup_subtree p t = SAbsent.
Proof.
  intros W F N.
  generalize (lookup_subtree_sound idH p t t W F (prunes_refl idH t)).
  destruct (lookup_subtree p t) as [ | | c] eqn:E; auto.
  - intros _. exfalso. clear N. revert t W F E. induction p as [|k p IH]; simpl; intros t W F E; try discriminate.
    generalize (lookup_label_full k t F).
    destruct (lookup_label k t) eqn:G; try congruence.
    intros _. apply lookup_label_found_child in G. eapply IH; [| |exact E]; eauto using child_at_wf, child_at_full.
  - intros (c' & A & _). exfalso; eapply N; eauto.
Qed.

(** ** C06 *)
Lemma lookup_path_subtree p t v :
  lookup_path p t = Found v <-> lookup_subtree p t = SFound (HLeaf v).
Proof.
  revert t. induction p as [|k p IH]; intros t; simpl.
  - destruct t; split; congruence.
  - destruct (lookup_label k t); try (split; congruence). apply IH.
Qed.
Lemma lookup_path_subtree_all p t :
  lookup_path p t =
  match lookup_subtree p t with
  | SAbsent => Absent
  | SUnknown => Unknown
  | SFound c => match c with
                | HLeaf v => Found v | HEmpty => Absent | HPruned _ => Unknown
                | HLabeled _ _ | HFork _ _ => Error
                end
  end.
Proof.
  revert t. induction p as [|k p IH]; intros t; simpl.
  - reflexivity.
  - destruct (lookup_label k t); try reflexivity. apply IH.
Qed.
