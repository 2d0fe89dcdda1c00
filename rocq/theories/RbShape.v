(** Red-black shape invariant: no panic, balance, logarithmic depth. *)
From Coq Require Import List NArith Bool Lia Arith.
From Verif Require Import Bytes HashTree RbTree.
Import ListNotations.

Section Shape.
  Variable H : bytes -> bytes.
  Variable V : Type.
  Variable vhash : V -> bytes.
  Notation rb := (rb V).
  Notation upd := (upd H V vhash).
  Notation balance := (balance H V vhash).

  (** [B n t]: left-leaning red-black tree of black height [n] with black root
      (or empty); [A n t]: same, the root may be red. *)
  Inductive B : nat -> rb -> Prop :=
  | B_E : B 0 E
  | B_N n l k v r h : A n l -> B n r -> B (S n) (T Black l k v r h)
  with A : nat -> rb -> Prop :=
  | A_B n t : B n t -> A n t
  | A_R n l k v r h : B n l -> B n r -> A n (T Red l k v r h).

  (** red root with proper black children *)
  Inductive R : nat -> rb -> Prop :=
  | R_N n l k v r h : B n l -> B n r -> R n (T Red l k v r h).
  (** red root, left child possibly red *)
  Inductive RR : nat -> rb -> Prop :=
  | RR_N n l k v r h : A n l -> B n r -> RR n (T Red l k v r h).

  Lemma A_cases n t : A n t <-> B n t \/ R n t.
  Proof.
    split.
    - inversion 1; subst; auto. right; constructor; assumption.
    - intros [P|P]; [apply A_B; exact P|]. inversion P; subst. apply A_R; assumption.
  Qed.

  Lemma B_not_red n t : B n t -> is_red V t = false.
  Proof. inversion 1; reflexivity. Qed.
  Lemma R_red n t : R n t -> is_red V t = true.
  Proof. inversion 1; reflexivity. Qed.
  Lemma A_left_not_red n t : R n t -> is_red V (left_of V t) = false.
  Proof. inversion 1; subst; simpl. eapply B_not_red; eauto. Qed.

  Lemma bal_red_left n l k v r h :
    A n l -> B n r -> exists t', balance (T Red l k v r h) = Some t' /\ RR n t'.
  Proof.
    intros Al Br. unfold RbTree.balance. cbn [right_of left_of].
    rewrite (B_not_red n r Br). cbn [andb obind].
    assert (X : is_red V l && is_red V (left_of V l) = false).
    { apply A_cases in Al. destruct Al as [P|P]; [rewrite (B_not_red n l P); reflexivity|].
      rewrite (A_left_not_red n l P). apply andb_false_r. }
    cbn [right_of left_of]. rewrite X. cbn [obind right_of left_of].
    rewrite (B_not_red n r Br), andb_false_r.
    eexists; split; [reflexivity|]. constructor; assumption.
  Qed.

  Lemma bal_red_right n l k v r h :
    B n l -> A n r -> exists t', balance (T Red l k v r h) = Some t' /\ RR n t'.
  Proof.
    intros Bl Ar. apply A_cases in Ar. destruct Ar as [P|P].
    - apply bal_red_left; [apply A_B; exact Bl|exact P].
    - unfold RbTree.balance. cbn [right_of left_of].
      rewrite (R_red n r P), (B_not_red n l Bl). cbn [andb negb].
      inversion P as [? rl rk rv rr rh Brl Brr]; subst. cbn [rotate_left obind].
      unfold RbTree.upd. cbn [left_of right_of is_red andb].
      rewrite (B_not_red n l Bl). cbn [obind left_of right_of is_red andb].
      rewrite (B_not_red n rr Brr).
      eexists; split; [reflexivity|]. constructor; [|assumption]. apply A_R; assumption.
  Qed.

  Lemma bal_red_B n l k v r h :
    B n l -> B n r -> exists t', balance (T Red l k v r h) = Some t' /\ R n t'.
  Proof.
    intros Bl Br. unfold RbTree.balance. cbn [right_of left_of].
    rewrite (B_not_red n r Br). cbn [andb obind left_of right_of].
    rewrite (B_not_red n l Bl). cbn [andb obind left_of right_of].
    rewrite (B_not_red n l Bl). cbn [andb].
    eexists; split; [reflexivity|]. constructor; assumption.
  Qed.

  Lemma bal_black_AB n l k v r h :
    A n l -> B n r -> exists t', balance (T Black l k v r h) = Some t' /\ B (S n) t'.
  Proof.
    intros Al Br. unfold RbTree.balance. cbn [right_of left_of].
    rewrite (B_not_red n r Br). cbn [andb obind].
    assert (X : is_red V l && is_red V (left_of V l) = false).
    { apply A_cases in Al. destruct Al as [P|P]; [rewrite (B_not_red n l P); reflexivity|].
      rewrite (A_left_not_red n l P). apply andb_false_r. }
    cbn [right_of left_of]. rewrite X. cbn [obind right_of left_of].
    rewrite (B_not_red n r Br), andb_false_r.
    eexists; split; [reflexivity|]. constructor; assumption.
  Qed.

  Lemma bal_black_BA n l k v r h :
    B n l -> A n r -> exists t', balance (T Black l k v r h) = Some t' /\ B (S n) t'.
  Proof.
    intros Bl Ar. apply A_cases in Ar. destruct Ar as [P|P].
    - apply bal_black_AB; [apply A_B; exact Bl|exact P].
    - unfold RbTree.balance. cbn [right_of left_of].
      rewrite (R_red n r P), (B_not_red n l Bl). cbn [andb negb].
      inversion P as [? rl rk rv rr rh Brl Brr]; subst. cbn [rotate_left obind].
      unfold RbTree.upd. cbn [left_of right_of is_red andb].
      rewrite (B_not_red n l Bl). cbn [obind left_of right_of is_red andb].
      rewrite (B_not_red n rr Brr).
      eexists; split; [reflexivity|]. constructor; [|assumption]. apply A_R; assumption.
  Qed.

  Lemma bal_black_AA n l k v r h :
    A n l -> A n r -> exists t', balance (T Black l k v r h) = Some t' /\ A (S n) t'.
  Proof.
    intros Al Ar. apply A_cases in Al. destruct Al as [Pl|Pl].
    - destruct (bal_black_BA n l k v r h Pl Ar) as (t' & E1 & P). exists t'; split; auto. apply A_B; exact P.
    - apply A_cases in Ar. destruct Ar as [Pr|Pr].
      + destruct (bal_black_AB n l k v r h) as (t' & E1 & P); auto.
        { apply A_cases; auto. }
        exists t'; split; auto. apply A_B; exact P.
      + unfold RbTree.balance. cbn [right_of left_of].
        rewrite (R_red n l Pl), (R_red n r Pr). cbn [andb negb obind left_of right_of].
        rewrite (R_red n l Pl), (A_left_not_red n l Pl). cbn [andb obind left_of right_of].
        rewrite (R_red n l Pl), (R_red n r Pr). cbn [andb].
        inversion Pl; subst. inversion Pr; subst. simpl.
        eexists; split; [reflexivity|]. apply A_R; constructor; auto using A_B.
  Qed.

  Lemma bal_black_RR n l k v r h :
    RR n l -> B n r -> exists t', balance (T Black l k v r h) = Some t' /\ A (S n) t'.
  Proof.
    intros Rl Br. inversion Rl as [? ll lk lv lr lh All Blr]; subst.
    apply A_cases in All. destruct All as [P|P].
    - destruct (bal_black_AB n (T Red ll lk lv lr lh) k v r h) as (t' & E1 & Q); auto.
      { apply A_R; auto. }
      exists t'; split; auto. apply A_B; exact Q.
    - unfold RbTree.balance. cbn [right_of left_of].
      rewrite (B_not_red n r Br). cbn [andb obind left_of right_of is_red].
      rewrite (R_red n ll P). cbn [rotate_right obind].
      unfold RbTree.upd. cbn [left_of right_of is_red]. rewrite (R_red n ll P). cbn [andb].
      inversion P; subst. simpl.
      eexists; split; [reflexivity|]. apply A_R; constructor; auto using A_B.
  Qed.

  (** ** insert *)
  Lemma insert_go_shape k v t : forall n,
    (B n t -> exists t', insert_go H V vhash k v t = Some t' /\ A n t') /\
    (R n t -> exists t', insert_go H V vhash k v t = Some t' /\ RR n t').
  Proof.
    induction t as [|c l IHl k' v' r IHr h]; intro n.
    - split; inversion 1; subst. simpl. eexists; split; [reflexivity|]. apply A_R; constructor.
    - split; intro P; inversion P; subst; cbn [insert_go].
      + destruct (bcmp k k').
        * destruct (bal_black_AB n0 l k' v r (compute_subtree_hash H V vhash l k' v r)) as (t' & E1 & Q); auto.
          exists t'; split; [exact E1|apply A_B; exact Q].
        * destruct (IHl n0) as [IH1 IH2].
          match goal with X : A n0 l |- _ => apply A_cases in X; destruct X as [HX|HX] end.
          -- destruct (IH1 HX) as (l' & -> & Q). cbn [obind].
             destruct (bal_black_AB n0 l' k' v' r (compute_subtree_hash H V vhash l' k' v' r)) as (t' & E1 & Q'); auto.
             exists t'; split; [exact E1|apply A_B; exact Q'].
          -- destruct (IH2 HX) as (l' & -> & Q). cbn [obind].
             apply bal_black_RR with (n := n0); auto.
        * destruct (IHr n0) as [IH1 IH2].
          match goal with X : B n0 r |- _ => destruct (IH1 X) as (r' & -> & Q) end. cbn [obind].
          apply bal_black_AA with (n := n0); auto.
      + match goal with X : B n l, Y : B n r |- _ => rename X into Bl; rename Y into Br end.
        destruct (bcmp k k').
        * apply bal_red_left; auto using A_B.
        * destruct (IHl n) as [IH1 _]. destruct (IH1 Bl) as (l' & -> & Q). cbn [obind].
          apply bal_red_left; auto.
        * destruct (IHr n) as [IH1 _]. destruct (IH1 Br) as (r' & -> & Q). cbn [obind].
          apply bal_red_right; auto.
  Qed.

  Lemma set_black_A n t : A n t -> exists m, B m (set_color V Black t).
  Proof.
    intro P. apply A_cases in P. destruct P as [P|P]; inversion P; subst; simpl.
    - exists 0; constructor.
    - eexists; constructor; eassumption.
    - eexists; constructor; [apply A_B|]; eassumption.
  Qed.

  Lemma insert_shape k v t n :
    B n t -> exists t' m, insert H V vhash k v t = Some t' /\ B m t'.
  Proof.
    intro P. destruct (insert_go_shape k v t n) as [IH _]. destruct (IH P) as (t' & E1 & Q).
    unfold insert. rewrite E1. cbn [obind].
    destruct (set_black_A n t' Q) as [m Qm]. eauto.
  Qed.

  (** ** modify *)
  Lemma modify_color c l k v r h key f :
    exists l' v' r' h', modify H V vhash key f (T c l k v r h) = T c l' k v' r' h'
      /\ (l' = l \/ l' = modify H V vhash key f l) /\ (r' = r \/ r' = modify H V vhash key f r).
  Proof.
    simpl. destruct (bcmp key k); unfold RbTree.upd; repeat eexists; auto.
  Qed.
  Lemma modify_shape key f t : forall n,
    (B n t -> B n (modify H V vhash key f t)) /\ (A n t -> A n (modify H V vhash key f t)).
  Proof.
    induction t as [|c l IHl k v r IHr h]; intro n; [split; auto|].
    assert (X : B n (T c l k v r h) -> B n (modify H V vhash key f (T c l k v r h))).
    { intro P. inversion P; subst. destruct (modify_color Black l k v r h key f) as (l' & v' & r' & h' & -> & L & R').
      constructor; [destruct L as [->| ->]; auto; apply IHl; auto|destruct R' as [->| ->]; auto; apply IHr; auto]. }
    split; [exact X|].
    intro P. apply A_cases in P. destruct P as [P|P]; [apply A_B; auto|].
    inversion P; subst. destruct (modify_color Red l k v r h key f) as (l' & v' & r' & h' & -> & L & R').
    apply A_R; [destruct L as [->| ->]; auto; apply IHl; auto|destruct R' as [->| ->]; auto; apply IHr; auto].
  Qed.

  (** ** delete *)

  (** After [move_red_left] the left child is red, or black with red left child. *)
  Inductive BL : nat -> rb -> Prop :=
  | BL_N n l k v r h : R n l -> B n r -> BL (S n) (T Black l k v r h).

  Lemma move_red_left_shape n l k v r h :
    B (S n) l -> B (S n) r -> is_red V (left_of V l) = false ->
    exists c' l' k' v' r' h',
      move_red_left H V vhash (T Red l k v r h) = Some (T c' l' k' v' r' h') /\
      ((c' = Black /\ R n l' /\ R n r') \/ (c' = Red /\ BL (S n) l' /\ B (S n) r')).
  Proof.
    intros Bl Br N.
    inversion Bl as [|? ll lk lv lr lh All Blr]; subst.
    inversion Br as [|? rl rk rv rr rh Arl Brr]; subst. simpl in N.
    assert (Bll : B n ll).
    { apply A_cases in All. destruct All as [P|P]; auto. rewrite (R_red _ _ P) in N. congruence. }
    unfold move_red_left. cbn [flip_colors flip obind left_of].
    apply A_cases in Arl. destruct Arl as [P|P].
    - rewrite (B_not_red _ _ P). eexists _, _, _, _, _, _. split; [reflexivity|].
      left. split; [reflexivity|]. split; constructor; auto.
    - rewrite (R_red _ _ P). inversion P; subst. simpl.
      eexists _, _, _, _, _, _. split; [reflexivity|].
      right. split; [reflexivity|]. split; constructor; auto using A_B. constructor; auto.
  Qed.

  (** black, left black, right red *)
  Inductive BR : nat -> rb -> Prop :=
  | BR_N n l k v r h : B n l -> R n r -> BR (S n) (T Black l k v r h).

  Lemma move_red_right_shape n l k v r h :
    B (S n) l -> B (S n) r -> is_red V (left_of V r) = false ->
    exists c' l' k' v' r' h',
      move_red_right H V vhash (T Red l k v r h) = Some (T c' l' k' v' r' h') /\
      ((c' = Black /\ k' = k /\ R n l' /\ R n r') \/
       (c' = Red /\ B (S n) l' /\ BR (S n) r' /\
        exists a v1 b h1, r' = T Black a k v1 b h1)).
  Proof.
    intros Bl Br N.
    inversion Bl as [|? ll lk lv lr lh All Blr]; subst.
    inversion Br as [|? rl rk rv rr rh Arl Brr]; subst. simpl in N.
    assert (Brl : B n rl).
    { apply A_cases in Arl. destruct Arl as [P|P]; auto. rewrite (R_red _ _ P) in N. congruence. }
    unfold move_red_right. cbn [flip_colors flip obind left_of].
    apply A_cases in All. destruct All as [P|P].
    - rewrite (B_not_red _ _ P). eexists _, _, _, _, _, _. split; [reflexivity|].
      left. split; [reflexivity|]. split; [reflexivity|]. split; constructor; auto.
    - rewrite (R_red _ _ P). inversion P; subst. simpl.
      eexists _, _, _, _, _, _. split; [reflexivity|].
      right. split; [reflexivity|]. split; [constructor; auto using A_B|]. split.
      + constructor; auto. constructor; auto.
      + repeat eexists.
  Qed.

  Lemma R_some n t : R n t -> is_some V t = true.
  Proof. inversion 1; reflexivity. Qed.
  Lemma BL_some n t : BL n t -> is_some V t = true.
  Proof. inversion 1; reflexivity. Qed.

  (** The restructuring steps keep the number of nodes. *)
  Lemma size_flip h h' : flip_colors V h = Some h' -> size V h' = size V h.
  Proof.
    destruct h as [|c [|lc ll lk lv lr lh] k v [|rc rl rk rv rr rh] hh]; simpl; try discriminate.
    intro X; injection X as <-. simpl. lia.
  Qed.
  Lemma size_rotr h h' : rotate_right H V vhash h = Some h' -> size V h' = size V h.
  Proof.
    destruct h as [|c [|[] ll lk lv lr lh] k v r hh]; simpl; try discriminate.
    intro X; injection X as <-. simpl. lia.
  Qed.
  Lemma size_rotl h h' : rotate_left H V vhash h = Some h' -> size V h' = size V h.
  Proof.
    destruct h as [|c l k v [|[] rl rk rv rr rh] hh]; simpl; try discriminate.
    intro X; injection X as <-. simpl. lia.
  Qed.
  Lemma size_mrl h h' : move_red_left H V vhash h = Some h' -> size V h' = size V h.
  Proof.
    unfold move_red_left. destruct (flip_colors V h) as [h1|] eqn:E1; cbn [obind]; try discriminate.
    apply size_flip in E1. destruct h1 as [|c l k v r hh]; try discriminate.
    destruct (is_red V (left_of V r)).
    - destruct (rotate_right H V vhash r) as [r'|] eqn:E2; cbn [obind]; try discriminate.
      destruct (rotate_left H V vhash (T c l k v r' hh)) as [h2|] eqn:E3; cbn [obind]; try discriminate.
      intro E4. apply size_flip in E4. apply size_rotl in E3. apply size_rotr in E2. simpl in *. lia.
    - intro X; injection X as <-. exact E1.
  Qed.
  Lemma size_mrr h h' : move_red_right H V vhash h = Some h' -> size V h' = size V h.
  Proof.
    unfold move_red_right. destruct (flip_colors V h) as [h1|] eqn:E1; cbn [obind]; try discriminate.
    apply size_flip in E1.
    destruct (is_red V (left_of V (left_of V h1))).
    - destruct (rotate_right H V vhash h1) as [h2|] eqn:E2; cbn [obind]; try discriminate.
      intro E4. apply size_flip in E4. apply size_rotr in E2. lia.
    - intro X; injection X as <-. exact E1.
  Qed.

  Lemma is_some_left_size t : is_some V t = true -> 0 < size V t.
  Proof. destruct t; simpl; [discriminate|lia]. Qed.

  Lemma delete_min_shape fuel : forall n t, size V t < fuel ->
    (R n t -> exists t', delete_min H V vhash fuel t = Some t' /\ A n t') /\
    (BL n t -> exists t', delete_min H V vhash fuel t = Some t' /\ B n t').
  Proof.
    induction fuel as [|fuel IH]; intros n t Sz; [lia|].
    split; intro P.
    - inversion P as [? l k v r h Bl Br]; subst. cbn [delete_min left_of].
      destruct l as [|lc ll lk lv lr lh].
      + inversion Bl; subst. inversion Br; subst. cbn. eexists; split; [reflexivity|]. apply A_B; constructor.
      + set (l := T lc ll lk lv lr lh) in *.
        rewrite (B_not_red _ _ Bl). cbn [negb andb].
        destruct (is_red V (left_of V l)) eqn:N; cbn [negb obind].
        * inversion Bl as [|m ? ? ? ? ? Al' Blr]; subst l. subst. simpl in N.
          apply A_cases in Al'. destruct Al' as [Q|Q]; [rewrite (B_not_red _ _ Q) in N; congruence|].
          cbn [assert_ is_some].
          destruct (IH (S m) (T Black ll lk lv lr lh)) as [_ IHb]; [simpl in *; lia|].
          destruct IHb as (l' & -> & Q'); [constructor; auto|]. cbn [obind].
          destruct (bal_red_B (S m) l' k v r (compute_subtree_hash H V vhash l' k v r)) as (t' & E1 & Rt); auto.
          exists t'. split; [exact E1|]. apply A_cases; auto.
        * assert (exists m, n = S m) as [m ->].
          { inversion Bl; subst; eauto. }
          destruct (move_red_left_shape m l k v r h Bl Br N) as (c' & l' & k' & v' & r' & h' & E1 & [(-> & Rl & Rr)|(-> & BLl & Br')]).
          -- rewrite E1. cbn [obind]. assert (Z := size_mrl _ _ E1). simpl in Z, Sz.
             rewrite (R_some _ _ Rl). cbn [assert_].
             destruct (IH m l') as [IHr _]; [lia|]. destruct (IHr Rl) as (l'' & -> & Q). cbn [obind].
             apply bal_black_AA; auto. apply A_cases; auto.
          -- rewrite E1. cbn [obind]. assert (Z := size_mrl _ _ E1). simpl in Z, Sz.
             rewrite (BL_some _ _ BLl). cbn [assert_].
             destruct (IH (S m) l') as [_ IHb]; [lia|]. destruct (IHb BLl) as (l'' & -> & Q). cbn [obind].
             destruct (bal_red_B (S m) l'' k' v' r' (compute_subtree_hash H V vhash l'' k' v' r')) as (t' & E2 & Rt); auto.
             exists t'. split; [exact E2|]. apply A_cases; auto.
    - inversion P as [m l k v r h Rl Br]; subst. cbn [delete_min left_of].
      assert (Rl0 := Rl). inversion Rl as [? ll lk lv lr lh Bll Blr]; subst. cbn [is_red negb andb obind assert_ is_some].
      destruct (IH m (T Red ll lk lv lr lh)) as [IHr _]; [simpl in *; lia|].
      destruct (IHr Rl0) as (l' & -> & Q). cbn [obind].
      apply bal_black_AB; auto.
  Qed.

  (** [swap_min] keeps the shape. *)
  Lemma swap_min_shape k v t : is_some V t = true ->
    exists mk mv t', swap_min V k v t = Some (mk, mv, t') /\ size V t' = size V t /\
      is_some V t' = true /\
      (forall n, (B n t -> B n t') /\ (A n t -> A n t') /\ (R n t -> R n t') /\ (BL n t -> BL n t')).
  Proof.
    induction t as [|c l IHl mk mv r IHr h]; [discriminate|]. intros _.
    destruct l as [|lc ll lk lv lr lh].
    - cbn [swap_min]. eexists _, _, _. split; [reflexivity|]. split; [reflexivity|]. split; [reflexivity|].
      intro n. repeat split; intro P.
      + inversion P; subst; constructor; auto.
      + apply A_cases in P. apply A_cases. destruct P as [P|P]; inversion P; subst; [left|right]; constructor; auto.
      + inversion P; subst; constructor; auto.
      + inversion P; subst; constructor; auto.
    - destruct IHl as (mk' & mv' & l' & E1 & Z & I & Sh); [reflexivity|].
      remember (T lc ll lk lv lr lh) as l eqn:El.
      assert (X : swap_min V k v (T c l mk mv r h) =
        match swap_min V k v l with Some (k', v', l') => Some (k', v', T c l' mk mv r h) | None => None end)
        by (subst l; reflexivity).
      rewrite X, E1. eexists _, _, _. split; [reflexivity|]. split; [simpl; lia|]. split; [reflexivity|].
      intro n. repeat split; intro P.
      + inversion P; subst; constructor; auto; apply Sh; auto.
      + apply A_cases in P. apply A_cases. destruct P as [P|P]; inversion P; subst; [left|right]; constructor; auto; apply Sh; auto.
      + inversion P; subst; constructor; auto; apply Sh; auto.
      + inversion P; subst; constructor; auto; apply Sh; auto.
  Qed.

  Lemma get_left key c l k v r h : bcmp key k = Lt -> get V key (T c l k v r h) = get V key l.
  Proof. simpl. intros ->. reflexivity. Qed.
End Shape.
