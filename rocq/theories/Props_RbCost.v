(** C135: changes to the tree do work logarithmic in the number of stored keys. *)
From Coq Require Import List Arith Lia NArith Bool Sorted.
From Verif Require Import Bytes Sha256 HashTree RbTree RbSpec RbShape RbContent RbHash RbCost Props_RbTree.
Import ListNotations.
Local Open Scope nat_scope.

Section Cost.
  Variables (H : bytes -> bytes) (V : Type) (vhash : V -> bytes).
  Notation rb := (rb V).
  Notation B := (B V). Notation A := (A V). Notation R := (R V). Notation BL := (BL V). Notation BR := (BR V).
  Notation elems := (elems V). Notation bst := (bst V).

  (** ** The counting functions compute what the others compute *)
  Definition val {X} (o : cost X) : option X := option_map fst o.
  Lemma val_bind {X Y} (o : cost X) (f : X -> cost Y) : val (cbind o f) = do x <- val o; val (f x).
  Proof. destruct o as [[a n]|]; [|reflexivity]. simpl. destruct (f a) as [[b m]|]; reflexivity. Qed.
  Lemma val_tick {X} (o : cost X) : val (tick o) = val o.
  Proof. destruct o as [[a n]|]; reflexivity. Qed.
  Lemma val_assert {X} b (o : cost X) : val (assert_ b o) = assert_ b (val o).
  Proof. destruct b; reflexivity. Qed.
  Lemma val_rotr h : val (c_rotate_right H V vhash h) = rotate_right H V vhash h.
  Proof. destruct h as [|c [|[] ? ? ? ? ?] k v r hh]; reflexivity. Qed.
  Lemma val_rotl h : val (c_rotate_left H V vhash h) = rotate_left H V vhash h.
  Proof. destruct h as [|c l k v [|[] ? ? ? ? ?] hh]; reflexivity. Qed.
  Lemma val_flip h : val (c_flip_colors V h) = flip_colors V h.
  Proof. unfold c_flip_colors. destruct (flip_colors V h); reflexivity. Qed.
  Lemma val_if {X} (b : bool) (x y : cost X) : val (if b then x else y) = if b then val x else val y.
  Proof. destruct b; reflexivity. Qed.
  Lemma obind_ext {X Y} (o : option X) (f g : X -> option Y) : (forall x, f x = g x) -> obind o f = obind o g.
  Proof. intro E. destruct o; simpl; auto. Qed.
  Lemma val_balance h : val (c_balance H V vhash h) = balance H V vhash h.
  Proof.
    unfold c_balance, balance. rewrite val_bind, val_if, val_rotl. apply obind_ext. intro h1.
    rewrite val_bind, val_if, val_rotr. apply obind_ext. intro h2. rewrite val_if, val_flip. reflexivity.
  Qed.
  Lemma val_fin c l k v r : val (cdo n <- c_upd H V vhash c l k v r; c_balance H V vhash n) = balance H V vhash (upd H V vhash c l k v r).
  Proof. rewrite val_bind. cbn. apply val_balance. Qed.
  Lemma val_insert_go k v t : val (c_insert_go H V vhash k v t) = insert_go H V vhash k v t.
  Proof.
    induction t as [|c l IHl k' v' r IHr h]; cbn [c_insert_go insert_go]; [reflexivity|].
    rewrite val_tick. destruct (bcmp k k').
    - apply val_fin.
    - rewrite val_bind, IHl. apply obind_ext. intro. apply val_fin.
    - rewrite val_bind, IHr. apply obind_ext. intro. apply val_fin.
  Qed.
  Lemma val_insert k v t : val (c_insert H V vhash k v t) = insert H V vhash k v t.
  Proof. unfold c_insert, insert. rewrite val_bind, val_insert_go. reflexivity. Qed.
  Lemma val_modify key f t : val (c_modify H V vhash key f t) = Some (modify H V vhash key f t).
  Proof.
    induction t as [|c l IHl k v r IHr h]; cbn [c_modify modify]; [reflexivity|].
    rewrite val_tick. destruct (bcmp key k); [reflexivity| |]; rewrite val_bind, ?IHl, ?IHr; reflexivity.
  Qed.
  Lemma val_mrl h : val (c_move_red_left H V vhash h) = move_red_left H V vhash h.
  Proof.
    unfold c_move_red_left, move_red_left. rewrite val_bind, val_flip. apply obind_ext. intros [|c l k v r hh]; [reflexivity|].
    rewrite val_if, val_bind, val_rotr. destruct (is_red V (left_of V r)); [|reflexivity].
    apply obind_ext. intro r'. rewrite val_bind, val_rotl. apply obind_ext. intro. apply val_flip.
  Qed.
  Lemma val_mrr h : val (c_move_red_right H V vhash h) = move_red_right H V vhash h.
  Proof.
    unfold c_move_red_right, move_red_right. rewrite val_bind, val_flip. apply obind_ext. intro h1.
    rewrite val_if, val_bind, val_rotr. destruct (is_red V _); [|reflexivity]. apply obind_ext. intro. apply val_flip.
  Qed.
  Lemma val_delete_min fuel : forall t, val (c_delete_min H V vhash fuel t) = delete_min H V vhash fuel t.
  Proof.
    induction fuel as [|fuel IH]; intro t; cbn [c_delete_min delete_min]; [reflexivity|]. rewrite val_tick.
    destruct (left_of V t); [rewrite val_assert; reflexivity|].
    rewrite val_bind, val_if, val_mrl. apply obind_ext. intros [|c' l' k' v' r' h']; [reflexivity|].
    rewrite val_assert, val_bind, IH. f_equal. apply obind_ext. intro. apply val_fin.
  Qed.
  Lemma val_swap_min k v t : val (c_swap_min V k v t) = swap_min V k v t.
  Proof.
    induction t as [|c l IHl mk mv r IHr h]; cbn [c_swap_min swap_min]; [reflexivity|]. rewrite val_tick.
    destruct l as [|lc ll lk lv lr lh]; [reflexivity|]. rewrite val_bind, IHl.
    destruct (swap_min V k v (T lc ll lk lv lr lh)) as [[[? ?] ?]|]; reflexivity.
  Qed.
  Lemma val_delete_go fuel key : forall t, val (c_delete_go H V vhash fuel key t) = delete_go H V vhash fuel key t.
  Proof.
    induction fuel as [|fuel IH]; intro t; cbn [c_delete_go delete_go]; [reflexivity|]. rewrite val_tick.
    destruct t as [|c0 l0 k0 v0 r0 h0]; [reflexivity|].
    assert (X : forall t1, val (cdo h1 <- (if is_red V l0 then c_rotate_right H V vhash t1 else cret t1);
                match h1 with
                | E => None
                | T _ l1 k1 _ r1 _ =>
                    if bytes_eqb key k1 && negb (is_some V r1) then
                      assert_ (negb (is_some V l1)) (cret E)
                    else
                      assert_ (is_red V r1 || is_some V r1)
                      (cdo h2 <- (if negb (is_red V r1) && negb (is_red V (left_of V r1))
                                 then c_move_red_right H V vhash h1 else cret h1);
                       match h2 with
                       | E => None
                       | T c l k v r _ =>
                           assert_ (is_some V r)
                             (if bytes_eqb key k then
                                cdo x <- c_swap_min V k v r;
                                let '(mk, mv, r') := x in
                                cdo r'' <- c_delete_min H V vhash fuel r';
                                cdo n <- c_upd H V vhash c l mk mv r''; c_balance H V vhash n
                              else
                                cdo r' <- c_delete_go H V vhash fuel key r;
                                cdo n <- c_upd H V vhash c l k v r'; c_balance H V vhash n)
                       end)
                end) =
                (do h1 <- (if is_red V l0 then rotate_right H V vhash t1 else Some t1);
                match h1 with
                | E => None
                | T _ l1 k1 _ r1 _ =>
                    if bytes_eqb key k1 && negb (is_some V r1) then
                      assert_ (negb (is_some V l1)) (Some E)
                    else
                      assert_ (is_red V r1 || is_some V r1)
                      (do h2 <- (if negb (is_red V r1) && negb (is_red V (left_of V r1))
                                 then move_red_right H V vhash h1 else Some h1);
                       match h2 with
                       | E => None
                       | T c l k v r _ =>
                           assert_ (is_some V r)
                             (if bytes_eqb key k then
                                match swap_min V k v r with
                                | None => None
                                | Some (mk, mv, r') =>
                                    do r'' <- delete_min H V vhash fuel r';
                                    balance H V vhash (upd H V vhash c l mk mv r'')
                                end
                              else
                                do r' <- delete_go H V vhash fuel key r;
                                balance H V vhash (upd H V vhash c l k v r'))
                       end)
                end)).
    { intro t1. rewrite val_bind, val_if, val_rotr. apply obind_ext. intros [|c1 l1 k1 v1 r1 h1]; [reflexivity|].
      rewrite val_if, !val_assert, val_bind, val_if, val_mrr. destruct (_ && _); [reflexivity|]. f_equal.
      apply obind_ext. intros [|c2 l2 k2 v2 r2 h2]; [reflexivity|].
      rewrite val_assert. f_equal. destruct (bytes_eqb key k2).
      - rewrite val_bind, val_swap_min. destruct (swap_min V k2 v2 r2) as [[[mk mv] r']|]; [|reflexivity]. cbn [obind].
        rewrite val_bind, val_delete_min. apply obind_ext. intro. apply val_fin.
      - rewrite val_bind, IH. apply obind_ext. intro. apply val_fin. }
    destruct (bcmp key k0); [apply X| |apply X].
    rewrite val_assert, val_bind, val_if, val_mrl. f_equal. apply obind_ext. intros [|c1 l1 k1 v1 r1 h1]; [reflexivity|].
    rewrite val_assert, val_bind, IH. f_equal. apply obind_ext. intro. apply val_fin.
  Qed.
  Lemma val_get key t : val (c_get V key t) = Some (get V key t).
  Proof.
    induction t as [|c l IHl k v r IHr h]; cbn [c_get get]; [reflexivity|]. rewrite val_tick.
    destruct (bcmp key k); [reflexivity|exact IHl|exact IHr].
  Qed.
  Lemma val_delete key t : val (c_delete H V vhash key t) = delete H V vhash key t.
  Proof.
    unfold c_delete, delete. rewrite val_bind, val_get. cbn [obind]. destruct (get V key t); [|reflexivity].
    rewrite val_bind, val_delete_go. apply obind_ext. intro t2. rewrite val_bind, val_get. cbn [obind]. rewrite val_assert. reflexivity.
  Qed.

  (** ** Bounds *)
  Definition most {X} (o : cost X) (b : nat) : Prop := forall x n, o = Some (x, n) -> n <= b.
  Lemma most_bind {X Y} (o : cost X) (f : X -> cost Y) a b :
    most o a -> (forall x, val o = Some x -> most (f x) b) -> most (cbind o f) (a + b).
  Proof.
    intros M F y n E. destruct o as [[x m]|]; [|discriminate]. simpl in E.
    destruct (f x) as [[y' m']|] eqn:Ef; [|discriminate]. injection E as <- <-.
    specialize (M x m eq_refl). specialize (F x eq_refl y' m' Ef). lia.
  Qed.
  Lemma most_tick {X} (o : cost X) a : most o a -> most (tick o) (S a).
  Proof. intros M y n E. destruct o as [[x m]|]; [|discriminate]. injection E as <- <-. specialize (M _ _ eq_refl). lia. Qed.
  Lemma most_ret {X} (x : X) a : most (cret x) a.
  Proof. intros y n E. injection E as <- <-. lia. Qed.
  Lemma most_assert {X} b (o : cost X) a : (b = true -> most o a) -> most (assert_ b o) a.
  Proof. destruct b; intros M; [auto|]. intros x n E. discriminate. Qed.
  Lemma most_none {X} a : most (@None (X * nat)) a.
  Proof. intros x n E. discriminate. Qed.
  Lemma most_le {X} (o : cost X) a b : most o a -> a <= b -> most o b.
  Proof. intros M L x n E. specialize (M _ _ E). lia. Qed.
  Lemma most_upd c l k v r : most (c_upd H V vhash c l k v r) 1.
  Proof. apply most_tick, most_ret. Qed.
  Lemma most_rotr h : most (c_rotate_right H V vhash h) 2.
  Proof.
    destruct h as [|c [|[] ? ? ? ? ?] k v r hh]; try apply most_none.
    apply (most_bind _ _ 1 1); [apply most_upd|intros; apply most_upd].
  Qed.
  Lemma most_rotl h : most (c_rotate_left H V vhash h) 2.
  Proof.
    destruct h as [|c l k v [|[] ? ? ? ? ?] hh]; try apply most_none.
    apply (most_bind _ _ 1 1); [apply most_upd|intros; apply most_upd].
  Qed.
  Lemma most_flip h : most (c_flip_colors V h) 0.
  Proof. unfold c_flip_colors. destruct (flip_colors V h); [apply most_ret|apply most_none]. Qed.
  Lemma most_balance h : most (c_balance H V vhash h) 4.
  Proof.
    unfold c_balance. apply (most_bind _ _ 2 2); [destruct (_ && _); [apply most_rotl|apply most_ret]|]. intros h1 _.
    apply (most_bind _ _ 2 0); [destruct (_ && _); [apply most_rotr|apply most_ret]|]. intros h2 _.
    destruct (_ && _); [apply most_flip|apply most_ret].
  Qed.
  Lemma most_fin c l k v r : most (cdo n <- c_upd H V vhash c l k v r; c_balance H V vhash n) 5.
  Proof. apply (most_bind _ _ 1 4); [apply most_upd|intros; apply most_balance]. Qed.
  Lemma most_mrl h : most (c_move_red_left H V vhash h) 4.
  Proof.
    unfold c_move_red_left. apply (most_bind _ _ 0 4); [apply most_flip|]. intros [|c l k v r hh] _; [apply most_none|].
    destruct (is_red V _); [|apply most_ret].
    apply (most_bind _ _ 2 2); [apply most_rotr|]. intros r' _. apply (most_bind _ _ 2 0); [apply most_rotl|]. intros; apply most_flip.
  Qed.
  Lemma most_mrr h : most (c_move_red_right H V vhash h) 2.
  Proof.
    unfold c_move_red_right. apply (most_bind _ _ 0 2); [apply most_flip|]. intros h1 _.
    destruct (is_red V _); [|apply most_ret].
    apply (most_bind _ _ 2 0); [apply most_rotr|]. intros; apply most_flip.
  Qed.

  (** The longest path. *)
  Fixpoint height (t : rb) : nat := match t with E => 0 | T _ l _ _ r _ => S (max (height l) (height r)) end.
  Lemma height_bound t : forall n, (B n t -> height t <= 2 * n) /\ (A n t -> height t <= 2 * n + 1).
  Proof.
    induction t as [|c l IHl k v r IHr h]; intro n; [simpl; split; intros; lia|].
    assert (X : forall n, B n (T c l k v r h) -> height (T c l k v r h) <= 2 * n).
    { intros m P. inversion P as [|m' ? ? ? ? ? Al Br]; subst. simpl. apply IHl in Al. apply IHr in Br. lia. }
    split; [apply X|]. intro P. inversion P as [? ? Q|? ? ? ? ? ? Bl Br]; subst; [apply X in Q; lia|].
    simpl. apply IHl in Bl. apply IHr in Br. lia.
  Qed.
  Lemma R_height n t : R n t -> height t <= 2 * n + 1.
  Proof. intro P. apply (proj2 (height_bound t n)). apply A_cases. auto. Qed.
  Lemma BL_B n t : BL n t -> B n t.
  Proof. intro P. inversion P; subst. constructor; [apply A_cases; auto|assumption]. Qed.

  Lemma most_insert_go k v t : most (c_insert_go H V vhash k v t) (6 * height t + 2).
  Proof.
    induction t as [|c l IHl k' v' r IHr h]; cbn [c_insert_go height].
    - apply (most_tick _ 1), (most_tick _ 0), most_ret.
    - eapply most_le; [apply (most_tick _ (6 * max (height l) (height r) + 2 + 5))|lia]. destruct (bcmp k k').
      + eapply most_le; [apply most_fin|lia].
      + apply most_bind; [eapply most_le; [apply IHl|lia]|intros; apply most_fin].
      + apply most_bind; [eapply most_le; [apply IHr|lia]|intros; apply most_fin].
  Qed.
  Lemma most_modify key f t : most (c_modify H V vhash key f t) (2 * height t + 1).
  Proof.
    induction t as [|c l IHl k v r IHr h]; cbn [c_modify height].
    - apply (most_tick _ 0), most_ret.
    - eapply most_le; [apply (most_tick _ (2 * max (height l) (height r) + 1 + 1))|lia]. destruct (bcmp key k).
      + eapply most_le; [apply most_upd|lia].
      + apply most_bind; [eapply most_le; [apply IHl|lia]|intros; apply most_upd].
      + apply most_bind; [eapply most_le; [apply IHr|lia]|intros; apply most_upd].
  Qed.
  Lemma most_get key t : most (c_get V key t) (height t + 1).
  Proof.
    induction t as [|c l IHl k v r IHr h]; cbn [c_get height].
    - apply (most_tick _ 0), most_ret.
    - apply (most_tick _ (max (height l) (height r) + 1)). destruct (bcmp key k).
      + apply most_ret.
      + eapply most_le; [apply IHl|lia].
      + eapply most_le; [apply IHr|lia].
  Qed.
  Lemma most_swap_min k v t : most (c_swap_min V k v t) (height t).
  Proof.
    induction t as [|c l IHl mk mv r IHr h]; [apply most_none|]. cbn [c_swap_min height].
    apply (most_tick _ (max (height l) (height r))).
    destruct l as [|lc ll lk lv lr lh]; [apply most_ret|].
    eapply most_le; [apply (most_bind _ _ (height (T lc ll lk lv lr lh)) 0); [apply IHl|intros; apply most_ret]|lia].
  Qed.

  Lemma most_delete_min fuel : forall n t,
    (R n t -> most (c_delete_min H V vhash fuel t) (10 * (2 * n + 2))) /\
    (BL n t -> most (c_delete_min H V vhash fuel t) (10 * (2 * n + 1))).
  Proof.
    induction fuel as [|fuel IH]; intros n t; [split; intros; apply most_none|].
    split; intro P; inversion P as [m l k v r h Pl Br]; subst; cbn [c_delete_min left_of];
      (destruct l as [|lc ll lk lv lr lh]; [eapply most_le; [apply (most_tick _ 0); apply most_assert; intros; apply most_ret|lia]|]);
      set (l := T lc ll lk lv lr lh) in *.
    - replace (10 * (2 * n + 2)) with (S (4 + (10 * (2 * n + 1) + 5))) by lia. apply most_tick, most_bind.
      { destruct (_ && _); [apply most_mrl|apply most_ret]. }
      intros [|c1 l1 k1 v1 r1 h1] E1; [apply most_none|]. apply most_assert. intros _.
      apply most_bind; [|intros; apply most_fin].
      rewrite (B_not_red _ _ _ Pl) in E1. cbn [negb andb] in E1.
      destruct (is_red V (left_of V l)) eqn:N; cbn [negb] in E1.
      + injection E1 as <- <- <- <- <- <-. apply IH. inversion Pl as [|m ? ? ? ? ? Al' Blr]; subst l. subst. simpl in N.
        apply A_cases in Al'. destruct Al' as [Q|Q]; [rewrite (B_not_red _ _ _ Q) in N; congruence|]. constructor; auto.
      + rewrite val_mrl in E1. assert (exists m, n = S m) as [m ->] by (inversion Pl; subst; eauto).
        destruct (move_red_left_shape H V vhash m l k v r h Pl Br N) as (c' & l' & k' & v' & r' & h' & E2 & Cases).
        rewrite E2 in E1. injection E1 as <- <- <- <- <- <-.
        destruct Cases as [(-> & Rl & Rr)|(-> & BLl & Br')].
        * eapply most_le; [apply (proj1 (IH m l')); exact Rl|lia].
        * apply IH. exact BLl.
    - replace (10 * (2 * S m + 1)) with (S (4 + (10 * (2 * m + 2) + 5))) by lia. apply most_tick, most_bind.
      { destruct (_ && _); [apply most_mrl|apply most_ret]. }
      rewrite (R_red _ _ _ Pl). cbn [negb andb].
      intros [|c1 l1 k1 v1 r1 h1] E1; [discriminate|]. injection E1 as <- <- <- <- <- <-. apply most_assert. intros _.
      apply most_bind; [|intros; apply most_fin]. apply IH. exact Pl.
  Qed.

  (** the tail of [delete_go] after the restructuring of the right spine *)
  Definition go_cost (fuel : nat) (key : bytes) (t : rb) (u : nat) : Prop := most (c_delete_go H V vhash fuel key t) (11 * u).
  Lemma most_tail fuel key c l k v r u :
    is_some V r = true ->
    (bytes_eqb key k = true -> (exists n, R n r /\ u = 2 * n + 2) \/ (exists n, BL n r /\ u = 2 * n + 1)) ->
    (bytes_eqb key k = false -> go_cost fuel key r u) ->
    most (if bytes_eqb key k then
            cdo x <- c_swap_min V k v r;
            let '(mk, mv, r') := x in
            cdo r'' <- c_delete_min H V vhash fuel r';
            cdo n <- c_upd H V vhash c l mk mv r''; c_balance H V vhash n
          else
            cdo r' <- c_delete_go H V vhash fuel key r;
            cdo n <- c_upd H V vhash c l k v r'; c_balance H V vhash n) (11 * u + 5).
  Proof.
    intros S1 Y N. destruct (bytes_eqb key k).
    - specialize (Y eq_refl). clear N.
      replace (11 * u + 5) with (u + (10 * u + 5)) by lia. apply most_bind.
      + eapply most_le; [apply most_swap_min|]. destruct Y as [(n & P & ->)|(n & P & ->)].
        * apply R_height in P. lia.
        * apply BL_B, (proj1 (height_bound r n)) in P. lia.
      + intros [[mk mv] r'] E1. rewrite val_swap_min in E1. apply most_bind; [|intros; apply most_fin].
        destruct (swap_min_shape H V vhash k v r S1) as (mk' & mv' & r0 & E2 & _ & _ & Sh). rewrite E2 in E1. injection E1 as <- <- <-.
        destruct Y as [(n & P & ->)|(n & P & ->)]; apply most_delete_min; apply Sh; exact P.
    - apply most_bind; [apply N; reflexivity|intros; apply most_fin].
  Qed.

  Lemma most_delete_go fuel : forall key n t, bst t ->
    (R n t -> go_cost fuel key t (2 * n + 2)) /\
    (BL n t -> go_cost fuel key t (2 * n + 1)) /\
    (BR n t -> ble (root_key V t) key -> go_cost fuel key t (2 * n + 1)).
  Proof.
    induction fuel as [|fuel IH]; intros key n t S; [repeat split; intros; apply most_none|].
    specialize (IH key). unfold go_cost in *. cbn [c_delete_go].
    assert (IHR : forall n t, bst t -> R n t -> most (c_delete_go H V vhash fuel key t) (11 * (2 * n + 2))) by (intros n0 t0 S0; apply (IH n0 t0 S0)).
    assert (IHL : forall n t, bst t -> BL n t -> most (c_delete_go H V vhash fuel key t) (11 * (2 * n + 1))) by (intros n0 t0 S0; apply (IH n0 t0 S0)).
    assert (IHB : forall n t, bst t -> BR n t -> ble (root_key V t) key -> most (c_delete_go H V vhash fuel key t) (11 * (2 * n + 1))) by (intros n0 t0 S0; apply (IH n0 t0 S0)).
    clear IH.
    split; [|split].
    - intro P. inversion P as [? l0 k0 v0 r0 h0 Bl Br]; subst.
      set (t := T Red l0 k0 v0 r0 h0) in *.
      destruct (bcmp_spec key k0) as [C|C|C].
      2:{ eapply most_le; [apply (most_tick _ (4 + (11 * (2 * n + 1) + 5)))|lia]. apply most_assert. intros Is. apply most_bind.
          { destruct (_ && _); [apply most_mrl|apply most_ret]. }
          intros [|c1 l1 k1 v1 r1 h1] E1; [apply most_none|]. apply most_assert. intros _.
          apply most_bind; [|intros; apply most_fin].
          rewrite (B_not_red _ _ _ Bl) in E1. cbn [negb andb] in E1.
          destruct (is_red V (left_of V l0)) eqn:N; cbn [negb] in E1.
          - injection E1 as <- <- <- <- <- <-.
            inversion Bl as [|m ll lk lv lr lh All Blr]; subst l0; [discriminate|]. subst n. simpl in N.
            apply A_cases in All. destruct All as [Q|Q]; [rewrite (B_not_red _ _ _ Q) in N; congruence|].
            apply IHL; [apply bst_node in S; apply S|constructor; auto].
          - rewrite val_mrl in E1. assert (exists m, n = Datatypes.S m) as [m ->] by (inversion Bl; subst; [discriminate|eauto]).
            assert (Q := elems_mrl H V vhash _ _ E1). assert (S1 := bst_ext V _ _ Q S). apply bst_node in S1.
            destruct (move_red_left_shape H V vhash m l0 k0 v0 r0 h0 Bl Br N) as (c' & l' & k' & v' & r' & h' & E2 & Cases).
            fold t in E2. rewrite E2 in E1. injection E1 as <- <- <- <- <- <-.
            destruct Cases as [(-> & Rl & Rr)|(-> & BLl & Br')].
            + eapply most_le; [apply (IHR m l' (proj1 S1)); exact Rl|lia].
            + apply IHL; [apply S1|exact BLl]. }
      all: assert (C' : ble k0 key) by (first [apply blt_ble; exact C | rewrite C; apply ble_refl]).
      all: clear C; rename C' into C.
      all: eapply most_le; [apply (most_tick _ (2 + (2 + (11 * (2 * n + 1) + 5))))|lia]; rewrite (B_not_red _ _ _ Bl); apply most_bind; [apply most_ret|].
      all: intros [|c1 l1 k1 v1 r1 h1] E1; [discriminate|]; injection E1 as <- <- <- <- <- <-.
      all: destruct (bytes_eqb key k0 && negb (is_some V r0)) eqn:G; [apply most_assert; intros _; apply most_ret|].
      all: apply most_assert; intros Is; rewrite (B_not_red _ _ _ Br) in Is |- *; cbn [orb] in Is; cbn [negb andb].
      all: assert (exists m, n = Datatypes.S m) as [m ->] by (inversion Br; subst; [discriminate|eauto]).
      all: apply most_bind; [destruct (negb (is_red V (left_of V r0))); [apply most_mrr|apply most_ret]|].
      all: intros [|c2 l2 k2 v2 r2 h2] E2; [apply most_none|]; apply most_assert; intros Is2.
      all: destruct (is_red V (left_of V r0)) eqn:N; cbn [negb] in E2.
      1,3: injection E2 as <- <- <- <- <- <-;
        assert (PB : BL (Datatypes.S m) r0) by
          (inversion Br as [|m0 rl rk rv rr rh Arl Brr]; subst; simpl in N;
           apply A_cases in Arl; destruct Arl as [Q|Q]; [rewrite (B_not_red _ _ _ Q) in N; congruence|]; constructor; auto);
        apply most_tail; [exact Is|intros _; right; eauto|intros _; apply IHL; [apply bst_node in S; apply S|exact PB]].
      all: rewrite val_mrr in E2; assert (Q := elems_mrr H V vhash _ _ E2); assert (S1 := bst_ext V _ _ Q S).
      all: destruct (move_red_right_shape H V vhash m l0 k0 v0 r0 h0 Bl Br N) as (c' & l' & k' & v' & r' & h' & E3 & Cases);
        unfold t in E2; rewrite E3 in E2; injection E2 as <- <- <- <- <- <-.
      all: destruct Cases as [(-> & -> & Rl & Rr)|(-> & Bl' & BRr & (a & v1 & b & h1 & Er))].
      1,3: eapply most_le; [apply (most_tail _ _ _ _ _ _ _ (2 * m + 2));
            [exact Is2|intros _; left; eauto|intros _; apply IHR; [apply bst_node in S1; apply S1|exact Rr]]|lia].
      all: assert (G2 : key <> k') by
        (intro; subst; apply bst_node in S1; destruct S1 as (_ & _ & _ & Fr);
         assert (X : blt k' k0) by (apply Fr; simpl; rewrite map_app; apply in_or_app; right; left; reflexivity);
         apply (ble_nblt _ _ C); exact X).
      all: apply most_tail; [exact Is2|intro Z; apply bytes_eqb_eq in Z; congruence|];
        intros _; apply IHB; [apply bst_node in S1; apply S1|exact BRr|subst r'; exact C].
    - intro P. inversion P as [m l0 k0 v0 r0 h0 Rl Br]; subst.
      set (t := T Black l0 k0 v0 r0 h0) in *.
      destruct (bcmp_spec key k0) as [C|C|C].
      2:{ eapply most_le; [apply (most_tick _ (4 + (11 * (2 * m + 2) + 5)))|lia]. apply most_assert. intros Is.
          rewrite (R_red _ _ _ Rl). cbn [negb andb]. apply most_bind; [apply most_ret|].
          intros [|c1 l1 k1 v1 r1 h1] E1; [apply most_none|]. injection E1 as <- <- <- <- <- <-. apply most_assert. intros _.
          apply most_bind; [|intros; apply most_fin]. apply IHR; [apply bst_node in S; apply S|exact Rl]. }
      all: eapply most_le; [apply (most_tick _ (2 + (2 + (11 * (2 * m + 2) + 5))))|lia]; rewrite (R_red _ _ _ Rl); apply most_bind; [apply most_rotr|].
      all: intros [|c1 l1 k1 v1 r1 h1] E1; [apply most_none|]; rewrite val_rotr in E1.
      all: assert (Q := elems_rotr H V vhash _ _ E1); assert (S1 := bst_ext V _ _ Q S).
      all: inversion Rl as [? xl xk xv xr xh Bxl Bxr]; subst l0; subst n; unfold t in E1; cbn [rotate_right] in E1; unfold upd in E1; injection E1 as <- <- <- <- <- <-.
      all: cbn [is_some negb is_red andb orb]; rewrite andb_false_r; cbn [assert_].
      all: apply most_bind; [apply most_ret|]; intros [|c2 l2 k2 v2 r2 h2] E2; [apply most_none|]; injection E2 as <- <- <- <- <- <-; apply most_assert; intros Is2.
      all: apply most_tail; [exact Is2|intros _; left; exists m; split; [constructor; auto|reflexivity]|intros _; apply IHR; [apply bst_node in S1; apply S1|constructor; auto]].
    - intros P C. inversion P as [m l0 k0 v0 r0 h0 Bl Rr]; subst.
      cbn [root_key] in C.
      set (t := T Black l0 k0 v0 r0 h0) in *.
      destruct (bcmp_spec key k0) as [D|D|D]; [|exfalso; exact (ble_nblt _ _ C D)|].
      all: eapply most_le; [apply (most_tick _ (2 + (2 + (11 * (2 * m + 2) + 5))))|lia]; rewrite (B_not_red _ _ _ Bl); apply most_bind; [apply most_ret|].
      all: intros [|c1 l1 k1 v1 r1 h1] E1; [apply most_none|]; injection E1 as <- <- <- <- <- <-.
      all: rewrite (R_some _ _ _ Rr), (R_red _ _ _ Rr); cbn [negb orb andb assert_]; rewrite andb_false_r.
      all: apply most_bind; [apply most_ret|]; intros [|c2 l2 k2 v2 r2 h2] E2; [apply most_none|]; injection E2 as <- <- <- <- <- <-; apply most_assert; intros Is2.
      all: apply most_tail; [exact Is2|intros _; left; exists m; split; [exact Rr|reflexivity]|intros _; apply IHR; [apply bst_node in S; apply S|exact Rr]].
  Qed.

  Lemma filter_len {X} (f : X -> bool) l : length (filter f l) <= length l.
  Proof. induction l as [|a l IH]; simpl; [lia|]. destruct (f a); simpl; lia. Qed.
  Lemma B_size n t : (B n t -> 2 ^ n <= size V t + 1) .
  Proof.
    enough (X : forall t n, (B n t -> 2 ^ n <= size V t + 1) /\ (A n t -> 2 ^ n <= size V t + 1)) by apply X.
    clear n t. induction t as [|c l IHl k v r IHr h]; intro n.
    - assert (X : forall n, B n E -> 2 ^ n <= size V E + 1) by (intros m P; inversion P; subst; simpl; auto).
      split; [apply X|]. intro P. inversion P as [? ? Q|]; subst. apply X. exact Q.
    - assert (X : forall n, B n (T c l k v r h) -> 2 ^ n <= size V (T c l k v r h) + 1).
      { intros m P. inversion P as [|m' ? ? ? ? ? Al Br]; subst. apply IHl in Al. apply IHr in Br. cbn [size Nat.pow]. lia. }
      split; [apply X|]. intro P. inversion P as [? ? Q|? ? ? ? ? ? Bl Br]; subst; [apply X in Q; exact Q|].
      apply IHl in Bl. apply IHr in Br. cbn [size]. lia.
  Qed.
  Lemma B_log n t s : B n t -> size V t <= s -> n <= Nat.log2 (s + 1).
  Proof. intros P L. apply B_size in P. apply Nat.log2_le_pow2; lia. Qed.
  Lemma B_height_log n t s : B n t -> size V t <= s -> height t <= 2 * Nat.log2 (s + 1).
  Proof. intros P L. assert (Q := proj1 (height_bound t n) P). assert (Z := B_log n t s P L). lia. Qed.

  Lemma most_delete key t s : good V t -> size V t <= s -> most (c_delete H V vhash key t) (26 * Nat.log2 (s + 1) + 13).
  Proof.
    intros [S [n P]] L. unfold c_delete. assert (Hh := B_height_log n t s P L). assert (Hn := B_log n t s P L).
    set (g := Nat.log2 (s + 1)) in *.
    replace (26 * g + 13) with ((2 * g + 1) + ((11 * (2 * g + 1)) + (2 * g + 1))) by lia.
    apply most_bind; [eapply most_le; [apply most_get|lia]|].
    intros [v|] G; [|apply most_ret]. rewrite val_get in G. apply (f_equal (fun o => match o with Some x => x | None => None end)) in G.
    set (t1 := if negb (is_red V (left_of V t)) && negb (is_red V (right_of V t)) then set_color V Red t else t).
    assert (Q : elems t1 = elems t) by (unfold t1; destruct (_ && _); [apply elems_set_color|reflexivity]).
    assert (S1 := bst_ext _ _ _ Q S).
    apply most_bind.
    - inversion P as [|m l k w r h Al Br]; subst; [discriminate|].
      unfold t1 in *. cbn [left_of right_of] in *. rewrite (B_not_red _ _ _ Br) in *. cbn [negb] in *. rewrite andb_true_r in *.
      apply A_cases in Al. destruct Al as [Bl|Rl].
      + rewrite (B_not_red _ _ _ Bl) in *. cbn [negb] in *.
        eapply most_le; [apply (proj1 (most_delete_go (Datatypes.S (size V (set_color V Red (T Black l k w r h)))) key m _ S1)); constructor; auto|lia].
      + rewrite (R_red _ _ _ Rl) in *. cbn [negb] in *.
        eapply most_le; [apply (proj1 (proj2 (most_delete_go (Datatypes.S (size V (T Black l k w r h))) key (Datatypes.S m) _ S1))); constructor; auto|lia].
    - intros t2 E2. rewrite val_delete_go in E2.
      replace (2 * g + 1) with ((2 * g + 1) + 0) by lia. apply most_bind; [|intros; apply most_assert; intros; apply most_ret].
      destruct (delete_shape H V vhash key t n S P) as (t' & m' & Ed & Pm).
      assert (Et : t' = set_color V Black t2).
      { unfold delete in Ed. simpl in G. rewrite G in Ed. fold t1 in Ed. rewrite E2 in Ed. cbn [obind] in Ed.
        unfold assert_ in Ed. destruct (match get V key (set_color V Black t2) with Some _ => false | None => true end); congruence. }
      assert (Es := delete_elems H V vhash key t t' S Ed).
      assert (Lt : size V t' <= s).
      { rewrite size_elems, Es. rewrite size_elems in L. unfold adel. eapply Nat.le_trans; [apply filter_len|exact L]. }
      subst t'. eapply most_le; [apply most_get|]. assert (Z := B_height_log _ _ _ Pm Lt). fold g in Z. lia.
  Qed.
  Lemma most_insert k v t s : good V t -> size V t <= s -> most (c_insert H V vhash k v t) (12 * Nat.log2 (s + 1) + 2).
  Proof.
    intros [S [n P]] L. assert (Hh := B_height_log n t s P L). unfold c_insert.
    replace (12 * Nat.log2 (s + 1) + 2) with ((12 * Nat.log2 (s + 1) + 2) + 0) by lia.
    apply most_bind; [eapply most_le; [apply most_insert_go|lia]|intros; apply most_ret].
  Qed.
  Lemma most_modify_log k f t s : good V t -> size V t <= s -> most (c_modify H V vhash k f t) (4 * Nat.log2 (s + 1) + 1).
  Proof. intros [S [n P]] L. assert (Hh := B_height_log n t s P L). eapply most_le; [apply most_modify|lia]. Qed.

  Lemma val_step t o : val (c_step H V vhash t o) = step H V vhash t o.
  Proof. destruct o; [apply val_insert|apply val_delete|apply val_modify]. Qed.
  Lemma some_cost {X} (o : cost X) x b : val o = Some x -> most o b -> exists w, o = Some (x, w) /\ w <= b.
  Proof. intros E1 M. destruct o as [[y w]|]; [|discriminate]. simpl in E1. injection E1 as ->. exists w. split; [reflexivity|]. apply (M _ _ eq_refl). Qed.
  Lemma most_step t o s : good V t -> size V t <= s -> most (c_step H V vhash t o) (26 * Nat.log2 (s + 1) + 13).
  Proof.
    intros G L. destruct o; cbn [c_step].
    - eapply most_le; [apply most_insert; eassumption|lia].
    - apply most_delete; assumption.
    - eapply most_le; [apply most_modify_log; eassumption|lia].
  Qed.
  Lemma spec_step_length es (o : op V) : length (spec_step V es o) <= S (length es).
  Proof.
    destruct o as [k v|k|k f]; cbn [spec_step].
    - induction es as [|[a b] es IH]; cbn [ains length]; [lia|]. destruct (bcmp k a); cbn [length]; lia.
    - unfold adel. eapply Nat.le_trans; [apply filter_len|lia].
    - unfold amod. rewrite map_length. lia.
  Qed.
  Lemma run_cost ops : forall t s, good V t -> size V t + length ops <= s ->
    exists t' w, run H V vhash ops t = Some t' /\ c_run H V vhash ops t = Some (t', w) /\ w <= length ops * (26 * Nat.log2 (s + 1) + 13).
  Proof.
    induction ops as [|o ops IH]; intros t s G L; [exists t, 0; repeat split; simpl; lia|].
    destruct (step_good H V vhash o t G) as (t1 & E1 & G1 & Q1). cbn [length] in L.
    assert (Ls : size V t1 <= S (size V t)) by (rewrite !size_elems, Q1; apply spec_step_length).
    destruct (some_cost (c_step H V vhash t o) t1 (26 * Nat.log2 (s + 1) + 13)) as (w1 & C1 & B1).
    { rewrite val_step. exact E1. } { apply most_step; [exact G|lia]. }
    destruct (IH t1 s G1) as (t2 & w2 & R2 & C2 & B2); [lia|].
    exists t2, (w1 + w2). cbn [run c_run]. rewrite E1, C1. cbn [obind cbind]. rewrite R2, C2. split; [reflexivity|]. split; [reflexivity|].
    cbn [length Nat.mul]. lia.
  Qed.
End Cost.

(** C135: with [n] keys stored (the list [ks]), an insertion, an update in place
    and a removal each look at no more nodes and recompute no more subtree hashes
    than a constant times log2 (n + 1), whatever the history was. *)
Theorem C135_changes_are_logarithmic :
  forall (H : bytes -> bytes) (V : Type) (vhash : V -> bytes) (ops : list (op V)) (t : rb V) (ks : list bytes),
  run H V vhash ops E = Some t ->
  (forall k, In k ks <-> map_after V ops k <> None) -> NoDup ks ->
  (forall k v, exists t' work, insert H V vhash k v t = Some t' /\
     c_insert H V vhash k v t = Some (t', work) /\ work <= 12 * Nat.log2 (length ks + 1) + 2) /\
  (forall k f, exists work,
     c_modify H V vhash k f t = Some (modify H V vhash k f t, work) /\ work <= 4 * Nat.log2 (length ks + 1) + 1) /\
  (forall k, exists t' work, delete H V vhash k t = Some t' /\
     c_delete H V vhash k t = Some (t', work) /\ work <= 26 * Nat.log2 (length ks + 1) + 13).
Proof.
  intros H V vhash ops t ks R D N. destruct (reach_good V H vhash ops t R) as [G Q]. assert (S := proj1 G).
  assert (L : size V t <= length ks).
  { rewrite size_elems, <- (map_length fst). apply NoDup_incl_length.
    - clear -S. unfold bst, sorted in S. induction (map fst (elems V t)) as [|a l IH]; constructor; inversion S; subst; auto.
      rewrite Forall_forall in H2. intro I. exact (blt_irrefl _ (H2 _ I)).
    - intros x I. apply D. rewrite <- Q, get_elems by exact S. rewrite aget_none. tauto. }
  split; [|split].
  - intros k v. destruct (step_good H V vhash (OpInsert V k v) t G) as (t' & E1 & _). cbn [step] in E1.
    destruct (some_cost (c_insert H V vhash k v t) t' (12 * Nat.log2 (length ks + 1) + 2)) as (w & C & B).
    { rewrite val_insert. exact E1. } { apply most_insert; assumption. }
    exists t', w. auto.
  - intros k f. apply some_cost; [apply val_modify|apply most_modify_log; assumption].
  - intros k. destruct (step_good H V vhash (OpDelete V k) t G) as (t' & E1 & _). cbn [step] in E1.
    destruct (some_cost (c_delete H V vhash k t) t' (26 * Nat.log2 (length ks + 1) + 13)) as (w & C & B).
    { rewrite val_delete. exact E1. } { apply most_delete; assumption. }
    exists t', w. auto.
Qed.
Print Assumptions C135_changes_are_logarithmic.

(** C135: a history of [m] operations does at most [m] times that much work. *)
Theorem C135_histories_are_m_log_m :
  forall (H : bytes -> bytes) (V : Type) (vhash : V -> bytes) (ops : list (op V)),
  exists t work, run H V vhash ops E = Some t /\ c_run H V vhash ops E = Some (t, work) /\
    work <= length ops * (26 * Nat.log2 (length ops + 1) + 13).
Proof.
  intros H V vhash ops. apply run_cost; [apply good_E|]. simpl. lia.
Qed.
Print Assumptions C135_histories_are_m_log_m.

(** The history of C08 meets the hypotheses (its key set is [ex_domain]), and the counters of a
    removal and an insertion after it are these. *)
Example C135_ex :
  (exists t, run sha256 bytes (leaf_hash sha256) ex_ops E = Some t) /\
  (let ks := [bs "b"; bs "d"; bs "c"; bs "bb"] in NoDup ks /\ forall k, In k ks <-> map_after bytes ex_ops k <> None) /\
  option_map snd (c_run (fun x => x) bytes (fun x => x) ex_ops E) = Some 42 /\
  option_map snd (do t <- run (fun x => x) bytes (fun x => x) ex_ops E; c_delete (fun x => x) bytes (fun x => x) (bs "b") t) = Some 11.
Proof.
  split; [destruct ex_run as (t & R & _); exists t; exact R|]. split; [exact ex_domain|].
  split; vm_compute; reflexivity.
Qed.
