(** Cached hashes are never stale; depth; iteration. *)
From Coq Require Import List NArith Bool Lia Arith.
From Verif Require Import Bytes HashTree HashTreeSpec HashTreeProofs RbTree RbShape RbContent.
Import ListNotations.

Section Hash.
  Variable H : bytes -> bytes.
  Variable V : Type.
  Variable vhash : V -> bytes.
  Variable vtree : V -> htree.
  Notation rb := (rb V).
  Notation upd := (upd H V vhash).

  (** every cached hash is the recomputed one *)
  Fixpoint hok (t : rb) : Prop :=
    match t with
    | E => True
    | T _ l k v r h => hok l /\ hok r /\ h = compute_subtree_hash H V vhash l k v r
    end.
  (** same, but the hashes on the left spine may be stale *)
  Fixpoint sok (t : rb) : Prop :=
    match t with
    | E => True
    | T _ l k v r _ => sok l /\ hok r
    end.

  Lemma hok_sok t : hok t -> sok t.
  Proof. induction t; simpl; tauto. Qed.

  Lemma hok_upd c l k v r : hok l -> hok r -> hok (upd c l k v r).
  Proof. simpl. auto. Qed.

  Lemma csh_color c c' l k v r h l' k' v' :
    compute_subtree_hash H V vhash l' k' v' (T c l k v r h) = compute_subtree_hash H V vhash l' k' v' (T c' l k v r h).
  Proof. reflexivity. Qed.

  Lemma hok_flip h h' : flip_colors V h = Some h' -> hok h -> hok h'.
  Proof.
    destruct h as [|c [|lc ll lk lv lr lh] k v [|rc rl rk rv rr rh] hh]; simpl; try discriminate.
    intro X; injection X as <-. simpl. tauto.
  Qed.
  Lemma hok_rotr h h' : rotate_right H V vhash h = Some h' -> hok h -> hok h'.
  Proof.
    destruct h as [|c [|[] ll lk lv lr lh] k v r hh]; simpl; try discriminate.
    intro X; injection X as <-. simpl. tauto.
  Qed.
  Lemma hok_rotl h h' : rotate_left H V vhash h = Some h' -> hok h -> hok h'.
  Proof.
    destruct h as [|c l k v [|[] rl rk rv rr rh] hh]; simpl; try discriminate.
    intro X; injection X as <-. simpl. tauto.
  Qed.
  Lemma hok_balance h h' : balance H V vhash h = Some h' -> hok h -> hok h'.
  Proof.
    unfold balance. intros X K.
    assert (Y : forall (b : bool) (g : rb -> option rb) a a',
      (forall x y, g x = Some y -> hok x -> hok y) -> hok a ->
      (if b then g a else Some a) = Some a' -> hok a').
    { intros [] g a a' G Ka Z; [eapply G; eauto|injection Z as <-; auto]. }
    destruct (if is_red V (right_of V h) && negb (is_red V (left_of V h)) then rotate_left H V vhash h else Some h) as [h1|] eqn:E1;
      cbn [obind] in X; [|discriminate].
    apply Y in E1; [|apply hok_rotl|exact K].
    destruct (if is_red V (left_of V h1) && is_red V (left_of V (left_of V h1)) then rotate_right H V vhash h1 else Some h1) as [h2|] eqn:E2;
      cbn [obind] in X; [|discriminate].
    apply Y in E2; [|apply hok_rotr|exact E1].
    apply Y in X; [exact X|apply hok_flip|exact E2].
  Qed.
  Lemma hok_mrl h h' : move_red_left H V vhash h = Some h' -> hok h -> hok h'.
  Proof.
    unfold move_red_left. destruct (flip_colors V h) as [h1|] eqn:E1; cbn [obind]; try discriminate.
    intros X K. assert (K1 := hok_flip _ _ E1 K). destruct h1 as [|c l k v r hh]; try discriminate.
    destruct (is_red V (left_of V r)).
    - destruct (rotate_right H V vhash r) as [r'|] eqn:E2; cbn [obind] in X; try discriminate.
      destruct (rotate_left H V vhash (T c l k v r' hh)) as [h2|] eqn:E3; cbn [obind] in X; try discriminate.
      apply hok_flip in X; auto. simpl in K1. assert (K2 := hok_rotr _ _ E2 (proj1 (proj2 K1))).
      (* rotate_left does not use the hash of its argument *)
      destruct r' as [|[] rl rk rv rr rh]; cbn [rotate_left] in E3; try discriminate.
      injection E3 as <-. simpl in K2. simpl. tauto.
    - injection X as <-. exact K1.
  Qed.
  Lemma hok_mrr h h' : move_red_right H V vhash h = Some h' -> hok h -> hok h'.
  Proof.
    unfold move_red_right. destruct (flip_colors V h) as [h1|] eqn:E1; cbn [obind]; try discriminate.
    intros X K. assert (K1 := hok_flip _ _ E1 K).
    destruct (is_red V (left_of V (left_of V h1))).
    - destruct (rotate_right H V vhash h1) as [h2|] eqn:E2; cbn [obind] in X; try discriminate.
      eapply hok_flip; [exact X|]. eapply hok_rotr; eauto.
    - injection X as <-. exact K1.
  Qed.
  (** [move_red_left] on a tree with stale left spine *)
  Lemma sok_mrl h h' : move_red_left H V vhash h = Some h' -> sok h -> sok h'.
  Proof.
    unfold move_red_left. destruct (flip_colors V h) as [h1|] eqn:E1; cbn [obind]; try discriminate.
    intros X K.
    assert (K1 : sok h1).
    { destruct h as [|c [|lc ll lk lv lr lh] k v [|rc rl rk rv rr rh] hh]; simpl in E1; try discriminate.
      injection E1 as <-. simpl in *. tauto. }
    destruct h1 as [|c l k v r hh]; try discriminate.
    destruct (is_red V (left_of V r)).
    - destruct (rotate_right H V vhash r) as [r'|] eqn:E2; cbn [obind] in X; try discriminate.
      destruct (rotate_left H V vhash (T c l k v r' hh)) as [h2|] eqn:E3; cbn [obind] in X; try discriminate.
      simpl in K1. assert (K2 := hok_rotr _ _ E2 (proj2 K1)).
      destruct r' as [|[] rl rk rv rr rh]; cbn [rotate_left] in E3; try discriminate.
      injection E3 as <-. simpl in K2. unfold RbTree.upd in X. cbn [flip_colors] in X.
      destruct rr as [|rrc rrl rrk rrv rrr rrh]; [discriminate|]. injection X as <-. simpl in *. tauto.
    - injection X as <-. exact K1.
  Qed.

  Lemma insert_go_hok k v t t' : insert_go H V vhash k v t = Some t' -> hok t -> hok t'.
  Proof.
    revert t'. induction t as [|c l IHl k' v' r IHr h]; intros t'.
    - simpl. intros X _; injection X as <-. simpl. auto.
    - cbn [insert_go]. intros X (Kl & Kr & _). destruct (bcmp k k').
      + eapply hok_balance; [exact X|]. apply hok_upd; auto.
      + destruct (insert_go H V vhash k v l) as [l'|] eqn:E0; cbn [obind] in X; [|discriminate].
        eapply hok_balance; [exact X|]. apply hok_upd; auto.
      + destruct (insert_go H V vhash k v r) as [r'|] eqn:E0; cbn [obind] in X; [|discriminate].
        eapply hok_balance; [exact X|]. apply hok_upd; auto.
  Qed.
  Lemma hok_set_color c t : hok t -> hok (set_color V c t).
  Proof. destruct t; simpl; auto. Qed.

  Lemma modify_hok key f t : hok t -> hok (modify H V vhash key f t).
  Proof.
    induction t as [|c l IHl k v r IHr h]; [auto|].
    cbn [modify]. intros (Kl & Kr & _). destruct (bcmp key k); apply hok_upd; auto.
  Qed.

  Lemma delete_min_hok fuel : forall t t',
    delete_min H V vhash fuel t = Some t' -> sok t -> hok t'.
  Proof.
    induction fuel as [|fuel IH]; intros t t'; cbn [delete_min]; [discriminate|].
    destruct (left_of V t) as [|lc ll lk lv lr lh] eqn:L.
    - destruct (is_some V t && negb (is_some V (right_of V t))); [|discriminate].
      intro X; injection X as <-. simpl. auto.
    - rewrite <- L. clear L lc ll lk lv lr lh. intros X K.
      destruct (if negb (is_red V (left_of V t)) && negb (is_red V (left_of V (left_of V t)))
                then move_red_left H V vhash t else Some t) as [h1|] eqn:E1; cbn [obind] in X; [|discriminate].
      assert (K1 : sok h1).
      { destruct (negb (is_red V (left_of V t)) && negb (is_red V (left_of V (left_of V t))));
          [eapply sok_mrl; eauto|injection E1 as <-; exact K]. }
      destruct h1 as [|c l k v r hh]; [discriminate|].
      destruct (is_some V l); [|discriminate]. cbn [assert_] in X.
      destruct (delete_min H V vhash fuel l) as [l'|] eqn:E2; cbn [obind] in X; [|discriminate].
      simpl in K1. apply IH in E2; [|tauto].
      eapply hok_balance; [exact X|]. apply hok_upd; tauto.
  Qed.

  Lemma swap_min_sok k v t mk mv t' :
    swap_min V k v t = Some (mk, mv, t') -> sok t -> sok t'.
  Proof.
    revert mk mv t'. induction t as [|c l IHl k0 v0 r IHr h]; intros mk mv t'; [discriminate|].
    destruct l as [|lc ll lk lv lr lh].
    - simpl. intro X; injection X as <- <- <-. simpl. auto.
    - set (l := T lc ll lk lv lr lh) in *.
      change (swap_min V k v (T c l k0 v0 r h)) with
        (match swap_min V k v l with Some (k', v', l') => Some (k', v', T c l' k0 v0 r h) | None => None end).
      destruct (swap_min V k v l) as [[[k' v'] l']|]; [|discriminate].
      intro X; injection X as <- <- <-. intros [Kl Kr]. split; [eapply IHl; eauto|exact Kr].
  Qed.

  Lemma delete_go_hok fuel : forall key t t',
    delete_go H V vhash fuel key t = Some t' -> hok t -> hok t'.
  Proof.
    induction fuel as [|fuel IH]; intros key t t'; cbn [delete_go]; [discriminate|].
    destruct t as [|c0 l0 k0 v0 r0 h0]; [discriminate|].
    set (t := T c0 l0 k0 v0 r0 h0) in *. intros X K.
    destruct (bcmp key k0).
    2:{ destruct (is_some V l0); cbn [assert_] in X; [|discriminate].
        destruct (if negb (is_red V l0) && negb (is_red V (left_of V l0))
                  then move_red_left H V vhash t else Some t) as [h1|] eqn:E1; cbn [obind] in X; [|discriminate].
        assert (K1 : hok h1).
        { destruct (negb (is_red V l0) && negb (is_red V (left_of V l0)));
          [eapply hok_mrl; eauto|injection E1 as <-; exact K]. }
        destruct h1 as [|c l k v r hh]; [discriminate|].
        destruct (is_some V l); cbn [assert_] in X; [|discriminate].
        destruct (delete_go H V vhash fuel key l) as [l'|] eqn:E2; cbn [obind] in X; [|discriminate].
        simpl in K1. apply IH in E2; [|tauto].
        eapply hok_balance; [exact X|]. apply hok_upd; tauto. }
    all: destruct (if is_red V l0 then rotate_right H V vhash t else Some t) as [h1|] eqn:E1; cbn [obind] in X; [|discriminate].
    all: assert (K1 : hok h1) by (destruct (is_red V l0); [eapply hok_rotr; eauto|injection E1 as <-; exact K]).
    all: destruct h1 as [|c1 l1 k1 v1 r1 hh1]; [discriminate|].
    all: destruct (bytes_eqb key k1 && negb (is_some V r1)).
    1,3: destruct (is_some V l1); [discriminate|]; injection X as <-; exact Logic.I.
    all: destruct (is_red V r1 || is_some V r1); cbn [assert_] in X; [|discriminate].
    all: set (h1 := T c1 l1 k1 v1 r1 hh1) in *.
    all: destruct (if negb (is_red V r1) && negb (is_red V (left_of V r1))
                  then move_red_right H V vhash h1 else Some h1) as [h2|] eqn:E2; cbn [obind] in X; [|discriminate].
    all: assert (K2 : hok h2) by (destruct (negb (is_red V r1) && negb (is_red V (left_of V r1)));
          [eapply hok_mrr; eauto|injection E2 as <-; exact K1]).
    all: destruct h2 as [|c l k v r hh]; [discriminate|].
    all: destruct (is_some V r); cbn [assert_] in X; [|discriminate].
    all: simpl in K2; destruct (bytes_eqb key k).
    1,3: destruct (swap_min V k v r) as [[[mk mv] r']|] eqn:E3; [|discriminate];
      destruct (delete_min H V vhash fuel r') as [r''|] eqn:E4; cbn [obind] in X; [|discriminate];
      apply delete_min_hok in E4; [|eapply swap_min_sok; [exact E3|apply hok_sok; tauto]];
      eapply hok_balance; [exact X|]; apply hok_upd; tauto.
    all: destruct (delete_go H V vhash fuel key r) as [r'|] eqn:E3; cbn [obind] in X; [|discriminate];
      apply IH in E3; [|tauto]; eapply hok_balance; [exact X|]; apply hok_upd; tauto.
  Qed.

  Lemma step_hok o t t' : step H V vhash t o = Some t' -> hok t -> hok t'.
  Proof.
    destruct o as [k v|k|k f]; cbn [step].
    - unfold insert. destruct (insert_go H V vhash k v t) as [t1|] eqn:E1; cbn [obind]; [|discriminate].
      intro X; injection X as <-. intro K. apply hok_set_color. eapply insert_go_hok; eauto.
    - unfold delete. destruct (get V k t); [|intro X; injection X as <-; auto].
      set (t1 := if negb (is_red V (left_of V t)) && negb (is_red V (right_of V t)) then set_color V Red t else t).
      destruct (delete_go H V vhash (Datatypes.S (size V t1)) k t1) as [t2|] eqn:E1; cbn [obind]; [|discriminate].
      destruct (match get V k (set_color V Black t2) with Some _ => false | None => true end); [|discriminate].
      cbn [assert_]. intros X K; injection X as <-. apply hok_set_color.
      eapply delete_go_hok; [exact E1|]. unfold t1. destruct (_ && _); [apply hok_set_color|]; exact K.
    - intro X; injection X as <-. apply modify_hok.
  Qed.
  Lemma run_hok ops : forall t t', run H V vhash ops t = Some t' -> hok t -> hok t'.
  Proof.
    induction ops as [|o ops IH]; intros t t'; cbn [run].
    - intro X; injection X as <-; auto.
    - destruct (step H V vhash t o) as [t1|] eqn:E1; cbn [obind]; [|discriminate].
      intros X K. eapply IH; [exact X|]. eapply step_hok; eauto.
  Qed.

  (** ** The full tree and its digest *)
  Hypothesis vcontract : forall v, vhash v = digest H (vtree v).

  Lemma as_hash_tree_empty_iff f t :
    (forall k v, f k v <> HEmpty) ->
    full_witness_tree H V f t = HEmpty <-> t = E.
  Proof.
    intro F. split; [|intros ->; reflexivity].
    destruct t as [|c l k v r h]; [reflexivity|]. simpl.
    unfold three_way_fork.
    generalize (F k v).
    destruct (full_witness_tree H V f l); destruct (full_witness_tree H V f r); destruct (f k v); congruence.
  Qed.

  Lemma twf_digest l m r :
    m <> HEmpty ->
    digest H (three_way_fork H l m r) =
    match l, r with
    | HEmpty, HEmpty => digest H m
    | l, HEmpty => fork_hash H (digest H l) (digest H m)
    | HEmpty, r => fork_hash H (digest H m) (digest H r)
    | l, r => fork_hash H (digest H l) (fork_hash H (digest H m) (digest H r))
    end.
  Proof.
    intro N. destruct l, r; destruct m; try congruence; reflexivity.
  Qed.

  Lemma full_witness_digest f t :
    (forall k v, f k v <> HEmpty) ->
    (forall k v, digest H (f k v) = labeled_hash H k (vhash v)) ->
    hok t -> digest H (full_witness_tree H V f t) = root_hash H V t.
  Proof.
    intros F D. induction t as [|c l IHl k v r IHr h]; simpl; [reflexivity|].
    intros (Kl & Kr & ->). specialize (IHl Kl). specialize (IHr Kr).
    rewrite twf_digest by apply F. rewrite D.
    unfold compute_subtree_hash, data_hash.
    assert (El := as_hash_tree_empty_iff f l F). assert (Er := as_hash_tree_empty_iff f r F).
    destruct l as [|lc ll lk lv lr lh], r as [|rc rl rk rv rr rh].
    - reflexivity.
    - cbn [root_hash] in IHr. simpl (full_witness_tree H V f E).
      destruct (full_witness_tree H V f (T rc rl rk rv rr rh)) eqn:X; try (rewrite IHr; reflexivity).
      assert (T rc rl rk rv rr rh = E) by (apply Er; reflexivity). discriminate.
    - cbn [root_hash] in IHl. simpl (full_witness_tree H V f E).
      destruct (full_witness_tree H V f (T lc ll lk lv lr lh)) eqn:X; try (rewrite IHl; reflexivity).
      assert (T lc ll lk lv lr lh = E) by (apply El; reflexivity). discriminate.
    - cbn [root_hash] in IHl, IHr.
      destruct (full_witness_tree H V f (T lc ll lk lv lr lh)) eqn:X;
      [assert (T lc ll lk lv lr lh = E) by (apply El; reflexivity); discriminate|..];
      destruct (full_witness_tree H V f (T rc rl rk rv rr rh)) eqn:Y;
      try (assert (T rc rl rk rv rr rh = E) by (apply Er; reflexivity); discriminate);
      rewrite IHl, IHr; reflexivity.
  Qed.

  Lemma root_hash_digest t : hok t -> root_hash H V t = digest H (as_hash_tree H V vtree t).
  Proof.
    intro K. symmetry. apply full_witness_digest; auto.
    - intros; discriminate.
    - intros. unfold data_tree. simpl. rewrite <- vcontract. reflexivity.
  Qed.
End Hash.

(** ** Depth *)
Section Depth.
  Variable V : Type.

  Lemma B_size n : forall t : rb V,
    (B V n t -> 2 ^ n <= S (size V t)) /\ (A V n t -> 2 ^ n <= S (size V t)).
  Proof.
    induction n as [|n IH]; intro t.
    - simpl. split; intros; lia.
    - assert (X : B V (S n) t -> 2 ^ S n <= S (size V t)).
      { inversion 1; subst. simpl.
        match goal with Y : A V n ?l |- _ => apply IH in Y end.
        match goal with Y : B V n ?l |- _ => apply IH in Y end. lia. }
      split; [exact X|]. intro P. apply A_cases in P. destruct P as [P|P]; auto.
      inversion P; subst. simpl.
      assert (Y : forall t, B V (S n) t -> 2 ^ S n <= S (size V t)).
      { clear -IH. inversion 1; subst. simpl.
        match goal with Y : A V n ?l |- _ => apply IH in Y end.
        match goal with Y : B V n ?l |- _ => apply IH in Y end. lia. }
      match goal with Z : B V (S n) l |- _ => apply Y in Z end. simpl in *. lia.
  Qed.

  Fixpoint height (t : rb V) : nat :=
    match t with E => 0 | T _ l _ _ r _ => S (Nat.max (height l) (height r)) end.

  Lemma get_steps_height k t : get_steps V k t <= height t.
  Proof.
    induction t as [|c l IHl k' v r IHr h]; simpl; [lia|].
    destruct (bcmp k k'); lia.
  Qed.
  Lemma B_height (t : rb V) : forall n,
    (B V n t -> height t <= 2 * n) /\ (A V n t -> height t <= 2 * n + 1).
  Proof.
    induction t as [|c l IHl k v r IHr h]; intro n; [simpl; split; intros; lia|].
    assert (X : B V n (T c l k v r h) -> height (T c l k v r h) <= 2 * n).
    { inversion 1; subst. simpl.
      match goal with Y : A V ?m l |- _ => apply IHl in Y end.
      match goal with Y : B V ?m r |- _ => apply IHr in Y end. lia. }
    split; [exact X|].
    intro P. apply A_cases in P. destruct P as [P|P]; [apply X in P; lia|].
    inversion P; subst. simpl.
    match goal with Y : B V ?m l |- _ => apply IHl in Y end.
    match goal with Y : B V ?m r |- _ => apply IHr in Y end. lia.
  Qed.

  Lemma size_elems (t : rb V) : size V t = length (elems V t).
  Proof. induction t; simpl; [reflexivity|]. rewrite app_length. simpl. lia. Qed.

  (** visited <= 2 log2 (n+1), stated without logarithm: 2^(visited) <= (n+1)^2. *)
  Lemma get_steps_bound n k (t : rb V) :
    B V n t -> 2 ^ get_steps V k t <= (S (size V t)) * (S (size V t)).
  Proof.
    intro P. destruct (B_size n t) as [X _]. specialize (X P).
    destruct (B_height t n) as [Y _]. specialize (Y P).
    assert (Z := get_steps_height k t).
    assert (W : 2 ^ get_steps V k t <= 2 ^ (2 * n)) by (apply Nat.pow_le_mono_r; lia).
    replace (2 ^ (2 * n)) with (2 ^ n * 2 ^ n) in W by (rewrite <- Nat.pow_add_r; f_equal; lia).
    nia.
  Qed.
End Depth.

(** ** Iteration *)
Section Iter.
  Variable V : Type.
  Notation rb := (rb V).
  Notation elems := (elems V).

  (** what is still to come after the node on top of the stack is finished *)
  Fixpoint up_rest (b : bool) (ps : list (rb * bool)) : list (bytes * V) :=
    match ps with
    | [] => []
    | (p, b') :: ps' =>
        (if b then match p with E => [] | T _ _ k v r _ => (k, v) :: elems r end else [])
        ++ up_rest b' ps'
    end.
  Definition remaining (s : iter_state V) : list (bytes * V) :=
    match s with
    | (_, []) => []
    | (VPre, (t, b) :: ps) => elems t ++ up_rest b ps
    | (VIn, (t, b) :: ps) => elems (right_of V t) ++ up_rest b ps
    | (VPost, (t, b) :: ps) => up_rest b ps
    end.
  (** number of steps to the end *)
  Definition pre_steps (t : rb) : nat := 3 * size V t.
  Fixpoint up_steps (b : bool) (ps : list (rb * bool)) : nat :=
    match ps with
    | [] => 0
    | (p, b') :: ps' =>
        (if b then 1 + pre_steps (right_of V p) else 0) + 1 + up_steps b' ps'
    end.
  Definition steps_left (s : iter_state V) : nat :=
    match s with
    | (_, []) => 0
    | (VPre, (t, b) :: ps) => pre_steps t + up_steps b ps
    | (VIn, (t, b) :: ps) => 1 + pre_steps (right_of V t) + 1 + up_steps b ps
    | (VPost, (t, b) :: ps) => 1 + up_steps b ps
    end.
  Definition stack_ok (s : iter_state V) : Prop :=
    Forall (fun p => is_some V (fst p) = true) (snd s).

  Lemma iter_step_ok s s' :
    stack_ok s -> iter_step V s = Some s' ->
    stack_ok s' /\ steps_left s = S (steps_left s') /\
    match s' with
    | (VIn, (T _ _ k v _ _, _) :: _) => remaining s = (k, v) :: remaining s'
    | (VIn, _) => False
    | _ => remaining s = remaining s'
    end.
  Proof.
    destruct s as [vis [|[tip b] ps]]; [destruct vis; discriminate|].
    intros K. inversion K as [|? ? K1 K2]; subst. simpl in K1.
    destruct tip as [|c l k v r h]; [discriminate|].
    destruct vis; cbn [iter_step left_of right_of].
    - destruct l as [|lc ll lk lv lr lh].
      + intro X; injection X as <-. split; [exact K|]. split; [unfold pre_steps; simpl; unfold pre_steps; lia|]. reflexivity.
      + intro X; injection X as <-. split; [constructor; [reflexivity|exact K]|].
        set (l := T lc ll lk lv lr lh) in *.
        split; [unfold pre_steps; cbn [steps_left up_steps right_of]; unfold pre_steps; simpl size; lia|].
        cbn [remaining up_rest]. cbn [RbTree.elems]. rewrite <- app_assoc. reflexivity.
    - destruct r as [|rc rl rk rv rr rh].
      + intro X; injection X as <-. split; [exact K|]. split; [unfold pre_steps; simpl; lia|]. reflexivity.
      + intro X; injection X as <-. split; [constructor; [reflexivity|exact K]|].
        set (r := T rc rl rk rv rr rh) in *.
        split; [cbn [steps_left up_steps right_of]; lia|]. reflexivity.
    - destruct ps as [|[p b'] ps].
      + intro X; injection X as <-. split; [constructor|]. split; reflexivity.
      + intro X. inversion K2 as [|? ? K3 K4]; subst. simpl in K3.
        destruct p as [|pc pl pk pv pr ph]; [discriminate|].
        destruct b; injection X as <-; (split; [exact K2|]); split; try reflexivity;
        cbn [steps_left up_steps right_of]; lia.
  Qed.

  Lemma iter_next_ok fuel : forall s, stack_ok s -> steps_left s < fuel ->
    match remaining s with
    | [] => exists s', iter_next V fuel s = Some (None, s')
    | e :: rest => exists s', iter_next V fuel s = Some (Some e, s') /\ stack_ok s' /\
                    remaining s' = rest /\ steps_left s' < steps_left s
    end.
  Proof.
    induction fuel as [|fuel IH]; intros s K L; [lia|]. cbn [iter_next].
    destruct (iter_step V s) as [s'|] eqn:E1.
    - destruct (iter_step_ok s s' K E1) as (K' & St & M).
      destruct s' as [[] st].
      + rewrite M. specialize (IH (VPre, st) K' ltac:(lia)).
        destruct (remaining (VPre, st)); [exact IH|].
        destruct IH as (s'' & A1 & A2 & A3 & A4). exists s''. repeat split; auto. lia.
      + destruct st as [|[[|c l k v r h] b] st]; try contradiction. rewrite M.
        eexists; split; [reflexivity|]. repeat split; auto. lia.
      + rewrite M. specialize (IH (VPost, st) K' ltac:(lia)).
        destruct (remaining (VPost, st)); [exact IH|].
        destruct IH as (s'' & A1 & A2 & A3 & A4). exists s''. repeat split; auto. lia.
    - assert (R : remaining s = []).
      { destruct s as [vis [|[tip b] ps]]; [destruct vis; reflexivity|].
        destruct vis; simpl in E1; [destruct (left_of V tip)|destruct (right_of V tip)|destruct ps]; discriminate. }
      rewrite R. eauto.
  Qed.

  Lemma iter_collect_ok n : forall fuel s, stack_ok s -> steps_left s < fuel ->
    length (remaining s) < n -> iter_collect V n fuel s = Some (remaining s).
  Proof.
    induction n as [|n IH]; intros fuel s K L Ln; [lia|]. cbn [iter_collect].
    assert (X := iter_next_ok fuel s K L).
    destruct (remaining s) as [|e rest] eqn:R.
    - destruct X as [s' ->]. reflexivity.
    - destruct X as (s' & -> & K' & R' & L'). rewrite IH.
      + rewrite R'. reflexivity.
      + exact K'.
      + lia.
      + rewrite R'. simpl in Ln. lia.
  Qed.

  Lemma iter_elems t fuel n : 3 * size V t < fuel -> size V t < n ->
    iter_collect V n fuel (iter_init V t) = Some (elems t).
  Proof.
    intros L Ln. destruct t as [|c l k v r h].
    - destruct n; [simpl in Ln; lia|]. destruct fuel; [lia|]. reflexivity.
    - rewrite iter_collect_ok.
      + unfold iter_init, remaining, up_rest. rewrite app_nil_r. reflexivity.
      + constructor; [reflexivity|constructor].
      + unfold iter_init, steps_left, up_steps, pre_steps. lia.
      + unfold iter_init, remaining, up_rest. rewrite app_nil_r, <- size_elems. exact Ln.
  Qed.
End Iter.
