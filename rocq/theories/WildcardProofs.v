(** Proofs about wildcard paths. *)
From Coq Require Import List Arith NArith Lia Bool Sorted.
From Verif Require Import Bytes Wildcard WildcardSpec.
Import ListNotations.

Lemma last_opt_snoc p x : last_opt (p ++ [x]) = Some x.
Proof. induction p as [|a p IH]; [reflexivity|]. simpl. destruct (p ++ [x]) eqn:E; [destruct p; discriminate|]. exact IH. Qed.
Lemma last_is_snoc p x y : last_is (p ++ [x]) y = bytes_eqb x y.
Proof. unfold last_is. rewrite last_opt_snoc. reflexivity. Qed.
Lemma last_is_spec p y : last_is p y = true <-> exists q, p = q ++ [y].
Proof.
  split.
  - destruct p as [|a p] using rev_ind; [discriminate|]. rewrite last_is_snoc. intro E. apply bytes_eqb_eq in E. subst. eauto.
  - intros (q & ->). rewrite last_is_snoc. apply bytes_eqb_refl.
Qed.
Lemma starts_with_spec r w : starts_with r w = true <-> seg_prefix w r.
Proof.
  revert r. induction w as [|a w IH]; intros r; simpl.
  - destruct r; (split; [intros _; eexists; reflexivity|reflexivity]).
  - destruct r as [|b r]; [split; [discriminate|intros (s & E); discriminate]|].
    cbn [starts_with]. rewrite andb_true_iff, bytes_eqb_eq, IH. split.
    + intros [-> (s & ->)]. exists s. reflexivity.
    + intros (s & E). injection E as -> ->. split; [reflexivity|exists s; reflexivity].
Qed.
(** The code's acceptance test: a prefix, possibly with a trailing slash added. *)
Lemma wildcard_valid_spec w r : wildcard_valid w r = true <-> seg_prefix w r \/ exists p, w = p ++ [[]] /\ seg_prefix p r.
Proof.
  unfold wildcard_valid. destruct (starts_with r w) eqn:E.
  - apply starts_with_spec in E. split; [left; exact E|reflexivity].
  - assert (N : ~ seg_prefix w r) by (rewrite <- starts_with_spec; congruence).
    destruct (last_is w dir_separator) eqn:L.
    + apply last_is_spec in L. destruct L as (p & ->). rewrite removelast_last, starts_with_spec. split.
      * intro P. right. exists p. auto.
      * intros [X|(p' & Q & X)]; [contradiction|]. apply app_inj_tail in Q. destruct Q as [<- _]. exact X.
    + split; [discriminate|]. intros [X|(p & -> & X)]; [contradiction|]. rewrite last_is_snoc in L. discriminate.
Qed.
Lemma valid_matches w r : wildcard_valid w r = true <-> matches w r \/ w = r ++ [[]].
Proof.
  rewrite wildcard_valid_spec. unfold matches. split.
  - intros [X|(p & -> & (s & ->))]; [auto|]. destruct s as [|x s]; [right; rewrite app_nil_r; reflexivity|].
    left. right. exists p, x, s. auto.
  - intros [[X|(p & x & s & -> & ->)]| ->]; [auto| |].
    + right. exists p. split; [reflexivity|]. exists (x :: s). reflexivity.
    + right. exists r. split; [reflexivity|]. exists []. rewrite app_nil_r. reflexivity.
Qed.

(** ** The loop, on reversed paths *)
Definition stop (q w : list bytes) : bool := negb ((length w <? length q) || negb (opt_bytes_eqb (last_opt q) (last_opt w))).
Definition next (q : list bytes) : list bytes := if last_is q dir_separator then removelast q else removelast q ++ [dir_separator].
Lemma msw_loop_unfold f q w : msw_loop f q w =
  if stop q w then Some [] else match f with O => None | S f' => option_map (cons (q ++ [wildcard_terminator])) (msw_loop f' (next q) w) end.
Proof. destruct f; cbn [msw_loop]; unfold stop; destruct ((length w <? length q) || negb (opt_bytes_eqb (last_opt q) (last_opt w))); reflexivity. Qed.

(** the loop, when [w] matches the start *)
Lemma opt_bytes_eqb_refl a : opt_bytes_eqb a a = true.
Proof. destruct a; simpl; [apply bytes_eqb_refl|reflexivity]. Qed.
Lemma stop_self q : stop q q = true.
Proof. unfold stop. rewrite Nat.ltb_irrefl, opt_bytes_eqb_refl. reflexivity. Qed.
Lemma stop_longer q w : length w < length q -> stop q w = false.
Proof. intro L. unfold stop. apply Nat.ltb_lt in L. rewrite L. reflexivity. Qed.
Lemma stop_same q x w y : length q = length w -> stop (q ++ [x]) (w ++ [y]) = bytes_eqb x y.
Proof.
  intro L. unfold stop. rewrite !last_opt_snoc, !app_length, L. rewrite Nat.ltb_irrefl. simpl. destruct (bytes_eqb x y); reflexivity.
Qed.
Lemma next_dir q : next (q ++ [[]]) = q.
Proof. unfold next. rewrite last_is_snoc, bytes_eqb_refl, removelast_last. reflexivity. Qed.
Lemma next_file q x : x <> [] -> next (q ++ [x]) = q ++ [[]].
Proof.
  intro N. unfold next. rewrite last_is_snoc, removelast_last. destruct (bytes_eqb_spec x dir_separator) as [->|]; [exfalso; apply N; reflexivity|reflexivity].
Qed.

(** [w] matches [q]: the loop lists what comes before [w] *)
Lemma loop_ok q : forall w f, matches w q -> 2 * length q <= f ->
  exists l, msw_loop f q w = Some (map (fun p => p ++ [wildcard_terminator]) l) /\ length l <= 2 * length q /\
  StronglySorted more_specific l /\ forall v, In v l <-> (matches v q /\ more_specific v w).
Proof.
  induction q as [|x q IH] using rev_ind; intros w f M F.
  - assert (w = []) as ->.
    { destruct M as [(s & E)|(p & y & s & _ & E)]; [destruct w; [reflexivity|discriminate]|destruct p; discriminate]. }
    exists []. rewrite msw_loop_unfold, stop_self. split; [reflexivity|]. split; [simpl; lia|]. split; [constructor|].
    intro v. split; [intros []|]. intros [[(s & E)|(p & y & s & _ & E)] S]; [|destruct p; discriminate].
    destruct v; [|discriminate]. destruct S as [S|(_ & _ & (z & S))]; [simpl in S; lia|destruct z; discriminate].
  - rewrite app_length in F. simpl in F.
    (* matches of q++[x] *)
    assert (MM : forall v, matches v (q ++ [x]) <-> v = q ++ [x] \/ v = q ++ [[]] \/ matches v q).
    { intro v. split.
      - intros [(s & E)|(p & y & s & -> & E)].
        + destruct s as [|z s] using rev_ind; [left; rewrite app_nil_r in E; auto|]. rewrite app_assoc in E. apply app_inj_tail in E. destruct E as [-> ->].
          right. right. left. exists s. reflexivity.
        + destruct s as [|z s] using rev_ind.
          * apply app_inj_tail in E. destruct E as [-> ->]. right. left. reflexivity.
          * change (q ++ [x] = p ++ (y :: s) ++ [z]) in E. rewrite app_assoc in E. apply app_inj_tail in E. destruct E as [-> ->].
            right. right. right. exists p, y, s. auto.
      - intros [->|[->|[(s & ->)|(p & y & s & -> & ->)]]].
        + left. exists []. rewrite app_nil_r. reflexivity.
        + right. exists q, x, []. auto.
        + left. exists (s ++ [x]). rewrite <- app_assoc. reflexivity.
        + right. exists p, y, (s ++ [x]). rewrite <- app_assoc. auto. }
    assert (ML : forall v, matches v q -> length v <= length q).
    { intros v [(s & ->)|(p & y & s & -> & ->)]; rewrite !app_length; simpl; lia. }
    assert (NS : forall v u, length v < length u -> ~ more_specific v u).
    { intros v u L [A|(A & _)]; lia. }
    rewrite msw_loop_unfold. destruct f as [|f]; [lia|]. apply MM in M. destruct M as [->|M].
    + (* w = q++[x] *) rewrite stop_self. exists []. split; [reflexivity|]. split; [simpl; lia|]. split; [constructor|]. intro v. split; [intros []|].
      intros [V S]. apply MM in V. destruct V as [->|[->|V]].
      * destruct S as [S|(_ & S1 & S2)]; [lia|contradiction].
      * destruct S as [S|(_ & S1 & S2)]; [rewrite !app_length in S; simpl in S; lia|]. apply S1. exists q. reflexivity.
      * apply ML in V. apply NS in S; [destruct S|]. rewrite app_length. simpl. lia.
    + assert (D : w = q ++ [[]] \/ (w <> q ++ [[]] /\ matches w q)).
      { destruct (list_eq_dec bytes_eq_dec w (q ++ [[]])) as [E|N]; [auto|]. destruct M as [E|M]; [contradiction|]. auto. }
      clear M. destruct D as [->|[N M]].
      * (* w = q/ *) rewrite stop_same by reflexivity. destruct (bytes_eqb_spec x []) as [->|X].
        -- exists []. split; [reflexivity|]. split; [simpl; lia|]. split; [constructor|]. intro v. split; [intros []|].
           intros [V S]. apply MM in V. assert (v = q ++ [[]] \/ matches v q) by tauto.
           destruct H as [->|V']; [destruct S as [S|(_ & S1 & S2)]; [lia|contradiction]|].
           apply ML in V'. apply NS in S; [destruct S|]. rewrite app_length. simpl. lia.
        -- rewrite next_file by exact X. destruct f as [|f]; [lia|]. rewrite msw_loop_unfold, stop_self. cbn [option_map].
           exists [q ++ [x]]. split; [reflexivity|]. split; [rewrite app_length; simpl; lia|]. split; [repeat constructor|]. intro v. split.
           ++ intros [<-|[]]. split; [apply MM; auto|]. right. split; [rewrite !app_length; reflexivity|].
              split; [|exists q; reflexivity]. intros (z & Z). apply app_inj_tail in Z. destruct Z as [_ Z]. congruence.
           ++ intros [V S]. apply MM in V. left. destruct V as [->|[->|V]]; [reflexivity| |].
              ** exfalso. destruct S as [S|(_ & S1 & S2)]; [lia|contradiction].
              ** exfalso. apply ML in V. apply NS in S; [destruct S|]. rewrite app_length. simpl. lia.
      * (* w below *) assert (L := ML w M). assert (SL : stop (q ++ [x]) w = false) by (apply stop_longer; rewrite app_length; simpl; lia).
        rewrite SL. destruct (bytes_eqb_spec x []) as [->|X].
        -- rewrite next_dir. destruct (IH w f M ltac:(lia)) as (l & E & LL & SS & I). rewrite E. cbn [option_map].
           exists ((q ++ [[]]) :: l). split; [reflexivity|]. split; [rewrite app_length; simpl; lia|].
           assert (FF : forall y, Forall (more_specific (q ++ [y])) l) by (intro y; apply Forall_forall; intros v V; apply I in V; destruct V as [V _]; apply ML in V; left; rewrite app_length; simpl; lia).
           split; [constructor; auto|]. intro v. split.
           ++ intros [<-|Z]; [|apply I in Z; split; [apply MM; tauto|tauto]]. split; [apply MM; auto|]. left. rewrite app_length. simpl. lia.
           ++ intros [V S]. apply MM in V. destruct V as [->|[->|V]]; [left; reflexivity|left; reflexivity|]. right. apply I. auto.
        -- rewrite next_file by exact X. destruct f as [|f]; [lia|]. rewrite msw_loop_unfold.
           assert (SL2 : stop (q ++ [[]]) w = false) by (apply stop_longer; rewrite app_length; simpl; lia). rewrite SL2, next_dir.
           destruct (IH w f M ltac:(lia)) as (l & E & LL & SS & I). rewrite E. cbn [option_map].
           exists ((q ++ [x]) :: (q ++ [[]]) :: l). split; [reflexivity|]. split; [rewrite app_length; simpl; lia|].
           assert (FF : forall y, Forall (more_specific (q ++ [y])) l) by (intro y; apply Forall_forall; intros v V; apply I in V; destruct V as [V _]; apply ML in V; left; rewrite app_length; simpl; lia).
           split; [constructor; [constructor; auto|constructor; auto]|].
           { right. split; [rewrite !app_length; reflexivity|]. split; [|exists q; reflexivity]. intros (z & Z). apply app_inj_tail in Z. destruct Z as [_ Z]. congruence. }
           intro v. split.
           ++ intros [<-|[<-|Z]]; [| |apply I in Z; split; [apply MM; tauto|tauto]]; (split; [apply MM; auto|]); left; rewrite app_length; simpl; lia.
           ++ intros [V S]. apply MM in V. destruct V as [->|[->|V]]; [left; reflexivity|right; left; reflexivity|]. right. right. apply I. auto.
Qed.
(** [w] is the request with a slash added *)
Lemma loop_slash q f : 1 <= f ->
  exists l, msw_loop f q (q ++ [[]]) = Some (map (fun p => p ++ [wildcard_terminator]) l) /\ (l = [] \/ l = [q]).
Proof.
  intro F. rewrite msw_loop_unfold. destruct f as [|f]; [lia|]. destruct q as [|x q] using rev_ind.
  - change (stop [] ([] ++ [[]])) with false. change (next []) with [dir_separator]. rewrite msw_loop_unfold, stop_self.
    exists [[]]. split; [reflexivity|auto].
  - destruct (bytes_eqb_spec x []) as [->|X].
    + exists []. split; [|auto]. unfold stop. rewrite !last_opt_snoc.
      replace (length ((q ++ [[]]) ++ [[]]) <? length (q ++ [[]])) with false by (symmetry; apply Nat.ltb_ge; rewrite !app_length; lia). reflexivity.
    + assert (S1 : stop (q ++ [x]) ((q ++ [x]) ++ [[]]) = false).
      { unfold stop. rewrite !last_opt_snoc. cbn [opt_bytes_eqb]. destruct (bytes_eqb_spec x []); [contradiction|]. rewrite orb_true_r. reflexivity. }
      rewrite S1, next_file by exact X. rewrite msw_loop_unfold.
      assert (S2 : stop (q ++ [[]]) ((q ++ [x]) ++ [[]]) = true).
      { unfold stop. rewrite !last_opt_snoc. cbn [opt_bytes_eqb]. rewrite bytes_eqb_refl.
        replace (length ((q ++ [x]) ++ [[]]) <? length (q ++ [[]])) with false by (symmetry; apply Nat.ltb_ge; rewrite !app_length; simpl; lia). reflexivity. }
      rewrite S2. exists [q ++ [x]]. split; [reflexivity|auto].
Qed.
Lemma matches_nil r : matches [] r.
Proof. left. exists r. reflexivity. Qed.
