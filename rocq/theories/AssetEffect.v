(** Effects of the asset router's steps on what it stores and certifies. *)
From Coq Require Import List Arith NArith Lia Bool Permutation.
From Verif Require Import Bytes Text HashTree RbTree Nested NestedSpec NestedProofs Cbor HttpTypes Cel V2 Verify VerifySpec HttpTree AssetRouter AssetSpec AssetProofs.
Import ListNotations.
Local Open Scope N_scope.

Lemma key_eqb_sym k k' : key_eqb k k' = key_eqb k' k.
Proof.
  destruct (key_eqb k k') eqn:A, (key_eqb k' k) eqn:B; try reflexivity; [apply key_eqb_eq in A|apply key_eqb_eq in B]; subst;
    rewrite (proj2 (key_eqb_eq _ _) eq_refl) in *; discriminate.
Qed.
Lemma peqb_refl p : peqb p p = true. Proof. apply peqb_spec. reflexivity. Qed.

Section Effect.
  Variables (H : bytes -> bytes).
  Definition ep (x : certified) : list bytes := entry_tree_path (ca_entry x).
  Definition same_place (f : bool) (k : key) (f' : bool) (k' : key) : bool := Bool.eqb f f' && key_eqb k k'.
  Lemma same_place_spec f k f' k' : same_place f k f' k' = true <-> f = f' /\ k = k'.
  Proof. unfold same_place. rewrite andb_true_iff, Bool.eqb_true_iff, key_eqb_eq. reflexivity. Qed.
  Definition at_place (st : router) (f : bool) (k : key) : option certified := m_get key_eqb k (if f then r_fallbacks st else r_responses st).
  Lemma at_put f k x t st f' k' : at_place (put f k x t st) f' k' = if same_place f k f' k' then Some x else at_place st f' k'.
  Proof.
    unfold at_place, put, same_place. destruct f, f'; cbn [r_fallbacks r_responses Bool.eqb andb]; try reflexivity;
      rewrite (m_get_insert key_eqb key_eqb_eq), key_eqb_sym; reflexivity.
  Qed.
  Lemma at_drop f k t st f' k' : at_place (drop f k t st) f' k' = if same_place f k f' k' then None else at_place st f' k'.
  Proof.
    unfold at_place, drop, same_place. destruct f, f'; cbn [r_fallbacks r_responses Bool.eqb andb]; try reflexivity;
      rewrite (m_get_remove key_eqb key_eqb_eq), key_eqb_sym; reflexivity.
  Qed.
  Lemma stored_at st f k x : stored st f k x <-> at_place st f k = Some x.
  Proof. reflexivity. Qed.
  Definition overlapb (p q : list bytes) : bool := pprefix p q || pprefix q p.
  Lemma overlapb_spec p q : overlapb p q = true <-> overlapping p q.
  Proof. unfold overlapb, overlapping. rewrite orb_true_iff, !pprefix_spec. reflexivity. Qed.
  Lemma overlapping_sym p q : overlapping p q -> overlapping q p.
  Proof. unfold overlapping. tauto. Qed.
  Lemma tree_put f k x t st : r_tree (put f k x t st) = t. Proof. destruct f; reflexivity. Qed.
  Lemma tree_drop f k t st : r_tree (drop f k t st) = t. Proof. destruct f; reflexivity. Qed.

  Lemma get_ins a x t : tok H a -> ninsert H (ep x) [] (r_tree a) = Some t ->
    forall p, nget p t = if peqb (ep x) p then Some [] else if overlapb (ep x) p then None else nget p (r_tree a).
  Proof. intros [K _] E p. destruct (ninsert_ok H (ep x) [] _ K) as (t' & E' & _ & G & _). rewrite E in E'. injection E' as <-. apply G. Qed.
  Lemma get_del a x t : tok H a -> ndelete H (ep x) (r_tree a) = Some t ->
    forall p, nget p t = if pprefix (ep x) p then None else nget p (r_tree a).
  Proof. intros [K _] E p. destruct (ndelete_ok H (ep x) _ K) as (t' & E' & _ & G & _). rewrite E in E'. injection E' as <-. apply G. Qed.

  (** ** What is stored *)
  Lemma steps_stored P D F C a b f k y : steps H P D F C a b -> stored b f k y -> P f k y \/ stored a f k y.
  Proof.
    induction 1 as [st|a b c S Ss IH]; [auto|]. intro X. destruct (IH X) as [w|Y]; [auto|]. clear IH X. rewrite stored_at in *.
    inversion S as [f' k' x' st t w E|f' k' x' st t w E|k' st w|st w]; subst.
    - rewrite at_put in Y. destruct (same_place f' k' f k) eqn:Q; [apply same_place_spec in Q; destruct Q as [-> ->]; injection Y as ->; auto|auto].
    - rewrite at_drop in Y. destruct (same_place f' k' f k); [discriminate|auto].
    - rewrite at_drop in Y. destruct (same_place false k' f k); [discriminate|auto].
    - destruct f; discriminate Y.
  Qed.
  (** only puts: a place once written stays written *)
  Lemma steps_place_kept P a b f k y : steps H P (nothing) no_key False a b -> stored a f k y -> stored b f k y \/ exists x, P f k x /\ stored b f k x.
  Proof.
    intros S. remember nothing as D. remember no_key as F. induction S as [st|a b c S Ss IH]; [auto|]. intro X.
    inversion S as [f' k' x' st t w E|f' k' x' st t w E|k' st w|st w]; subst; try contradiction.
    destruct (same_place f' k' f k) eqn:Q.
    - apply same_place_spec in Q. destruct Q as [-> ->].
      assert (Z : stored (put f k x' t a) f k x') by (rewrite stored_at, at_put; rewrite (proj2 (same_place_spec f k f k) (conj eq_refl eq_refl)); reflexivity).
      right. assert (Q : forall x, P f k x -> stored (put f k x' t a) f k x -> exists z, P f k z /\ stored c f k z).
      { clear - Ss. revert Ss. generalize (put f k x' t a). intros s Ss. remember nothing as D. remember no_key as F.
        induction Ss as [st|s1 s2 s3 S Ss IH]; intros x w X; [eauto|].
        inversion S as [f2 k2 x2 st t' w' E|f2 k2 x2 st t' w' E|k2 st w'|st w']; subst; try contradiction.
        destruct (same_place f2 k2 f k) eqn:Q.
        - apply same_place_spec in Q. destruct Q as [-> ->]. apply (IH x2 w'). rewrite stored_at, at_put, (proj2 (same_place_spec f k f k) (conj eq_refl eq_refl)). reflexivity.
        - apply (IH x w). rewrite stored_at, at_put, Q. exact X. }
      eapply Q; eassumption.
    - destruct IH as [Y|Y]; auto. rewrite stored_at, at_put, Q. exact X.
  Qed.
  (** only drops: nothing appears, and other places stay *)
  Lemma steps_gone P D F a b f k : (forall x, ~ P f k x) -> steps H P D F False a b -> at_place a f k = None -> at_place b f k = None.
  Proof.
    intros NP S. induction S as [st|a b c S Ss IH]; [auto|]. intro X. apply IH. clear IH Ss.
    inversion S as [f' k' x' st t w E|f' k' x' st t w E|k' st w|st w]; subst; try contradiction.
    - rewrite at_put. destruct (same_place f' k' f k) eqn:Q; [|exact X]. apply same_place_spec in Q. destruct Q as [-> ->]. exfalso. eapply NP. exact w.
    - rewrite at_drop. destruct (same_place f' k' f k); [reflexivity|exact X].
    - rewrite at_drop. destruct (same_place false k' f k); [reflexivity|exact X].
  Qed.
  Lemma steps_place_untouched P D F a b f k y : (forall x, ~ P f k x) -> (forall x, ~ D f k x) -> (f = false -> ~ F k) -> steps H P D F False a b -> stored a f k y -> stored b f k y.
  Proof.
    intros NP ND NF S. induction S as [st|a b c S Ss IH]; [auto|]. intro X. apply IH. clear IH Ss. rewrite stored_at in *.
    inversion S as [f' k' x' st t w E|f' k' x' st t w E|k' st w|st w]; subst; try contradiction.
    - rewrite at_put. destruct (same_place f' k' f k) eqn:Q; [|exact X]. apply same_place_spec in Q. destruct Q as [-> ->]. exfalso. eapply NP. exact w.
    - rewrite at_drop. destruct (same_place f' k' f k) eqn:Q; [|exact X]. apply same_place_spec in Q. destruct Q as [-> ->]. exfalso. eapply ND. exact w.
    - rewrite at_drop. destruct (same_place false k' f k) eqn:Q; [|exact X]. apply same_place_spec in Q. destruct Q as [<- ->]. exfalso. exact (NF eq_refl w).
  Qed.

  (** ** What is certified *)
  Lemma steps_certified P D F C a b p v : steps H P D F C a b -> tok H a -> nget p (r_tree b) = Some v ->
    (v = [] /\ exists f k x, P f k x /\ p = ep x) \/ nget p (r_tree a) = Some v.
  Proof.
    induction 1 as [st|a b c S Ss IH]; [auto|]. intros K X. destruct (IH (step_tok H _ _ _ _ _ _ S K) X) as [Y|Y]; [auto|]. clear IH X.
    inversion S as [f' k' x' st t w E|f' k' x' st t w E|k' st w|st w]; subst.
    - rewrite tree_put in Y. rewrite (get_ins a x' t K E) in Y. destruct (peqb (ep x') p) eqn:Q; [apply peqb_spec in Q; injection Y as <-; left; split; [reflexivity|eauto 6]|].
      destruct (overlapb (ep x') p); [discriminate|auto].
    - rewrite tree_drop in Y. rewrite (get_del a x' t K E) in Y. destruct (pprefix (ep x') p); [discriminate|auto].
    - rewrite tree_drop in Y. auto.
    - destruct p; discriminate Y.
  Qed.
  (** an entry that nothing put or dropped overlaps stays *)
  Lemma steps_entry_kept (P D : write) (F : key -> Prop) a b p (v : bytes) : (forall f k x, P f k x -> overlapping (ep x) p -> ep x = p /\ v = []) -> (forall f k x, D f k x -> ~ is_prefix (ep x) p) ->
    steps H P D F False a b -> tok H a -> nget p (r_tree a) = Some v -> nget p (r_tree b) = Some v.
  Proof.
    intros NP ND. induction 1 as [st|a b c S Ss IH]; [auto|]. intros K X. apply IH; [exact (step_tok H _ _ _ _ _ _ S K)|]. clear IH Ss.
    inversion S as [f' k' x' st t w E|f' k' x' st t w E|k' st w|st w]; subst; try contradiction.
    - rewrite tree_put, (get_ins a x' t K E). destruct (overlapb (ep x') p) eqn:O.
      + apply overlapb_spec in O. destruct (NP _ _ _ w O) as [<- ->]. rewrite peqb_refl. reflexivity.
      + destruct (peqb (ep x') p) eqn:Q; [|exact X]. apply peqb_spec in Q. rewrite <- Q in O. exfalso. rewrite (proj2 (overlapb_spec _ _)) in O; [discriminate|]. left. exists []. symmetry. apply app_nil_r.
    - rewrite tree_drop, (get_del a x' t K E). destruct (pprefix (ep x') p) eqn:O; [|exact X]. apply pprefix_spec in O. exfalso. exact (ND _ _ _ w O).
    - exact X.
  Qed.
  Lemma steps_entry_gone (P D : write) (F : key -> Prop) a b p : (forall f k x, P f k x -> ep x <> p) -> steps H P D F False a b -> tok H a -> nget p (r_tree a) = None -> nget p (r_tree b) = None.
  Proof.
    intros NP S K X. destruct (nget p (r_tree b)) as [v|] eqn:E; [|reflexivity]. destruct (steps_certified _ _ _ _ _ _ _ _ S K E) as [(_ & f & k & x & w & Q)|Y]; [|congruence].
    exfalso. exact (NP f k x w (eq_sym Q)).
  Qed.

  (** ** Stored and certified together *)
  Definition overlapped (W : write) (f : bool) (k : key) (x : certified) : Prop :=
    exists f' k' x', W f' k' x' /\ (f', k') <> (f, k) /\ overlapping (ep x) (ep x').
  Lemma steps_backed P D F C a b : steps H P D F C a b -> tok H a ->
    (forall f k x, stored a f k x -> certifies a (ca_entry x) \/ overlapped (fun f k x => P f k x \/ D f k x) f k x) ->
    forall f k x, stored b f k x -> certifies b (ca_entry x) \/ overlapped (fun f k x => P f k x \/ D f k x) f k x.
  Proof.
    induction 1 as [st|a b c S Ss IH]; [auto|]. intros K B. apply IH; [exact (step_tok H _ _ _ _ _ _ S K)|]. clear IH Ss c. intros f k x X. rewrite stored_at in X. unfold certifies in *. fold (ep x).
    inversion S as [f' k' x' st t w E|f' k' x' st t w E|k' st w|st w]; subst.
    - rewrite at_put in X. rewrite tree_put, (get_ins a x' t K E). destruct (same_place f' k' f k) eqn:Q.
      + injection X as ->. left. rewrite peqb_refl. reflexivity.
      + destruct (B f k x X) as [Y|Y]; [|right; exact Y]. destruct (overlapb (ep x') (ep x)) eqn:O.
        * right. exists f', k', x'. split; [left; exact w|]. split; [|apply overlapping_sym, overlapb_spec, O].
          intro Z. injection Z as -> ->. rewrite (proj2 (same_place_spec f k f k) (conj eq_refl eq_refl)) in Q. discriminate.
        * left. destruct (peqb (ep x') (ep x)) eqn:Q2; [reflexivity|exact Y].
    - rewrite at_drop in X. rewrite tree_drop, (get_del a x' t K E). destruct (same_place f' k' f k) eqn:Q; [discriminate|].
      destruct (B f k x X) as [Y|Y]; [|right; exact Y]. destruct (pprefix (ep x') (ep x)) eqn:O.
      + right. exists f', k', x'. split; [right; exact w|]. split; [|right; apply pprefix_spec, O].
        intro Z. injection Z as -> ->. rewrite (proj2 (same_place_spec f k f k) (conj eq_refl eq_refl)) in Q. discriminate.
      + left. exact Y.
    - rewrite at_drop in X. rewrite tree_drop. destruct (same_place false k' f k); [discriminate|]. exact (B f k x X).
    - destruct f; discriminate X.
  Qed.
End Effect.
