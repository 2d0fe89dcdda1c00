(** The asset router's operations as steps on the tree and the two maps. *)
From Coq Require Import List Arith NArith Lia Bool Permutation.
From Verif Require Import Bytes Text HashTree RbTree Nested NestedSpec NestedProofs Cbor HttpTypes Cel V2 Verify VerifySpec HttpTree AssetRouter AssetSpec.
Import ListNotations.
Local Open Scope N_scope.

Lemma opt_eqb_spec {A} (f : A -> A -> bool) : (forall x y, f x y = true <-> x = y) -> forall x y, opt_eqb f x y = true <-> x = y.
Proof. intros F [x|] [y|]; simpl; split; try discriminate; try congruence; intro X; [apply F in X; congruence|injection X as ->; apply F; reflexivity]. Qed.
Lemma key_eqb_eq x y : key_eqb x y = true <-> x = y.
Proof.
  destruct x as [p e r], y as [p' e' r']. unfold key_eqb. cbn [k_path k_encoding k_range].
  rewrite !andb_true_iff, bytes_eqb_eq, (opt_eqb_spec bytes_eqb bytes_eqb_eq), (opt_eqb_spec N.eqb N.eqb_eq).
  split; [intros [[-> ->] ->]; reflexivity|intro X; injection X as -> -> ->; auto].
Qed.

Section Map.
  Context {K V : Type} (eqb : K -> K -> bool) (EQ : forall x y, eqb x y = true <-> x = y).
  Lemma m_get_remove k k' (m : list (K * V)) : m_get eqb k (m_remove eqb k' m) = if eqb k k' then None else m_get eqb k m.
  Proof.
    unfold m_remove. induction m as [|[x v] m IH]; simpl; [destruct (eqb k k'); reflexivity|].
    destruct (eqb k' x) eqn:E; simpl.
    - apply EQ in E. subst x. rewrite IH. destruct (eqb k k'); reflexivity.
    - rewrite IH. destruct (eqb k x) eqn:E2; [|reflexivity]. apply EQ in E2. subst x.
      destruct (eqb k k') eqn:E3; [|reflexivity]. apply EQ in E3. subst k'. rewrite (proj2 (EQ k k) eq_refl) in E. discriminate.
  Qed.
  Lemma m_get_insert k k' v (m : list (K * V)) : m_get eqb k (m_insert eqb k' v m) = if eqb k k' then Some v else m_get eqb k m.
  Proof. unfold m_insert. simpl. rewrite m_get_remove. destruct (eqb k k'); reflexivity. Qed.
  Lemma m_get_in k v (m : list (K * V)) : m_get eqb k m = Some v -> In (k, v) m.
  Proof.
    induction m as [|[x w] m IH]; simpl; [discriminate|]. destruct (eqb k x) eqn:E; [apply EQ in E; subst; intro X; injection X as ->; auto|auto].
  Qed.
End Map.

(** ** The map of assets *)
Lemma asset_map_snoc l a : asset_map (l ++ [a]) = m_insert bytes_eqb (as_path a) a (asset_map l).
Proof. unfold asset_map. rewrite fold_left_app. reflexivity. Qed.
Lemma asset_map_in l p a : In (p, a) (asset_map l) <-> last_asset l a /\ p = as_path a.
Proof.
  revert p a. induction l as [|x l IH] using rev_ind; intros p a.
  - simpl. split; [intros []|]. intros [(u & v & E & _) _]. destruct u; discriminate.
  - rewrite asset_map_snoc. unfold m_insert, m_remove. cbn [In]. rewrite filter_In, IH. cbn [fst]. split.
    + intros [E|[(L & P) N]].
      * injection E as <- <-. split; [|reflexivity]. exists l, []. split; [reflexivity|intros b []].
      * split; [|exact P]. subst p. destruct L as (u & v & -> & L). exists u, (v ++ [x]). split; [rewrite <- app_assoc; reflexivity|].
        intros b I. apply in_app_or in I. destruct I as [I|[<-|[]]]; [apply L, I|]. intro E. rewrite E, bytes_eqb_refl in N. discriminate.
    + intros [(u & v & E & L) P]. destruct v as [|y v _] using rev_ind.
      * apply app_inj_tail in E. destruct E as [-> ->]. left. congruence.
      * right. rewrite app_comm_cons, app_assoc in E. apply app_inj_tail in E. destruct E as [-> ->]. split; [split; [|exact P]|].
        -- exists u, v. split; [reflexivity|]. intros b I. apply L. apply in_or_app. auto.
        -- subst p. specialize (L y ltac:(apply in_or_app; right; left; reflexivity)). apply negb_true_iff. apply bytes_eqb_neq. exact L.
Qed.
Lemma asset_map_get l p a : m_get bytes_eqb p (asset_map l) = Some a -> last_asset l a /\ p = as_path a.
Proof. intro E. apply m_get_in in E; [|exact bytes_eqb_eq]. apply asset_map_in. exact E. Qed.
Lemma asset_map_values l a : In a (map snd (asset_map l)) <-> last_asset l a.
Proof.
  rewrite in_map_iff. split.
  - intros ([p x] & <- & I). apply asset_map_in in I. apply I.
  - intro L. exists (as_path a, a). split; [reflexivity|]. apply asset_map_in. auto.
Qed.
Lemma asset_map_nodup l : NoDup (map fst (asset_map l)).
Proof.
  induction l as [|x l IH] using rev_ind; [constructor|]. rewrite asset_map_snoc. unfold m_insert. cbn [map fst]. constructor.
  - intro I. apply in_map_iff in I. destruct I as ([p a] & E & I). unfold m_remove in I. apply filter_In in I. destruct I as [_ I]. cbn [fst] in *. subst p.
    rewrite bytes_eqb_refl in I. discriminate.
  - unfold m_remove. revert IH. generalize (asset_map l). intros m ND. induction m as [|[p a] m IH]; [constructor|]. cbn [filter fst map] in *.
    inversion ND as [|? ? NI ND']; subst. destruct (negb (bytes_eqb (as_path x) p)); cbn [map fst]; [constructor|]; auto.
    intro I. apply NI. apply in_map_iff in I. destruct I as ([q b] & <- & I). apply filter_In in I. apply in_map_iff. exists (q, b). split; [reflexivity|apply I].
Qed.
Lemma asset_map_has l a : last_asset l a -> m_get bytes_eqb (as_path a) (asset_map l) = Some a.
Proof.
  intro L. assert (I : In (as_path a, a) (asset_map l)) by (apply asset_map_in; auto). assert (ND := asset_map_nodup l).
  revert I ND. generalize (asset_map l). intros m. induction m as [|[p x] m IH]; cbn [In map fst m_get]; [intros []|]. intros [E|I] ND; inversion ND as [|? ? NI ND']; subst.
  - injection E as -> ->. rewrite bytes_eqb_refl. reflexivity.
  - destruct (bytes_eqb_spec (as_path a) p) as [<-|NE]; [|auto]. exfalso. apply NI. apply in_map_iff. exists (as_path a, a). auto.
Qed.
Lemma find_first cfgs a : first_config cfgs a (find (fun x => matches_asset x a) cfgs).
Proof.
  induction cfgs as [|x l IH]; simpl; [intros y []|]. destruct (matches_asset x a) eqn:M.
  - exists [], l. split; [reflexivity|]. split; [exact M|intros y []].
  - destruct (find (fun x => matches_asset x a) l) as [c|]; cbn [first_config] in *.
    + destruct IH as (u & v & -> & Mc & N). exists (x :: u), v. split; [reflexivity|]. split; [exact Mc|]. intros y [<-|I]; auto.
    + intros y [<-|I]; auto.
Qed.
Lemma first_config_fun cfgs a c c' : first_config cfgs a c -> first_config cfgs a c' -> c = c'.
Proof.
  destruct c as [x|], c' as [y|]; cbn [first_config]; intros A B; [|exfalso|exfalso|reflexivity].
  - destruct A as (u & v & -> & M & N), B as (u' & v' & E & M' & N'). f_equal.
    revert u' E N'. induction u as [|z u IH]; intros [|z' u'] E N'; cbn [app] in E.
    + congruence.
    + injection E as <- E. specialize (N' x ltac:(left; reflexivity)). congruence.
    + injection E as -> E. specialize (N y ltac:(left; reflexivity)). congruence.
    + injection E as -> E. apply (IH ltac:(intros; apply N; right; assumption) u' E). intros; apply N'; right; assumption.
  - destruct A as (u & v & -> & M & N). specialize (B x ltac:(apply in_or_app; right; left; reflexivity)). congruence.
  - destruct B as (u & v & -> & M & N). specialize (A y ltac:(apply in_or_app; right; left; reflexivity)). congruence.
Qed.

(** ** Chunk positions *)
Lemma range_begins_f_in cs fuel : forall b len x, In x (range_begins_f cs fuel b len) -> exists i, x = b + i * cs /\ x < len.
Proof.
  induction fuel as [|fuel IH]; intros b len x; cbn [range_begins_f]; [intros []|].
  destruct (b <? len) eqn:L; [|intros []]. apply N.ltb_lt in L. intros [<-|I].
  - exists 0. lia.
  - apply IH in I. destruct I as (i & -> & X). exists (i + 1). lia.
Qed.
Lemma range_begins_f_all cs fuel : 0 < cs -> forall b len i, len < b + N.of_nat fuel * cs -> b + i * cs < len -> In (b + i * cs) (range_begins_f cs fuel b len).
Proof.
  intro P. induction fuel as [|fuel IH]; intros b len i F X; cbn [range_begins_f]; [lia|].
  destruct (b <? len) eqn:L; [|apply N.ltb_ge in L; lia]. destruct (N.eq_dec i 0) as [->|NZ]; [left; lia|right].
  replace (b + i * cs) with (b + cs + (i - 1) * cs) by nia. apply IH; nia.
Qed.
Lemma range_begins_spec cs len x : 0 < cs -> (In x (range_begins cs len) <-> exists i, x = i * cs /\ x < len).
Proof.
  intro P. split.
  - intro I. apply range_begins_f_in in I. destruct I as (i & -> & L). exists i. split; [lia|exact L].
  - intros (i & -> & L). unfold range_begins. apply (range_begins_f_all cs _ P 0 len i); [|lia]. rewrite Nat2N.inj_succ, N2Nat.id. nia.
Qed.

Section Router.
  Variables (cs : N) (H : bytes -> bytes) (uri_query : bytes -> option (option bytes)) (glob : bytes -> option (bytes -> bool)).
  Hypothesis CS : 0 < cs.

  Definition write := bool -> key -> certified -> Prop.
  Definition nothing : write := fun _ _ _ => False.
  Definition put (f : bool) (k : key) (x : certified) (t : ntree) (st : router) : router :=
    if f then mk_router t (r_responses st) (m_insert key_eqb k x (r_fallbacks st))
    else mk_router t (m_insert key_eqb k x (r_responses st)) (r_fallbacks st).
  Definition drop (f : bool) (k : key) (t : ntree) (st : router) : router :=
    if f then mk_router t (r_responses st) (m_remove key_eqb k (r_fallbacks st))
    else mk_router t (m_remove key_eqb k (r_responses st)) (r_fallbacks st).
  (** [P] may be put, [D] dropped, keys [F] forgotten, everything cleared if [C] *)
  Inductive step (P D : write) (F : key -> Prop) (C : Prop) : router -> router -> Prop :=
  | SPut f k x st t : P f k x -> ninsert H (entry_tree_path (ca_entry x)) [] (r_tree st) = Some t -> step P D F C st (put f k x t st)
  | SDrop f k x st t : D f k x -> ndelete H (entry_tree_path (ca_entry x)) (r_tree st) = Some t -> step P D F C st (drop f k t st)
  | SForget k st : F k -> step P D F C st (drop false k (r_tree st) st)
  | SClear st : C -> step P D F C st (mk_router ndefault [] []).
  Inductive steps (P D : write) (F : key -> Prop) (C : Prop) : router -> router -> Prop :=
  | StNil st : steps P D F C st st
  | StCons a b c : step P D F C a b -> steps P D F C b c -> steps P D F C a c.
  Lemma steps_app P D F C a b c : steps P D F C a b -> steps P D F C b c -> steps P D F C a c.
  Proof. induction 1; [auto|]. intro X. econstructor; eauto. Qed.
  Lemma steps_one P D F C a b : step P D F C a b -> steps P D F C a b.
  Proof. intro X. econstructor; [exact X|constructor]. Qed.
  Definition sub (P P' : write) : Prop := forall f k x, P f k x -> P' f k x.
  Lemma sub_refl P : sub P P. Proof. intros f k x X. exact X. Qed.
  Lemma sub_nothing P : sub nothing P. Proof. intros f k x []. Qed.
  Lemma step_mono (P P' D D' : write) (F F' : key -> Prop) (C C' : Prop) a b : sub P P' -> sub D D' -> (forall k, F k -> F' k) -> (C -> C') -> step P D F C a b -> step P' D' F' C' a b.
  Proof. intros I M N O S. inversion S; subst; [apply SPut|apply (SDrop _ _ _ _ _ _ x)|apply SForget|apply SClear]; auto. Qed.
  Lemma steps_mono (P P' D D' : write) (F F' : key -> Prop) (C C' : Prop) a b : sub P P' -> sub D D' -> (forall k, F k -> F' k) -> (C -> C') -> steps P D F C a b -> steps P' D' F' C' a b.
  Proof. intros I M N O. induction 1; [constructor|]. econstructor; [eapply step_mono; eassumption|assumption]. Qed.

  Definition okay (o : out unit) : Prop := o = OOk tt \/ o = OErr.
  Definition tok (st : router) : Prop := nok H (r_tree st) /\ noempty (r_tree st).
  Lemma step_tok P D F C a b : step P D F C a b -> tok a -> tok b.
  Proof.
    intros S [K N]. inversion S as [f k x st t w E|f k x st t w E|k st|st]; subst.
    - destruct (ninsert_ok H (entry_tree_path (ca_entry x)) [] _ K) as (t' & E' & K' & _ & N' & _). rewrite E in E'. injection E' as <-. unfold tok, put, drop. destruct f; cbn [r_tree]; split; auto.
    - destruct (ndelete_ok H (entry_tree_path (ca_entry x)) _ K) as (t' & E' & K' & _ & N'). rewrite E in E'. injection E' as <-. unfold tok, put, drop. destruct f; cbn [r_tree]; split; auto.
    - unfold tok, drop. cbn [r_tree]. split; assumption.
    - unfold tok. cbn [r_tree]. split; [exact (nok_E H)|exact (noempty_E H)].
  Qed.
  Lemma steps_tok P D F C a b : steps P D F C a b -> tok a -> tok b.
  Proof. induction 1; eauto using step_tok. Qed.

  Definition sound (P D : write) (F : key -> Prop) (A : act) : Prop :=
    forall st, tok st -> steps P D F False st (fst (A st)) /\ okay (snd (A st)).
  Lemma sound_done P D F : sound P D F done.
  Proof. intros st K. split; [constructor|left; reflexivity]. Qed.
  Lemma sound_seq P D F A B : sound P D F A -> sound P D F B -> sound P D F (seq A B).
  Proof.
    intros SA SB st K. destruct (SA st K) as [S1 O1]. unfold seq. destruct (A st) as [st1 o] eqn:E. cbn [fst snd] in *.
    destruct O1 as [->| ->]; [|split; [exact S1|right; reflexivity]].
    destruct (SB st1 (steps_tok _ _ _ _ _ _ S1 K)) as [S2 O2]. split; [eapply steps_app; eassumption|exact O2].
  Qed.
  Lemma sound_each P D F {A} (f : A -> act) l : (forall x, In x l -> sound P D F (f x)) -> sound P D F (each f l).
  Proof.
    induction l as [|x l IH]; intro X; [apply sound_done|]. cbn [each]. apply sound_seq; [apply X; left; reflexivity|apply IH; intros; apply X; right; assumption].
  Qed.
  Lemma sound_attempt P D F {A} (o : option A) f : (forall a, o = Some a -> sound P D F (f a)) -> sound P D F (attempt o f).
  Proof. intro X. destruct o as [a|]; [apply X; reflexivity|]. intros st K. split; [constructor|right; reflexivity]. Qed.
  Lemma sound_mono (P P' D D' : write) (F F' : key -> Prop) A : sub P P' -> sub D D' -> (forall k, F k -> F' k) -> sound P D F A -> sound P' D' F' A.
  Proof. intros I M N S st K. destruct (S st K) as [S1 O]. split; [eapply steps_mono; [exact I|exact M|exact N|intro X; exact X|exact S1]|exact O]. Qed.

  (** [A], when it succeeds, goes through an [R] step. *)
  Definition passes (P D : write) (F : key -> Prop) (R : router -> router -> Prop) (A : act) : Prop :=
    forall st st', tok st -> A st = (st', OOk tt) ->
    exists s1 s2, steps P D F False st s1 /\ R s1 s2 /\ steps P D F False s2 st'.
  Lemma passes_seq_l P D F R A B : sound P D F A -> sound P D F B -> passes P D F R A -> passes P D F R (seq A B).
  Proof.
    intros SA SB PA st st' K. unfold seq. destruct (A st) as [st1 o] eqn:E. destruct (SA st K) as [S1 _]. rewrite E in S1. cbn [fst] in S1.
    destruct o as [[]| | |]; try discriminate. intro E2. destruct (PA st st1 K E) as (s1 & s2 & A1 & A2 & A3). exists s1, s2. split; [exact A1|]. split; [exact A2|].
    eapply steps_app; [exact A3|]. destruct (SB st1 (steps_tok _ _ _ _ _ _ S1 K)) as [S2 _]. rewrite E2 in S2. exact S2.
  Qed.
  Lemma passes_seq_r P D F R A B : sound P D F A -> passes P D F R B -> passes P D F R (seq A B).
  Proof.
    intros SA PB st st' K. unfold seq. destruct (A st) as [st1 o] eqn:E. destruct (SA st K) as [S1 _]. rewrite E in S1. cbn [fst] in S1.
    destruct o as [[]| | |]; try discriminate. intro E2. destruct (PB st1 st' (steps_tok _ _ _ _ _ _ S1 K) E2) as (s1 & s2 & A1 & A2 & A3).
    exists s1, s2. split; [eapply steps_app; eassumption|]. auto.
  Qed.
  Lemma passes_each P D F R {A} (f : A -> act) l x : (forall x, In x l -> sound P D F (f x)) -> In x l -> passes P D F R (f x) -> passes P D F R (each f l).
  Proof.
    induction l as [|y l IH]; intros S I Q; [destruct I|]. cbn [each].
    assert (S1 : sound P D F (f y)) by (apply S; left; reflexivity).
    assert (S2 : sound P D F (each f l)) by (apply sound_each; intros; apply S; right; assumption).
    destruct I as [->|I]; [apply passes_seq_l; assumption|]. apply passes_seq_r; [exact S1|]. apply IH; auto. intros; apply S; right; assumption.
  Qed.
  Lemma passes_mono (P P' D D' : write) (F F' : key -> Prop) R A : sub P P' -> sub D D' -> (forall k, F k -> F' k) -> passes P D F R A -> passes P' D' F' R A.
  Proof.
    intros I M N Q st st' K E. destruct (Q st st' K E) as (s1 & s2 & A1 & A2 & A3). exists s1, s2.
    split; [eapply steps_mono; [exact I|exact M|exact N|intro X; exact X|exact A1]|]. split; [exact A2|].
    eapply steps_mono; [exact I|exact M|exact N|intro X; exact X|exact A3].
  Qed.
  (** success of an attempt *)
  Lemma attempt_ok {A} (o : option A) f st st' : attempt o f st = (st', OOk tt) -> exists a, o = Some a /\ f a st = (st', OOk tt).
  Proof. destruct o as [a|]; [|intro X; discriminate X]. intro E. exists a. auto. Qed.
  Lemma passes_attempt P D F R {A} (o : option A) f : (forall a, o = Some a -> passes P D F R (f a)) -> passes P D F R (attempt o f).
  Proof. intros X st st' K E. destruct (attempt_ok _ _ _ _ E) as (a & -> & E'). exact (X a eq_refl st st' K E'). Qed.

  Definition put_act (f : bool) (k : key) (x : certified) : act :=
    seq (tree_act H (HInsert (ca_entry x))) (if f then on_fallbacks (m_insert key_eqb k x) else on_responses (m_insert key_eqb k x)).
  Definition drop_act (f : bool) (k : key) (x : certified) : act :=
    seq (tree_act H (HDelete (ca_entry x))) (if f then on_fallbacks (m_remove key_eqb k) else on_responses (m_remove key_eqb k)).
  Definition puts (f : bool) (k : key) (x : certified) (a b : router) : Prop :=
    exists t, ninsert H (entry_tree_path (ca_entry x)) [] (r_tree a) = Some t /\ b = put f k x t a.
  Definition drops (f : bool) (k : key) (x : certified) (a b : router) : Prop :=
    exists t, ndelete H (entry_tree_path (ca_entry x)) (r_tree a) = Some t /\ b = drop f k t a.
  Definition forgets (k : key) (a b : router) : Prop := b = drop false k (r_tree a) a.
  Lemma put_act_eq f k x st : tok st -> exists t, ninsert H (entry_tree_path (ca_entry x)) [] (r_tree st) = Some t /\ put_act f k x st = (put f k x t st, OOk tt).
  Proof.
    intros K. unfold put_act, seq, tree_act. cbn [http_nop nstep].
    destruct (ninsert_ok H (entry_tree_path (ca_entry x)) [] (r_tree st) (proj1 K)) as (t & E & _). exists t. split; [exact E|]. rewrite E. destruct f; reflexivity.
  Qed.
  Lemma drop_act_eq f k x st : tok st -> exists t, ndelete H (entry_tree_path (ca_entry x)) (r_tree st) = Some t /\ drop_act f k x st = (drop f k t st, OOk tt).
  Proof.
    intros K. unfold drop_act, seq, tree_act. cbn [http_nop nstep].
    destruct (ndelete_ok H (entry_tree_path (ca_entry x)) (r_tree st) (proj1 K)) as (t & E & _). exists t. split; [exact E|]. rewrite E. destruct f; reflexivity.
  Qed.
  Lemma put_sound (P D : write) F f k x : P f k x -> sound P D F (put_act f k x).
  Proof.
    intros w st K. destruct (put_act_eq f k x st K) as (t & E & ->). split; [|left; reflexivity]. cbn [fst]. apply steps_one.
    exact (SPut P D F False f k x st t w E).
  Qed.
  Lemma put_passes P D F f k x : passes P D F (puts f k x) (put_act f k x).
  Proof.
    intros st st' K E. destruct (put_act_eq f k x st K) as (t & I & E'). rewrite E' in E. injection E as <-.
    exists st, (put f k x t st). split; [constructor|]. split; [exists t; auto|constructor].
  Qed.
  Lemma drop_sound (P D : write) F f k x : D f k x -> sound P D F (drop_act f k x).
  Proof.
    intros w st K. destruct (drop_act_eq f k x st K) as (t & E & ->). split; [|left; reflexivity]. cbn [fst]. apply steps_one.
    exact (SDrop P D F False f k x st t w E).
  Qed.
  Lemma drop_passes P D F f k x : passes P D F (drops f k x) (drop_act f k x).
  Proof.
    intros st st' K E. destruct (drop_act_eq f k x st K) as (t & I & E'). rewrite E' in E. injection E as <-.
    exists st, (drop f k t st). split; [constructor|]. split; [exists t; auto|constructor].
  Qed.
  Lemma forget_sound P D (F : key -> Prop) k : F k -> sound P D F (on_responses (m_remove key_eqb k)).
  Proof. intros w st K. split; [|left; reflexivity]. cbn. apply steps_one. exact (SForget P D F False k st w). Qed.
  Lemma forget_passes P D F k : passes P D F (forgets k) (on_responses (m_remove key_eqb k)).
  Proof. intros st st' K E. unfold on_responses in E. injection E as <-. exists st, (drop false k (r_tree st) st). split; [constructor|]. split; [reflexivity|constructor]. Qed.
  Lemma seq_assoc A B C st : seq A (seq B C) st = seq (seq A B) C st.
  Proof. unfold seq. destruct (A st) as [s [ | | | ]]; try reflexivity. Qed.
  Lemma sound_ext P D F A B : (forall st, A st = B st) -> sound P D F A -> sound P D F B.
  Proof. intros E S st K. rewrite <- E. apply S, K. Qed.
  Lemma passes_ext P D F R A B : (forall st, A st = B st) -> passes P D F R A -> passes P D F R B.
  Proof. intros E S st st' K. rewrite <- E. apply S, K. Qed.

  Definition asset_write (a : asset) (c : option config) (enc : option encoding) : write := fun f k x =>
    whole_write cs H uri_query a c enc f k x \/ chunk_write cs H uri_query a c enc f k x.
  (** keys of chunks *)
  Definition chunk_key (a : asset) (c : option config) (enc : option encoding) (k : key) : Prop :=
    exists u i, (u = as_url a \/ In u (aliases_of c)) /\ cs < N.of_nat (length (as_content a)) /\ i * cs < N.of_nat (length (as_content a)) /\
      k = mk_key u (encoding_str enc) (Some (i * cs)).
  Definition no_key (k : key) : Prop := False.

  Lemma aliased_self a : aliased a (as_url a) = a.
  Proof. destruct a. reflexivity. Qed.
  Lemma static_body a ct hs enc x : prepare_static cs H uri_query a ct hs enc None = Some x -> rs_body (ca_response x) = as_content a.
  Proof.
    unfold prepare_static, prepare_asset_response, prepare_response. destruct (certify_full _ _ _ _ _ _ _); [|discriminate].
    intro E; injection E as <-. reflexivity.
  Qed.

  (** ** insert_static *)
  Definition insert_one (a : asset) (c : option config) (enc : option encoding) (u : bytes) (range : option N) : act :=
    attempt (prepare_static cs H uri_query (aliased a u) (content_type_of c) (headers_of c) enc range)
        (fun x => put_act false (mk_key u (encoding_str enc) range) x).
  Lemma insert_static_eq a c enc u : insert_static cs H uri_query (aliased a u) (content_type_of c) (headers_of c) enc =
    seq (if cs <? N.of_nat (length (as_content a)) then each (fun b => insert_one a c enc u (Some b)) (range_begins cs (N.of_nat (length (as_content a)))) else done)
        (insert_one a c enc u None).
  Proof. reflexivity. Qed.
  Definition ranged (a : asset) (range : option N) : Prop :=
    range = None \/ exists i, range = Some (i * cs) /\ cs < N.of_nat (length (as_content a)) /\ i * cs < N.of_nat (length (as_content a)).
  Lemma insert_one_sound a c enc u range : (u = as_url a \/ In u (aliases_of c)) -> ranged a range ->
    sound (asset_write a c enc) nothing no_key (insert_one a c enc u range).
  Proof.
    intros U R. apply sound_attempt. intros x E. apply put_sound.
    destruct R as [->|(i & -> & L1 & L2)]; [left; apply WholeStatic; assumption|right; apply ChunkStatic; assumption].
  Qed.
  Lemma insert_static_sound a c enc u : u = as_url a \/ In u (aliases_of c) ->
    sound (asset_write a c enc) nothing no_key (insert_static cs H uri_query (aliased a u) (content_type_of c) (headers_of c) enc).
  Proof.
    intro U. rewrite insert_static_eq. apply sound_seq; [|apply insert_one_sound; [exact U|left; reflexivity]].
    destruct (cs <? N.of_nat (length (as_content a))) eqn:L; [|apply sound_done]. apply N.ltb_lt in L.
    apply sound_each. intros b I. apply insert_one_sound; [exact U|]. right. apply range_begins_spec in I; [|exact CS]. destruct I as (i & -> & X). exists i. auto.
  Qed.
  Lemma insert_static_passes a c enc u range x : u = as_url a \/ In u (aliases_of c) -> ranged a range ->
    prepare_static cs H uri_query (aliased a u) (content_type_of c) (headers_of c) enc range = Some x ->
    passes (asset_write a c enc) nothing no_key (puts false (mk_key u (encoding_str enc) range) x)
      (insert_static cs H uri_query (aliased a u) (content_type_of c) (headers_of c) enc).
  Proof.
    intros U R E. rewrite insert_static_eq.
    assert (One : passes (asset_write a c enc) nothing no_key (puts false (mk_key u (encoding_str enc) range) x) (insert_one a c enc u range)).
    { apply passes_attempt. intros y E'. assert (y = x) by congruence. subst y. apply put_passes. }
    assert (S1 := insert_one_sound a c enc u None U (or_introl eq_refl)).
    destruct R as [->|(i & -> & L1 & L2)].
    - apply passes_seq_r; [|exact One]. destruct (cs <? N.of_nat (length (as_content a))) eqn:L; [|apply sound_done]. apply N.ltb_lt in L.
      apply sound_each. intros b I. apply insert_one_sound; [exact U|]. right. apply range_begins_spec in I; [|exact CS]. destruct I as (i & -> & X). exists i. auto.
    - apply passes_seq_l; [|exact S1|].
      + destruct (cs <? N.of_nat (length (as_content a))) eqn:L; [|apply sound_done].
        apply sound_each. intros b I. apply insert_one_sound; [exact U|]. right. apply range_begins_spec in I; [|exact CS]. destruct I as (j & -> & X). exists j. auto.
      + rewrite (proj2 (N.ltb_lt _ _) L1). apply (passes_each _ _ _ _ _ _ (i * cs)); [|apply range_begins_spec; [exact CS|exists i; auto]|exact One].
        intros b I. apply insert_one_sound; [exact U|]. right. apply range_begins_spec in I; [|exact CS]. destruct I as (j & -> & X). exists j. auto.
  Qed.
  (** ** delete_static *)
  Definition forget_act (u : bytes) (enc : option encoding) (b : N) : act := on_responses (m_remove key_eqb (mk_key u (encoding_str enc) (Some b))).
  Lemma delete_static_eq a c enc u st : delete_static cs H uri_query (aliased a u) (content_type_of c) (headers_of c) enc st =
    attempt (prepare_static cs H uri_query (aliased a u) (content_type_of c) (headers_of c) enc None) (fun x =>
      seq (drop_act false (mk_key u (encoding_str enc) None) x)
        (if cs <? N.of_nat (length (as_content a)) then each (forget_act u enc) (range_begins cs (N.of_nat (length (as_content a)))) else done)) st.
  Proof.
    unfold delete_static. destruct (prepare_static cs H uri_query (aliased a u) (content_type_of c) (headers_of c) enc None) as [x|] eqn:E; [|reflexivity].
    cbn [attempt]. rewrite seq_assoc. rewrite (static_body _ _ _ _ _ E). reflexivity.
  Qed.
  Lemma forgets_sound P D a c enc u : (u = as_url a \/ In u (aliases_of c)) ->
    sound P D (chunk_key a c enc) (if cs <? N.of_nat (length (as_content a)) then each (forget_act u enc) (range_begins cs (N.of_nat (length (as_content a)))) else done).
  Proof.
    intro U. destruct (cs <? N.of_nat (length (as_content a))) eqn:L; [|apply sound_done]. apply N.ltb_lt in L.
    apply sound_each. intros b I. apply forget_sound. apply range_begins_spec in I; [|exact CS]. destruct I as (i & -> & X). exists u, i. auto.
  Qed.
  Lemma delete_static_sound a c enc u : u = as_url a \/ In u (aliases_of c) ->
    sound nothing (whole_write cs H uri_query a c enc) (chunk_key a c enc) (delete_static cs H uri_query (aliased a u) (content_type_of c) (headers_of c) enc).
  Proof.
    intro U. eapply sound_ext; [intro st; symmetry; apply delete_static_eq|]. apply sound_attempt. intros x E.
    apply sound_seq; [|apply forgets_sound, U]. apply drop_sound. apply WholeStatic; assumption.
  Qed.
  Lemma delete_static_passes a c enc u x : u = as_url a \/ In u (aliases_of c) ->
    prepare_static cs H uri_query (aliased a u) (content_type_of c) (headers_of c) enc None = Some x ->
    passes nothing (whole_write cs H uri_query a c enc) (chunk_key a c enc) (drops false (mk_key u (encoding_str enc) None) x)
      (delete_static cs H uri_query (aliased a u) (content_type_of c) (headers_of c) enc).
  Proof.
    intros U E. eapply passes_ext; [intro st; symmetry; apply delete_static_eq|]. apply passes_attempt. intros y E'. assert (y = x) by congruence. subst y.
    apply passes_seq_l; [apply drop_sound; apply WholeStatic; assumption|apply forgets_sound, U|apply drop_passes].
  Qed.
  Lemma delete_static_forgets a c enc u i : u = as_url a \/ In u (aliases_of c) ->
    cs < N.of_nat (length (as_content a)) -> i * cs < N.of_nat (length (as_content a)) ->
    passes nothing (whole_write cs H uri_query a c enc) (chunk_key a c enc) (forgets (mk_key u (encoding_str enc) (Some (i * cs))))
      (delete_static cs H uri_query (aliased a u) (content_type_of c) (headers_of c) enc).
  Proof.
    intros U L1 L2. eapply passes_ext; [intro st; symmetry; apply delete_static_eq|]. apply passes_attempt. intros y E.
    apply passes_seq_r; [apply drop_sound; apply WholeStatic; assumption|].
    rewrite (proj2 (N.ltb_lt _ _) L1). apply (passes_each _ _ _ _ _ _ (i * cs)).
    - intros b I. apply forget_sound. apply range_begins_spec in I; [|exact CS]. destruct I as (j & -> & X). exists u, j. auto.
    - apply range_begins_spec; [exact CS|]. exists i. auto.
    - apply forget_passes.
  Qed.

  (** ** one asset *)
  Definition fallback_insert_act (a : asset) (c : option config) (enc : option encoding) (fb : fallback_config) : act :=
    insert_fallback cs H uri_query a (content_type_of c) (headers_of c) fb enc.
  Definition fallback_delete_act (a : asset) (c : option config) (enc : option encoding) (fb : fallback_config) : act :=
    delete_fallback cs H uri_query a (content_type_of c) (headers_of c) fb enc.
  Lemma seq_done_r A st : seq A (seq done done) st = A st.
  Proof. unfold seq, done. destruct (A st) as [s [[]| | |]]; reflexivity. Qed.
  Lemma certify_asset_eq a c enc st : certify_asset cs H uri_query a c enc st =
    seq (insert_static cs H uri_query (aliased a (as_url a)) (content_type_of c) (headers_of c) enc)
      (seq (each (fallback_insert_act a c enc) (fallbacks_of c))
           (each (fun u => insert_static cs H uri_query (aliased a u) (content_type_of c) (headers_of c) enc) (aliases_of c))) st.
  Proof.
    rewrite aliased_self. destruct c as [[p ct hs fbs als encs|p ct hs encs|f t k]|]; [reflexivity| | |];
      cbn [fallbacks_of aliases_of each]; rewrite seq_done_r; reflexivity.
  Qed.
  Lemma delete_asset_eq a c enc st : delete_asset cs H uri_query a c enc st =
    seq (delete_static cs H uri_query (aliased a (as_url a)) (content_type_of c) (headers_of c) enc)
      (seq (each (fallback_delete_act a c enc) (fallbacks_of c))
           (each (fun u => delete_static cs H uri_query (aliased a u) (content_type_of c) (headers_of c) enc) (aliases_of c))) st.
  Proof.
    rewrite aliased_self. destruct c as [[p ct hs fbs als encs|p ct hs encs|f t k]|]; [reflexivity| | |];
      cbn [fallbacks_of aliases_of each]; rewrite seq_done_r; reflexivity.
  Qed.
  Lemma fallback_insert_sound a c enc fb F : In fb (fallbacks_of c) -> sound (asset_write a c enc) nothing F (fallback_insert_act a c enc fb).
  Proof. intro I. apply sound_attempt. intros x E. apply (put_sound _ _ _ true). left. apply WholeFallback; assumption. Qed.
  Lemma fallback_delete_sound a c enc fb F : In fb (fallbacks_of c) -> sound nothing (whole_write cs H uri_query a c enc) F (fallback_delete_act a c enc fb).
  Proof. intro I. apply sound_attempt. intros x E. apply (drop_sound _ _ _ true). apply WholeFallback; assumption. Qed.
  Lemma certify_asset_sound a c enc : sound (asset_write a c enc) nothing no_key (certify_asset cs H uri_query a c enc).
  Proof.
    eapply sound_ext; [intro st; symmetry; apply certify_asset_eq|]. apply sound_seq; [apply insert_static_sound; left; reflexivity|]. apply sound_seq.
    - apply sound_each. intros fb I. apply fallback_insert_sound, I.
    - apply sound_each. intros u I. apply insert_static_sound. right. exact I.
  Qed.
  Lemma delete_asset_sound a c enc : sound nothing (whole_write cs H uri_query a c enc) (chunk_key a c enc) (delete_asset cs H uri_query a c enc).
  Proof.
    eapply sound_ext; [intro st; symmetry; apply delete_asset_eq|]. apply sound_seq; [apply delete_static_sound; left; reflexivity|]. apply sound_seq.
    - apply sound_each. intros fb I. apply fallback_delete_sound, I.
    - apply sound_each. intros u I. apply delete_static_sound. right. exact I.
  Qed.
  Lemma certify_asset_passes a c enc f k x : asset_write a c enc f k x ->
    passes (asset_write a c enc) nothing no_key (puts f k x) (certify_asset cs H uri_query a c enc).
  Proof.
    intro w. eapply passes_ext; [intro st; symmetry; apply certify_asset_eq|].
    assert (S1 := insert_static_sound a c enc (as_url a) (or_introl eq_refl)).
    assert (S2 : sound (asset_write a c enc) nothing no_key (each (fallback_insert_act a c enc) (fallbacks_of c))) by (apply sound_each; intros fb I; apply fallback_insert_sound, I).
    assert (S3 : forall u, In u (aliases_of c) -> sound (asset_write a c enc) nothing no_key (insert_static cs H uri_query (aliased a u) (content_type_of c) (headers_of c) enc)) by (intros u I; apply insert_static_sound; right; exact I).
    assert (S3' := sound_each _ _ _ _ _ S3).
    assert (ST : forall u range, (u = as_url a \/ In u (aliases_of c)) -> ranged a range ->
      prepare_static cs H uri_query (aliased a u) (content_type_of c) (headers_of c) enc range = Some x ->
      passes (asset_write a c enc) nothing no_key (puts false (mk_key u (encoding_str enc) range) x)
        (seq (insert_static cs H uri_query (aliased a (as_url a)) (content_type_of c) (headers_of c) enc)
          (seq (each (fallback_insert_act a c enc) (fallbacks_of c))
            (each (fun u => insert_static cs H uri_query (aliased a u) (content_type_of c) (headers_of c) enc) (aliases_of c))))).
    { intros u range U R E. destruct U as [->|U].
      - apply passes_seq_l; [exact S1|apply sound_seq; assumption|]. apply insert_static_passes; auto.
      - apply passes_seq_r; [exact S1|]. apply passes_seq_r; [exact S2|]. apply (passes_each _ _ _ _ _ _ u); [exact S3|exact U|]. apply insert_static_passes; auto. }
    destruct w as [w|w]; inversion w; subst.
    - apply ST; auto. left. reflexivity.
    - apply passes_seq_r; [exact S1|]. apply passes_seq_l; [exact S2|exact S3'|]. apply (passes_each _ _ _ _ _ _ fb); [intros; apply fallback_insert_sound; assumption|assumption|].
      apply passes_attempt. intros y E. assert (y = x) by congruence. subst y. apply (put_passes _ _ _ true).
    - apply ST; auto. right. exists i. auto.
  Qed.
  Lemma delete_asset_passes a c enc f k x : whole_write cs H uri_query a c enc f k x ->
    passes nothing (whole_write cs H uri_query a c enc) (chunk_key a c enc) (drops f k x) (delete_asset cs H uri_query a c enc).
  Proof.
    intro w. eapply passes_ext; [intro st; symmetry; apply delete_asset_eq|].
    assert (S1 := delete_static_sound a c enc (as_url a) (or_introl eq_refl)).
    assert (S2 : sound nothing (whole_write cs H uri_query a c enc) (chunk_key a c enc) (each (fallback_delete_act a c enc) (fallbacks_of c))) by (apply sound_each; intros fb I; apply fallback_delete_sound, I).
    assert (S3 : forall u, In u (aliases_of c) -> sound nothing (whole_write cs H uri_query a c enc) (chunk_key a c enc) (delete_static cs H uri_query (aliased a u) (content_type_of c) (headers_of c) enc)) by (intros u I; apply delete_static_sound; right; exact I).
    assert (S3' := sound_each _ _ _ _ _ S3).
    inversion w as [u y U E|fb y I E]; subst.
    - destruct U as [->|U].
      + apply passes_seq_l; [exact S1|apply sound_seq; assumption|]. apply delete_static_passes; auto.
      + apply passes_seq_r; [exact S1|]. apply passes_seq_r; [exact S2|]. apply (passes_each _ _ _ _ _ _ u); [exact S3|exact U|]. apply delete_static_passes; auto.
    - apply passes_seq_r; [exact S1|]. apply passes_seq_l; [exact S2|exact S3'|]. apply (passes_each _ _ _ _ _ _ fb); [intros; apply fallback_delete_sound; assumption|assumption|].
      apply passes_attempt. intros y E'. assert (y = x) by congruence. subst y. apply (drop_passes _ _ _ true).
  Qed.
  Lemma delete_asset_forgets a c enc k : chunk_key a c enc k ->
    passes nothing (whole_write cs H uri_query a c enc) (chunk_key a c enc) (forgets k) (delete_asset cs H uri_query a c enc).
  Proof.
    intros (u & i & U & L1 & L2 & ->). eapply passes_ext; [intro st; symmetry; apply delete_asset_eq|].
    assert (S1 := delete_static_sound a c enc (as_url a) (or_introl eq_refl)).
    assert (S2 : sound nothing (whole_write cs H uri_query a c enc) (chunk_key a c enc) (each (fallback_delete_act a c enc) (fallbacks_of c))) by (apply sound_each; intros fb I; apply fallback_delete_sound, I).
    assert (S3 : forall u, In u (aliases_of c) -> sound nothing (whole_write cs H uri_query a c enc) (chunk_key a c enc) (delete_static cs H uri_query (aliased a u) (content_type_of c) (headers_of c) enc)) by (intros v I; apply delete_static_sound; right; exact I).
    destruct U as [->|U].
    - apply passes_seq_l; [exact S1|apply sound_seq; [exact S2|exact (sound_each _ _ _ _ _ S3)]|]. apply delete_static_forgets; auto.
    - apply passes_seq_r; [exact S1|]. apply passes_seq_r; [exact S2|]. apply (passes_each _ _ _ _ _ _ u); [exact S3|exact U|]. apply delete_static_forgets; auto.
  Qed.

  (** ** all assets of a call *)
  Lemma asset_acts_sound P D F (f : asset -> option config -> option encoding -> act) assets cfgs a :
    (forall a c enc, variant assets cfgs a c enc -> sound P D F (f a c enc)) -> last_asset assets a ->
    sound P D F (asset_acts f (asset_map assets) cfgs a).
  Proof.
    intros X L. unfold asset_acts. assert (FC := find_first cfgs a). apply sound_seq.
    - apply sound_each. intros [e suffix] I. cbn [fst snd]. destruct (m_get bytes_eqb (as_path a ++ suffix) (asset_map assets)) as [ea|] eqn:E; [|apply sound_done].
      apply asset_map_get in E. destruct E as [LE Q]. apply X. eapply VariantEncoded; eauto.
    - apply X. apply VariantSelf; assumption.
  Qed.
  Lemma assets_passes P D F R (f : asset -> option config -> option encoding -> act) order assets cfgs a c enc : (forall l, Permutation (order l) l) ->
    (forall a c enc, variant assets cfgs a c enc -> sound P D F (f a c enc)) -> variant assets cfgs a c enc -> passes P D F R (f a c enc) ->
    passes P D F R (each (asset_acts f (asset_map assets) cfgs) (order (map snd (asset_map assets)))).
  Proof.
    intros O X V Q.
    assert (SA : forall b, In b (order (map snd (asset_map assets))) -> sound P D F (asset_acts f (asset_map assets) cfgs b)).
    { intros b I. apply (Permutation_in _ (O _)) in I. apply asset_map_values in I. apply asset_acts_sound; assumption. }
    assert (IN : forall b, last_asset assets b -> In b (order (map snd (asset_map assets)))).
    { intros b L. apply (Permutation_in _ (Permutation_sym (O _))). apply asset_map_values, L. }
    assert (SE : forall b x, last_asset assets b -> In x (encodings_of (find (fun x => matches_asset x b) cfgs)) ->
      sound P D F (match m_get bytes_eqb (as_path b ++ snd x) (asset_map assets) with Some ea => f (aliased ea (as_url b)) (find (fun x => matches_asset x b) cfgs) (Some (fst x)) | None => done end)).
    { intros b [e suffix] L I. cbn [fst snd]. destruct (m_get bytes_eqb (as_path b ++ suffix) (asset_map assets)) as [ea|] eqn:E; [|apply sound_done].
      apply asset_map_get in E. destruct E as [LE Q']. apply X. eapply VariantEncoded; eauto. apply find_first. }
    inversion V as [b c' L FC E1 E2 E3|b c' e suffix ea L FC I LE PE E1 E2 E3]; subst.
    - assert (c = find (fun x => matches_asset x a) cfgs) by (eapply first_config_fun; [exact FC|apply find_first]). subst c.
      apply (passes_each _ _ _ _ _ _ a); [exact SA|apply IN, L|]. unfold asset_acts. apply passes_seq_r; [|exact Q]. apply sound_each. intros x I. apply SE; assumption.
    - assert (c = find (fun x => matches_asset x b) cfgs) by (eapply first_config_fun; [exact FC|apply find_first]). subst c.
      apply (passes_each _ _ _ _ _ _ b); [exact SA|apply IN, L|]. unfold asset_acts. apply passes_seq_l; [apply sound_each; intros x J; apply SE; assumption|apply X, VariantSelf; [exact L|apply find_first]|].
      apply (passes_each _ _ _ _ _ _ (e, suffix)); [intros x J; apply SE; assumption|exact I|]. cbn [fst snd]. rewrite <- PE, (asset_map_has _ _ LE). exact Q.
  Qed.
  Lemma normalize_redirect configs cfgs from to kind : normalize_all glob configs = Some cfgs -> In (NRedirect from to kind) cfgs -> In (ConfigRedirect from to kind) configs.
  Proof.
    revert cfgs. induction configs as [|x configs IH]; intros cfgs; cbn [normalize_all].
    - intro E; injection E as <-. intros [].
    - destruct (normalize glob x) as [n|] eqn:N; [|discriminate]. destruct (normalize_all glob configs) as [ns|]; [|discriminate]. intro E; injection E as <-.
      intros [->|I]; [left|right; eapply IH; eauto]. destruct x; cbn in N; try (destruct (glob pattern)); congruence.
  Qed.
  Lemma normalize_redirect_in configs cfgs from to kind : normalize_all glob configs = Some cfgs -> In (ConfigRedirect from to kind) configs -> In (NRedirect from to kind) cfgs.
  Proof.
    revert cfgs. induction configs as [|x configs IH]; intros cfgs; cbn [normalize_all]; [intros _ []|].
    destruct (normalize glob x) as [n|] eqn:N; [|discriminate]. destruct (normalize_all glob configs) as [ns|]; [|discriminate]. intro E; injection E as <-.
    intros [->|I]; [left; cbn in N; congruence|right; eapply IH; eauto].
  Qed.
  Notation Written := (written cs H uri_query glob).
  Notation Whole := (whole_written cs H uri_query glob).
  Definition call_chunk_key (assets : list asset) (configs : list asset_config) (k : key) : Prop :=
    exists cfgs a c enc, normalize_all glob configs = Some cfgs /\ variant assets cfgs a c enc /\ chunk_key a c enc k.
  Lemma certify_sub assets configs cfgs a c enc : normalize_all glob configs = Some cfgs -> variant assets cfgs a c enc -> sub (asset_write a c enc) (Written assets configs).
  Proof. intros N V f k x [X|X]; [left; eapply WrittenWhole|right; eapply WrittenChunk]; eauto. Qed.
  Lemma delete_sub assets configs cfgs a c enc : normalize_all glob configs = Some cfgs -> variant assets cfgs a c enc -> sub (whole_write cs H uri_query a c enc) (Whole assets configs).
  Proof. intros N V f k x X. eapply WrittenWhole; eauto. Qed.
  Lemma delete_sub_keys assets configs cfgs a c enc : normalize_all glob configs = Some cfgs -> variant assets cfgs a c enc -> forall k, chunk_key a c enc k -> call_chunk_key assets configs k.
  Proof. intros N V k X. exists cfgs, a, c, enc. auto. Qed.
  Definition redirect_insert_act (c : config) : act := match c with NRedirect f t k => insert_redirect H uri_query f t k | _ => done end.
  Definition redirect_delete_act (c : config) : act := match c with NRedirect f t k => delete_redirect H uri_query f t k | _ => done end.
  Lemma redirect_insert_sound assets configs cfgs c : normalize_all glob configs = Some cfgs -> In c cfgs -> sound (Written assets configs) nothing no_key (redirect_insert_act c).
  Proof.
    intros N I. destruct c as [| |from to kind]; try apply sound_done. apply sound_attempt. intros x E.
    apply (put_sound _ _ _ false). left. eapply WrittenRedirect; [eapply normalize_redirect; eassumption|exact E].
  Qed.
  Lemma redirect_delete_sound assets configs cfgs c : normalize_all glob configs = Some cfgs -> In c cfgs -> sound nothing (Whole assets configs) (call_chunk_key assets configs) (redirect_delete_act c).
  Proof.
    intros N I. destruct c as [| |from to kind]; try apply sound_done. apply sound_attempt. intros x E.
    apply (drop_sound _ _ _ false). eapply WrittenRedirect; [eapply normalize_redirect; eassumption|exact E].
  Qed.
  Lemma certify_variant_sound assets configs cfgs : normalize_all glob configs = Some cfgs -> forall a c enc, variant assets cfgs a c enc ->
    sound (Written assets configs) nothing no_key (certify_asset cs H uri_query a c enc).
  Proof. intros N a c enc V. eapply sound_mono; [eapply certify_sub; eassumption|apply sub_refl| |apply certify_asset_sound]. intros k []. Qed.
  Lemma delete_variant_sound assets configs cfgs : normalize_all glob configs = Some cfgs -> forall a c enc, variant assets cfgs a c enc ->
    sound nothing (Whole assets configs) (call_chunk_key assets configs) (delete_asset cs H uri_query a c enc).
  Proof. intros N a c enc V. eapply sound_mono; [apply sub_refl|eapply delete_sub; eassumption|eapply delete_sub_keys; eassumption|apply delete_asset_sound]. Qed.
  Lemma certify_assets_sound order assets configs : (forall l, Permutation (order l) l) ->
    sound (Written assets configs) nothing no_key (certify_assets cs H uri_query glob order assets configs).
  Proof.
    intro P. unfold certify_assets. apply sound_attempt. intros cfgs N. apply sound_seq.
    - apply sound_each. intros a I. apply (Permutation_in _ (P _)) in I. apply asset_map_values in I. apply asset_acts_sound; [|exact I].
      apply certify_variant_sound, N.
    - apply sound_each. intros c I. exact (redirect_insert_sound assets configs cfgs c N I).
  Qed.
  Lemma delete_assets_sound order assets configs : (forall l, Permutation (order l) l) ->
    sound nothing (Whole assets configs) (call_chunk_key assets configs) (delete_assets cs H uri_query glob order assets configs).
  Proof.
    intro P. unfold delete_assets. apply sound_attempt. intros cfgs N. apply sound_seq.
    - apply sound_each. intros a I. apply (Permutation_in _ (P _)) in I. apply asset_map_values in I. apply asset_acts_sound; [|exact I].
      apply delete_variant_sound, N.
    - apply sound_each. intros c I. exact (redirect_delete_sound assets configs cfgs c N I).
  Qed.
  Lemma certify_assets_passes order assets configs f k x : (forall l, Permutation (order l) l) -> Written assets configs f k x ->
    passes (Written assets configs) nothing no_key (puts f k x) (certify_assets cs H uri_query glob order assets configs).
  Proof.
    intros O w. unfold certify_assets. apply passes_attempt. intros cfgs N.
    assert (SR : forall c, In c cfgs -> sound (Written assets configs) nothing no_key (redirect_insert_act c)) by (intros c I; eapply redirect_insert_sound; eassumption).
    assert (SA : sound (Written assets configs) nothing no_key (each (asset_acts (certify_asset cs H uri_query) (asset_map assets) cfgs) (order (map snd (asset_map assets))))).
    { apply sound_each. intros a I. apply (Permutation_in _ (O _)) in I. apply asset_map_values in I. apply asset_acts_sound; [|exact I]. apply certify_variant_sound, N. }
    assert (V : forall cfgs' a c enc, normalize_all glob configs = Some cfgs' -> variant assets cfgs' a c enc -> asset_write a c enc f k x ->
      passes (Written assets configs) nothing no_key (puts f k x) (seq (each (asset_acts (certify_asset cs H uri_query) (asset_map assets) cfgs) (order (map snd (asset_map assets)))) (each redirect_insert_act cfgs))).
    { intros cfgs' a c enc N' V w'. assert (cfgs' = cfgs) by congruence. subst cfgs'. apply passes_seq_l; [exact SA|exact (sound_each _ _ _ _ _ SR)|].
      eapply assets_passes; [exact O|apply certify_variant_sound, N|exact V|].
      eapply passes_mono; [eapply certify_sub; eassumption|apply sub_refl| |apply certify_asset_passes, w']. intros k' []. }
    destruct w as [w|w].
    - destruct w as [cfgs' a c enc f k x N' Va w|from to kind x I E].
      + eapply V; [exact N'|exact Va|left; exact w].
      + apply passes_seq_r; [exact SA|]. apply (passes_each _ _ _ _ _ _ (NRedirect from to kind)); [exact SR|eapply normalize_redirect_in; eassumption|].
        apply passes_attempt. intros y E'. assert (y = x) by congruence. subst y. apply (put_passes _ _ _ false).
    - destruct w as [cfgs' a c enc f k x N' Va w]. eapply V; [exact N'|exact Va|right; exact w].
  Qed.
  Lemma delete_assets_passes order assets configs f k x : (forall l, Permutation (order l) l) -> Whole assets configs f k x ->
    passes nothing (Whole assets configs) (call_chunk_key assets configs) (drops f k x) (delete_assets cs H uri_query glob order assets configs).
  Proof.
    intros O w. unfold delete_assets. apply passes_attempt. intros cfgs N.
    assert (SR : forall c, In c cfgs -> sound nothing (Whole assets configs) (call_chunk_key assets configs) (redirect_delete_act c)) by (intros c I; eapply redirect_delete_sound; eassumption).
    assert (SA : sound nothing (Whole assets configs) (call_chunk_key assets configs) (each (asset_acts (delete_asset cs H uri_query) (asset_map assets) cfgs) (order (map snd (asset_map assets))))).
    { apply sound_each. intros a I. apply (Permutation_in _ (O _)) in I. apply asset_map_values in I. apply asset_acts_sound; [|exact I]. apply delete_variant_sound, N. }
    destruct w as [cfgs' a c enc f k x N' Va w|from to kind x I E].
    - assert (cfgs' = cfgs) by congruence. subst cfgs'. apply passes_seq_l; [exact SA|exact (sound_each _ _ _ _ _ SR)|].
      eapply assets_passes; [exact O|apply delete_variant_sound, N|exact Va|].
      eapply passes_mono; [apply sub_refl|eapply delete_sub; eassumption|eapply delete_sub_keys; eassumption|apply delete_asset_passes, w].
    - apply passes_seq_r; [exact SA|]. apply (passes_each _ _ _ _ _ _ (NRedirect from to kind)); [exact SR|eapply normalize_redirect_in; eassumption|].
      apply passes_attempt. intros y E'. assert (y = x) by congruence. subst y. apply (drop_passes _ _ _ false).
  Qed.
  Lemma delete_assets_forgets order assets configs k : (forall l, Permutation (order l) l) -> call_chunk_key assets configs k ->
    passes nothing (Whole assets configs) (call_chunk_key assets configs) (forgets k) (delete_assets cs H uri_query glob order assets configs).
  Proof.
    intros O (cfgs' & a & c & enc & N' & Va & w). unfold delete_assets. apply passes_attempt. intros cfgs N. assert (cfgs' = cfgs) by congruence. subst cfgs'.
    apply passes_seq_l.
    - apply sound_each. intros b I. apply (Permutation_in _ (O _)) in I. apply asset_map_values in I. apply asset_acts_sound; [|exact I]. apply delete_variant_sound, N.
    - apply sound_each. intros x I. exact (redirect_delete_sound assets configs cfgs x N I).
    - eapply assets_passes; [exact O|apply delete_variant_sound, N|exact Va|].
      eapply passes_mono; [apply sub_refl|eapply delete_sub; eassumption|eapply delete_sub_keys; eassumption|apply delete_asset_forgets, w].
  Qed.

  (** ** histories *)
  Definition any_key (k : key) : Prop := True.
  Lemma run_call_steps c st : any_order c -> tok st ->
    steps (call_puts cs H uri_query glob c) (call_drops cs H uri_query glob c) any_key (c = CallDeleteAll) st (fst (run_call cs H uri_query glob c st)) /\
    okay (snd (run_call cs H uri_query glob c st)).
  Proof.
    intros P K. destruct c as [o a cf|o a cf|]; cbn [any_order run_call] in *.
    - destruct (certify_assets_sound o a cf P st K) as [S O]. split; [|exact O]. eapply steps_mono; [| | | |exact S]; [apply sub_refl|apply sub_refl|intros k []|intros []].
    - destruct (delete_assets_sound o a cf P st K) as [S O]. split; [|exact O]. eapply steps_mono; [| | | |exact S]; [apply sub_refl|apply sub_refl|intros k _; exact I|intros []].
    - split; [|left; reflexivity]. cbn [delete_all_assets fst]. apply steps_one. apply SClear. reflexivity.
  Qed.
  Definition history_puts (calls : list call) : write := fun f k x => exists c, In c calls /\ call_puts cs H uri_query glob c f k x.
  Definition history_drops (calls : list call) : write := fun f k x => exists c, In c calls /\ call_drops cs H uri_query glob c f k x.
  Lemma run_calls_steps calls : Forall any_order calls -> forall st, tok st ->
    steps (history_puts calls) (history_drops calls) any_key True st (run_calls cs H uri_query glob calls st).
  Proof.
    induction 1 as [|c calls P Q IH]; intros st K; cbn [run_calls]; [constructor|].
    destruct (run_call_steps c st P K) as [S _]. eapply steps_app.
    - eapply steps_mono; [| | | |exact S]; [intros f k x w; exists c; split; [left; reflexivity|exact w]|intros f k x w; exists c; split; [left; reflexivity|exact w]|intros k X; exact X|intros _; exact I].
    - eapply steps_mono; [| | | |apply IH; eapply steps_tok; eassumption]; [intros f k x (c' & J & w); exists c'; split; [right; exact J|exact w]|intros f k x (c' & J & w); exists c'; split; [right; exact J|exact w]|intros k X; exact X|intro X; exact X].
  Qed.
End Router.
