(** Witnesses of [RbTree]: they are prunings of [as_hash_tree], and what they reveal. *)
From Coq Require Import List NArith Bool Lia Sorted.
From Verif Require Import Bytes HashTree HashTreeSpec HashTreeProofs HashTreeSpecProofs RbTree RbShape RbContent RbHash.
Import ListNotations.

(** ** Prunings of well-formed trees *)
Lemma prunes_labels H t w : prunes H t w -> incl (labels w) (labels t).
Proof.
  induction 1 as [ | | | l r l' r' P1 IH1 P2 IH2 | | ]; simpl; intros x I; simpl in I; auto; try tauto.
  apply in_app_or in I. apply in_or_app. destruct I as [I|I]; [left; apply IH1|right; apply IH2]; exact I.
Qed.
Lemma prunes_fork_child_ok H t w : prunes H t w -> fork_child_ok t = true -> fork_child_ok w = true.
Proof. destruct 1; simpl; auto. Qed.
Lemma prunes_wf H t w : prunes H t w -> wf t -> wf w.
Proof.
  induction 1 as [ | | | l r l' r' P1 IH1 P2 IH2 | | ]; simpl; auto.
  intros (W1 & W2 & O1 & O2 & S). repeat split; auto.
  - eapply prunes_fork_child_ok; eauto.
  - eapply prunes_fork_child_ok; eauto.
  - intros a b I J. apply S; eapply prunes_labels; eauto.
Qed.
Lemma prunes_child_at H t w k c : prunes H t w -> child_at k w c -> exists c', child_at k t c' /\ prunes H c' c.
Proof.
  intros P C. revert t P. induction C as [k c|k l r c C IH|k l r c C IH]; intros t P; inversion P; subst.
  - eexists; split; [constructor|assumption].
  - destruct (IH _ ltac:(eassumption)) as (c' & C' & P'). exists c'. split; [apply ChLeft; exact C'|exact P'].
  - destruct (IH _ ltac:(eassumption)) as (c' & C' & P'). exists c'. split; [apply ChRight; exact C'|exact P'].
Qed.

Lemma twf_neq_empty H l m r : m <> HEmpty -> three_way_fork H l m r <> HEmpty.
Proof. intro N. destruct l, r; destruct m; simpl; congruence. Qed.

Lemma twf_prunes H L k s R l' m' r' :
  prunes H L l' -> prunes H (HLabeled k s) m' -> prunes H R r' ->
  (l' = HEmpty <-> L = HEmpty) -> (r' = HEmpty <-> R = HEmpty) ->
  prunes H (three_way_fork H L (HLabeled k s) R) (three_way_fork H l' m' r').
Proof.
  intros PL PM PR [El El'] [Er Er'].
  assert (NM : m' <> HEmpty) by (inversion PM; discriminate).
  assert (NL : L <> HEmpty -> l' <> HEmpty) by tauto.
  assert (NR : R <> HEmpty -> r' <> HEmpty) by tauto.
  assert (CL : L = HEmpty \/ L <> HEmpty) by (destruct L; [left; reflexivity|right..]; discriminate).
  assert (CR : R = HEmpty \/ R <> HEmpty) by (destruct R; [left; reflexivity|right..]; discriminate).
  destruct CL as [CL|CL]; destruct CR as [CR|CR].
  - rewrite (El' CL), (Er' CR), CL, CR. destruct m'; exact PM.
  - rewrite (El' CL), CL. specialize (NR CR).
    assert (A1 : three_way_fork H HEmpty (HLabeled k s) R = HFork (HLabeled k s) R) by (destruct R; first [reflexivity|congruence]).
    assert (A2 : three_way_fork H HEmpty m' r' = HFork m' r') by (destruct r'; try congruence; destruct m'; first [reflexivity|congruence]).
    rewrite A1, A2. apply PrFork; assumption.
  - rewrite (Er' CR), CR. specialize (NL CL).
    assert (A1 : three_way_fork H L (HLabeled k s) HEmpty = HFork L (HLabeled k s)) by (destruct L; first [reflexivity|congruence]).
    assert (A2 : three_way_fork H l' m' HEmpty = HFork l' m') by (destruct l'; try congruence; destruct m'; first [reflexivity|congruence]).
    rewrite A1, A2. apply PrFork; assumption.
  - specialize (NL CL). specialize (NR CR).
    assert (A1 : three_way_fork H L (HLabeled k s) R = HFork L (HFork (HLabeled k s) R)) by (destruct L, R; first [reflexivity|congruence]).
    rewrite A1.
    assert (DL := prunes_digest _ _ _ PL). assert (DM := prunes_digest _ _ _ PM). assert (DR := prunes_digest _ _ _ PR).
    assert (X : prunes H (HFork L (HFork (HLabeled k s) R)) (HFork l' (HFork m' r')))
      by (apply PrFork; [exact PL|apply PrFork; [exact PM|exact PR]]).
    assert (Y : forall lh mh rh, l' = HPruned lh -> m' = HPruned mh -> r' = HPruned rh ->
       prunes H (HFork L (HFork (HLabeled k s) R)) (HPruned (fork_hash H lh (fork_hash H mh rh)))).
    { intros lh mh rh -> -> ->. simpl in DL, DM, DR.
      replace (fork_hash H lh (fork_hash H mh rh)) with (digest H (HFork L (HFork (HLabeled k s) R))); [apply PrPruned|].
      cbn [digest]. unfold labeled_hash in *. rewrite <- DL, <- DR. unfold labeled_hash. rewrite <- DM. reflexivity. }
    assert (Z : forall mh rh, m' = HPruned mh -> r' = HPruned rh ->
       prunes H (HFork L (HFork (HLabeled k s) R)) (HFork l' (HPruned (fork_hash H mh rh)))).
    { intros mh rh -> ->. simpl in DM, DR. apply PrFork; [exact PL|].
      replace (fork_hash H mh rh) with (digest H (HFork (HLabeled k s) R)); [apply PrPruned|].
      cbn [digest]. unfold labeled_hash in *. rewrite <- DR, <- DM. reflexivity. }
    destruct l'; try congruence; destruct r'; try congruence; destruct m'; try congruence;
    first [exact X | apply Y; reflexivity | apply Z; reflexivity].
Qed.

Lemma blt_irr a : blt a a -> False. Proof. apply blt_irrefl. Qed.

Section W.
  Variable H : bytes -> bytes.
  Variable V : Type.
  Variable vhash : V -> bytes.
  Variable vtree : V -> htree.
  Notation rb := (rb V).
  Notation elems := (elems V).
  Notation as_hash_tree := (as_hash_tree H V vtree).
  Notation three_way_fork := (three_way_fork H).

  (** a predicate on every entry of the tree *)
  Fixpoint allv (P : bytes -> V -> Prop) (t : rb) : Prop :=
    match t with
    | E => True
    | T _ l k v r _ => allv P l /\ P k v /\ allv P r
    end.
  Lemma allv_elems P t : allv P t <-> Forall (fun e => P (fst e) (snd e)) (elems t).
  Proof.
    clear H vhash vtree.
    induction t as [|c l IHl k v r IHr h]; simpl; [split; auto; constructor|].
    rewrite Forall_app, Forall_cons_iff, IHl, IHr. simpl. tauto.
  Qed.
  (** the [AsHashTree] contract of one value *)
  Definition vok (v : V) : Prop := vhash v = digest H (vtree v).
  Notation allok := (allv (fun _ v => vok v)).

  Lemma full_empty_iff t : as_hash_tree t = HEmpty <-> t = E.
  Proof. apply as_hash_tree_empty_iff. discriminate. Qed.

  Lemma root_hash_digest_loc t :
    hok H V vhash t -> allok t -> root_hash H V t = digest H (as_hash_tree t).
  Proof.
    induction t as [|c l IHl k v r IHr h]; [reflexivity|].
    intros (Kl & Kr & ->) (Al & Av & Ar). specialize (IHl Kl Al). specialize (IHr Kr Ar).
    unfold RbTree.as_hash_tree in *. cbn [full_witness_tree root_hash].
    rewrite twf_digest by discriminate. unfold compute_subtree_hash, data_hash.
    assert (El := full_empty_iff l). assert (Er := full_empty_iff r). unfold RbTree.as_hash_tree in *.
    change (digest H (data_tree V vtree k v)) with (labeled_hash H k (digest H (vtree v))). rewrite <- Av.
    revert IHl IHr El Er.
    generalize (full_witness_tree H V (data_tree V vtree) l) (full_witness_tree H V (data_tree V vtree) r).
    intros L R IHl IHr El Er.
    destruct l as [|lc ll lk lv lr lh]; [rewrite (proj2 El eq_refl)|cbn [root_hash] in IHl; assert (L <> HEmpty) by (rewrite El; discriminate)];
    (destruct r as [|rc rl rk rv rr rh]; [rewrite (proj2 Er eq_refl)|cbn [root_hash] in IHr; assert (R <> HEmpty) by (rewrite Er; discriminate)]);
    try reflexivity.
    - rewrite IHr. destruct R; congruence.
    - rewrite IHl. destruct L; congruence.
    - rewrite IHl, IHr. destruct L; try congruence; destruct R; congruence.
  Qed.

  (** ** Every witness is a pruning *)
  Definition okw (t : rb) (w : htree) : Prop :=
    prunes H (as_hash_tree t) w /\ (w = HEmpty <-> t = E).

  Lemma okw_E : okw E HEmpty.
  Proof. split; [constructor|tauto]. Qed.
  Lemma okw_child t : hok H V vhash t -> allok t -> okw t (child_hash_tree V t).
  Proof.
    intros K A. destruct t as [|c l k v r h]; [apply okw_E|].
    split; [|simpl; split; discriminate].
    change (child_hash_tree V (T c l k v r h)) with (HPruned (root_hash H V (T c l k v r h))).
    rewrite root_hash_digest_loc by assumption. apply PrPruned.
  Qed.
  Lemma okw_pruned c l k v r h : hok H V vhash (T c l k v r h) -> allok (T c l k v r h) -> okw (T c l k v r h) (HPruned h).
  Proof. intros K A. exact (okw_child _ K A). Qed.
  Lemma okw_twf c l k v r h l' m' r' :
    okw l l' -> okw r r' -> prunes H (HLabeled k (vtree v)) m' ->
    okw (T c l k v r h) (three_way_fork l' m' r').
  Proof.
    intros [Pl El] [Pr Er] Pm. split.
    - apply twf_prunes; auto; fold as_hash_tree.
      + rewrite El. symmetry. apply full_empty_iff.
      + rewrite Er. symmetry. apply full_empty_iff.
    - split; [|discriminate]. intro X. exfalso. revert X. apply twf_neq_empty.
      inversion Pm; discriminate.
  Qed.
  Lemma pr_witness k v : vok v -> prunes H (HLabeled k (vtree v)) (witness_tree V vhash k v).
  Proof. intro K. apply PrLabeled. rewrite K. apply PrPruned. Qed.
  Lemma pr_data_hash k v : vok v -> prunes H (HLabeled k (vtree v)) (HPruned (data_hash H V vhash k v)).
  Proof.
    intro K. unfold data_hash. rewrite K.
    change (labeled_hash H k (digest H (vtree v))) with (digest H (HLabeled k (vtree v))). apply PrPruned.
  Qed.

  Section Range.
    Variable f : bytes -> V -> htree.
    Hypothesis f_pr : forall k v, vok v -> prunes H (HLabeled k (vtree v)) (f k v).

    Lemma okw_full t : allok t -> okw t (full_witness_tree H V f t).
    Proof.
      induction t as [|c l IHl k v r IHr h]; [intros; apply okw_E|].
      intros (Al & Av & Ar). apply okw_twf; auto.
    Qed.
    Lemma okw_above lo t : hok H V vhash t -> allok t -> okw t (witness_range_above H V vhash f lo t).
    Proof.
      induction t as [|c l IHl k v r IHr h]; [intros; apply okw_E|].
      intros (Kl & Kr & _) (Al & Av & Ar). cbn [witness_range_above].
      destruct (bcmp k (kb_key lo)); apply okw_twf; auto using okw_child, okw_full, pr_data_hash.
      destruct lo; auto using pr_witness.
    Qed.
    Lemma okw_below hi t : hok H V vhash t -> allok t -> okw t (witness_range_below H V vhash f hi t).
    Proof.
      induction t as [|c l IHl k v r IHr h]; [intros; apply okw_E|].
      intros (Kl & Kr & _) (Al & Av & Ar). cbn [witness_range_below].
      destruct (bcmp k (kb_key hi)); apply okw_twf; auto using okw_child, okw_full, pr_data_hash.
      destruct hi; auto using pr_witness.
    Qed.
    Lemma okw_between lo hi t : hok H V vhash t -> allok t -> okw t (witness_range_between H V vhash f lo hi t).
    Proof.
      induction t as [|c l IHl k v r IHr h]; [intros; apply okw_E|].
      intros K A. assert (K0 := K). assert (A0 := A). destruct K as (Kl & Kr & _), A as (Al & Av & Ar).
      cbn [witness_range_between].
      destruct (bcmp (kb_key lo) k), (bcmp k (kb_key hi)); try (apply okw_pruned; assumption);
      apply okw_twf; auto using okw_child, okw_full, pr_data_hash;
      destruct lo, hi; auto using pr_witness.
    Qed.
    Lemma okw_range lo hi t w : hok H V vhash t -> allok t ->
      range_witness H V vhash f lo hi t = Some w -> okw t w.
    Proof.
      intros K A. destruct lo as [lo|], hi as [hi|]; cbn [range_witness].
      - destruct (bcmp (kb_key lo) (kb_key hi)); intro X; try discriminate; injection X as <-; apply okw_between; auto.
      - intro X; injection X as <-. apply okw_above; auto.
      - intro X; injection X as <-. apply okw_below; auto.
      - intro X; injection X as <-. apply okw_full; auto.
    Qed.
  End Range.

  Lemma okw_build f key t w : hok H V vhash t -> allok t ->
    (forall v, aget key (elems t) = Some v -> prunes H (vtree v) (f v)) ->
    bst V t ->
    lookup_and_build_witness H V vhash f key t = Some w -> okw t w.
  Proof.
    intros K A F S. revert w. revert F. induction t as [|c l IHl k v r IHr h]; intros F w; [discriminate|].
    destruct K as (Kl & Kr & _), A as (Al & Av & Ar).
    assert (F' : forall x, get V key (T c l k v r h) = Some x -> prunes H (vtree x) (f x)).
    { intros x G. rewrite get_elems in G by exact S. auto. }
    apply bst_node in S. destruct S as (Sl & Sr & Fl & Fr).
    cbn [lookup_and_build_witness get] in *. destruct (bcmp_spec key k) as [X|X|X].
    - intro Y; injection Y as <-. apply okw_twf; auto using okw_child. apply PrLabeled. auto.
    - destruct (lookup_and_build_witness H V vhash f key l) as [s|] eqn:Y; cbn [obind]; [|discriminate].
      intro Z; injection Z as <-. apply okw_twf; auto using okw_child, pr_data_hash. apply IHl; auto.
      intros x G. rewrite <- get_elems in G by exact Sl. auto.
    - destruct (lookup_and_build_witness H V vhash f key r) as [s|] eqn:Y; cbn [obind]; [|discriminate].
      intro Z; injection Z as <-. apply okw_twf; auto using okw_child, pr_data_hash. apply IHr; auto.
      intros x G. rewrite <- get_elems in G by exact Sr. auto.
  Qed.

  (** ** [as_hash_tree] is well formed *)
  Lemma labels_twf l k s r : labels (three_way_fork l (HLabeled k s) r) = labels l ++ k :: labels r.
  Proof. destruct l, r; simpl; rewrite ?app_nil_r; reflexivity. Qed.
  Lemma labels_full t : labels (as_hash_tree t) = map fst (elems t).
  Proof.
    unfold RbTree.as_hash_tree. induction t as [|c l IHl k v r IHr h]; [reflexivity|].
    cbn [full_witness_tree RbTree.elems]. unfold data_tree at 2. rewrite labels_twf, IHl, IHr, map_app. reflexivity.
  Qed.
  Lemma wf_twf l k s r :
    wf l -> wf r -> wf s -> (l = HEmpty \/ fork_child_ok l = true) -> (r = HEmpty \/ fork_child_ok r = true) ->
    (forall a, In a (labels l) -> blt a k) -> (forall a, In a (labels r) -> blt k a) ->
    wf (three_way_fork l (HLabeled k s) r) /\ fork_child_ok (three_way_fork l (HLabeled k s) r) = true.
  Proof.
    intros Wl Wr Ws Ol Or Ll Lr.
    assert (X : forall a b, In a (labels l) -> In b (labels r) -> blt a b)
      by (intros a b I J; eapply blt_trans; eauto).
    assert (Y : forall a b, In a (labels l) -> In b (k :: labels r) -> blt a b).
    { intros a b I [<-|J]; auto. }
    destruct Ol as [->|Ol].
    - assert (Z : three_way_fork HEmpty (HLabeled k s) r = match r with HEmpty => HLabeled k s | _ => HFork (HLabeled k s) r end)
        by (destruct r; reflexivity). rewrite Z.
      destruct Or as [->|Or]; [simpl; auto|].
      assert (wf (HFork (HLabeled k s) r)) by (simpl; repeat split; auto; intros a b [<-|[]] J; auto).
      destruct r; simpl in Or; try discriminate; auto.
    - destruct Or as [->|Or].
      + assert (wf (HFork l (HLabeled k s))) by (simpl; repeat split; auto; intros a b I [<-|[]]; auto).
        destruct l; simpl in Ol; try discriminate; auto.
      + assert (wf (HFork l (HFork (HLabeled k s) r))).
        { cbn [wf labels]. repeat split; auto; cbn; intros a b [<-|[]] J; auto. }
        destruct l; simpl in Ol; try discriminate; destruct r; simpl in Or; try discriminate; auto.
  Qed.
  Lemma wf_full t : bst V t -> allv (fun _ v => wf (vtree v)) t ->
    wf (as_hash_tree t) /\ (t = E \/ fork_child_ok (as_hash_tree t) = true).
  Proof.
    induction t as [|c l IHl k v r IHr h]; [simpl; auto|].
    intros S (Al & Av & Ar). apply bst_node in S. destruct S as (Sl & Sr & Fl & Fr).
    destruct (IHl Sl Al) as [Wl Ol], (IHr Sr Ar) as [Wr Or].
    destruct (wf_twf (as_hash_tree l) k (vtree v) (as_hash_tree r)) as [A B]; auto.
    - destruct Ol as [->|Ol]; auto.
    - destruct Or as [->|Or]; auto.
    - rewrite labels_full. auto.
    - rewrite labels_full. auto.
  Qed.
  Lemma full_full t : allv (fun _ v => full (vtree v) = true) t -> full (as_hash_tree t) = true.
  Proof.
    clear vhash.
    unfold RbTree.as_hash_tree. induction t as [|c l IHl k v r IHr h]; [reflexivity|].
    intros (Al & Av & Ar). specialize (IHl Al). specialize (IHr Ar). cbn [full_witness_tree].
    revert IHl IHr. generalize (full_witness_tree H V (data_tree V vtree) l) (full_witness_tree H V (data_tree V vtree) r).
    intros a b A B. destruct a, b; simpl in *; rewrite ?Av, ?A, ?B; try reflexivity; try discriminate.
  Qed.

  (** ** What a witness shows: its entries are pruned nodes around a run of labelled ones *)
  Definition is_pr (t : htree) : Prop := match t with HPruned _ => True | _ => False end.
  Definition is_lab (t : htree) : Prop := match t with HLabeled _ _ => True | _ => False end.
  Definition shape (w : htree) (M : list htree) (a b : Prop) : Prop :=
    exists P1 P2, flatten_forks w = P1 ++ M ++ P2 /\ Forall is_pr P1 /\ Forall is_pr P2 /\
      Forall is_lab M /\ (a -> P1 = []) /\ (b -> P2 = []).

  Lemma flatten_twf_lab l k s r :
    flatten_forks (three_way_fork l (HLabeled k s) r) = flatten_forks l ++ HLabeled k s :: flatten_forks r.
  Proof. destruct l, r; simpl; rewrite ?app_nil_r; reflexivity. Qed.

  Lemma shape_lab l k s r M1 M2 a b :
    shape l M1 a True -> shape r M2 True b ->
    shape (three_way_fork l (HLabeled k s) r) (M1 ++ HLabeled k s :: M2) a b.
  Proof.
    intros (P1 & P2 & E1 & A1 & B1 & L1 & X1 & Y1) (P3 & P4 & E2 & A2 & B2 & L2 & X2 & Y2).
    rewrite (Y1 I), app_nil_r in E1. rewrite (X2 I) in E2. simpl in E2.
    exists P1, P4. rewrite flatten_twf_lab, E1, E2.
    split; [rewrite <- !app_assoc; reflexivity|]. repeat split; auto.
    apply Forall_app; split; auto. constructor; simpl; auto.
  Qed.
  Lemma shape_weak w M (a b a' b' : Prop) : shape w M a b -> (a' -> a) -> (b' -> b) -> shape w M a' b'.
  Proof. intros (P1 & P2 & E1 & A1 & B1 & L1 & X1 & Y1) F G. exists P1, P2. repeat split; auto. Qed.
  Lemma shape_child t (a : Prop) : (a -> t = E) -> shape (child_hash_tree V t) [] a True.
  Proof.
    intro X. exists (flatten_forks (child_hash_tree V t)), []. rewrite app_nil_r.
    split; [reflexivity|]. split; [destruct t; simpl; auto; constructor; simpl; auto|].
    repeat split; auto. intro Y. rewrite (X Y). reflexivity.
  Qed.
  Lemma shape_child' t (b : Prop) : (b -> t = E) -> shape (child_hash_tree V t) [] True b.
  Proof.
    intro X. exists [], (flatten_forks (child_hash_tree V t)).
    split; [reflexivity|]. repeat split; auto.
    - destruct t; simpl; auto; constructor; simpl; auto.
    - intro Y. rewrite (X Y). reflexivity.
  Qed.
  Lemma shape_pl t h r M (a b : Prop) : shape r M a b -> shape (three_way_fork (child_hash_tree V t) (HPruned h) r) M False b.
  Proof.
    intros (P1 & P2 & E1 & A1 & B1 & L1 & X1 & Y1).
    assert (G : forall Q, Forall is_pr Q ->
       shape (HFork (HPruned h) r) M False b -> True) by auto.
    assert (D : (exists h', r = HPruned h') \/
      exists Q, Forall is_pr Q /\ flatten_forks (three_way_fork (child_hash_tree V t) (HPruned h) r) = Q ++ flatten_forks r).
    { destruct r as [ | a1 a2 | x s | v | p]; [right|right|right|right|left; eauto];
      destruct t as [|c tl tk tv tr th]; simpl.
      all: try (exists [HPruned h]; split; [repeat constructor|reflexivity]).
      all: exists [HPruned th; HPruned h]; split; [repeat constructor|reflexivity]. }
    destruct D as [[h' ->]|(Q & FQ & EQ)].
    - simpl in E1. assert (M = []).
      { destruct P1; simpl in E1; [|destruct P1; [|discriminate]].
        - destruct M; [reflexivity|]. injection E1 as <- _. inversion L1; contradiction.
        - simpl in E1. destruct M; [reflexivity|discriminate]. }
      subst M. exists (flatten_forks (three_way_fork (child_hash_tree V t) (HPruned h) (HPruned h'))), [].
      rewrite app_nil_r. split; [reflexivity|]. repeat split; auto; try tauto.
      destruct t; simpl; repeat constructor.
    - exists (Q ++ P1), P2. rewrite EQ, E1, <- app_assoc. repeat split; auto; try tauto. apply Forall_app; auto.
  Qed.
  Lemma shape_pr t h l M (a b : Prop) : shape l M a b -> shape (three_way_fork l (HPruned h) (child_hash_tree V t)) M a False.
  Proof.
    intros (P1 & P2 & E1 & A1 & B1 & L1 & X1 & Y1).
    assert (D : (exists h', l = HPruned h') \/
      exists Q, Forall is_pr Q /\ flatten_forks (three_way_fork l (HPruned h) (child_hash_tree V t)) = flatten_forks l ++ Q).
    { destruct l as [ | a1 a2 | x s | v | p]; [right|right|right|right|left; eauto];
      destruct t as [|c tl tk tv tr th]; simpl.
      all: try (eexists [HPruned _]; split; [repeat constructor|reflexivity]).
      all: eexists [HPruned _; HPruned _]; split; [repeat constructor|reflexivity]. }
    destruct D as [[h' ->]|(Q & FQ & EQ)].
    - simpl in E1. assert (M = []).
      { destruct P1; simpl in E1; [|destruct P1; [|discriminate]].
        - destruct M; [reflexivity|]. injection E1 as <- _. inversion L1; contradiction.
        - simpl in E1. destruct M; [reflexivity|discriminate]. }
      subst M. exists [], (flatten_forks (three_way_fork (HPruned h') (HPruned h) (child_hash_tree V t))).
      split; [reflexivity|]. repeat split; auto; try tauto.
      destruct t; simpl; repeat constructor.
    - exists P1, (P2 ++ Q). rewrite EQ, E1, <- !app_assoc. repeat split; auto; try tauto. apply Forall_app; auto.
  Qed.

  Definition ge_lo (lo : kbound) (k : bytes) : bool := match bcmp k (kb_key lo) with Lt => false | _ => true end.
  Definition le_hi (hi : kbound) (k : bytes) : bool := match bcmp k (kb_key hi) with Gt => false | _ => true end.
  Definition keysof (t : rb) : list bytes := map fst (elems t).

  Section Shapes.
    Variable g : bytes -> V -> htree.   (* the continuation applied under the label *)
    Let f (k : bytes) (v : V) : htree := HLabeled k (g k v).
    Variable f0 : bytes -> V -> htree.
    Hypothesis f0_f : forall k v, f0 k v = f k v.

    (** what is shown for the entry [k, v] *)
    Definition ent (lo hi : option kbound) (k : bytes) (v : V) : htree :=
      let is_exact o := match o with Some (Exact x) => bytes_eqb k x | _ => false end in
      let is_nb o := match o with Some (Neighbor x) => bytes_eqb k x | _ => false end in
      if is_exact lo || is_exact hi then f k v
      else if is_nb lo || is_nb hi then witness_tree V vhash k v
      else f k v.
    Definition ents lo hi (es : list (bytes * V)) : list htree := map (fun e => ent lo hi (fst e) (snd e)) es.
    Definition in_lo (lo : option kbound) (k : bytes) : bool := match lo with None => true | Some b => ge_lo b k end.
    Definition in_hi (hi : option kbound) (k : bytes) : bool := match hi with None => true | Some b => le_hi b k end.
    Definition rng lo hi (es : list (bytes * V)) := filter (fun e => in_lo lo (fst e) && in_hi hi (fst e)) es.

    Lemma ents_app lo hi a b : ents lo hi (a ++ b) = ents lo hi a ++ ents lo hi b.
    Proof. apply map_app. Qed.
    Lemma rng_app lo hi a b : rng lo hi (a ++ b) = rng lo hi a ++ rng lo hi b.
    Proof. apply filter_app. Qed.
    Lemma rng_none lo hi es : (forall k, In k (map fst es) -> in_lo lo k && in_hi hi k = false) -> rng lo hi es = [].
    Proof.
      induction es as [|[k v] es IH]; simpl; auto. intro X. rewrite X by auto. apply IH. auto.
    Qed.
    Lemma rng_all lo hi es : (forall k, In k (map fst es) -> in_lo lo k && in_hi hi k = true) -> rng lo hi es = es.
    Proof.
      induction es as [|[k v] es IH]; simpl; auto. intro X. rewrite X by auto. f_equal. apply IH. auto.
    Qed.
    Lemma ent_lab lo hi k v : exists s, ent lo hi k v = HLabeled k s.
    Proof. unfold ent. cbv zeta. destruct (_ || _); [unfold f; eauto|]. destruct (_ || _); unfold f, witness_tree; eauto. Qed.
    Definition away (b : option kbound) (k : bytes) : Prop := match b with None => True | Some b => k <> kb_key b end.
    Lemma ent_away lo hi k v : away lo k -> away hi k -> ent lo hi k v = f k v.
    Proof.
      intros A B. unfold ent. cbv zeta.
      destruct lo as [[x|x]|], hi as [[y|y]|]; simpl in *;
      rewrite ?(proj2 (bytes_eqb_neq k x)), ?(proj2 (bytes_eqb_neq k y)) by assumption; reflexivity.
    Qed.
    Lemma ents_away lo hi es : (forall k, In k (map fst es) -> away lo k /\ away hi k) ->
      ents lo hi es = map (fun e => f (fst e) (snd e)) es.
    Proof.
      intro X. apply map_ext_in. intros [k v] I. destruct (X k); [apply in_map_iff; exists (k, v); auto|].
      apply ent_away; auto.
    Qed.

    Lemma flatten_full t : flatten_forks (full_witness_tree H V f0 t) = map (fun e => f (fst e) (snd e)) (elems t).
    Proof.
      induction t as [|c l IHl k v r IHr h]; [reflexivity|].
      cbn [full_witness_tree RbTree.elems]. rewrite f0_f. unfold f at 1. rewrite flatten_twf_lab, IHl, IHr, map_app. reflexivity.
    Qed.
    Lemma shape_full t : shape (full_witness_tree H V f0 t) (map (fun e => f (fst e) (snd e)) (elems t)) True True.
    Proof.
      exists [], []. rewrite app_nil_r, flatten_full. repeat split; auto.
      apply Forall_forall. intros x I. apply in_map_iff in I. destruct I as (e & <- & _). simpl. auto.
    Qed.

    Lemma shape_mid l k v r (x y : bool) lo hi M1 M2 a b :
      (forall s, ent lo hi k v = s -> exists c, s = HLabeled k c) ->
      shape l M1 a True -> shape r M2 True b ->
      shape (three_way_fork l (ent lo hi k v) r) (M1 ++ ent lo hi k v :: M2) a b.
    Proof. intros X Sl Sr. destruct (X _ eq_refl) as [c ->]. apply shape_lab; auto. Qed.

    Ltac bdone := solve [exfalso; match goal with
      | X : blt ?a ?a |- _ => exact (blt_irr a X)
      | X : blt ?a ?b, Y : blt ?b ?a |- _ => exact (blt_asym a b X Y)
      | X : blt ?a ?b, Y : blt ?b ?c, Z : blt ?c ?a |- _ => exact (blt_asym _ _ (blt_trans _ _ _ X Y) Z)
      end].
    Ltac cmp := unfold ge_lo, le_hi; repeat match goal with
      | |- context [bcmp ?a ?b] => destruct (bcmp_spec a b) end; try reflexivity;
      repeat match goal with X : ?a = ?b |- _ => first [subst a | subst b | rewrite <- X in *; clear X] end; bdone.

    Lemma shape_above lo t : bst V t ->
      shape (witness_range_above H V vhash f0 lo t) (ents (Some lo) None (rng (Some lo) None (elems t)))
        (forall k, In k (keysof t) -> ge_lo lo k = true) True.
    Proof.
      induction t as [|c l IHl k v r IHr h]; intro S.
      { exists [], []. simpl. repeat split; auto. }
      apply bst_node in S. destruct S as (Sl & Sr & Fl & Fr).
      specialize (IHl Sl). specialize (IHr Sr).
      cbn [witness_range_above RbTree.elems]. rewrite rng_app, ents_app.
      change (rng (Some lo) None ((k, v) :: elems r)) with
        (if ge_lo lo k && true then (k, v) :: rng (Some lo) None (elems r) else rng (Some lo) None (elems r)).
      rewrite andb_true_r.
      destruct (bcmp_spec k (kb_key lo)) as [C|C|C].
      - assert (X : ge_lo lo k = true) by cmp. rewrite X.
        rewrite (rng_none _ _ (elems l)) by (intros x I; simpl; specialize (Fl x I); rewrite ?andb_true_r; cmp).
        rewrite (rng_all _ _ (elems r)) by (intros x I; simpl; specialize (Fr x I); rewrite ?andb_true_r; cmp).
        cbn [app]. unfold ents at 2. cbn [map fst snd]. fold (ents (Some lo) None (elems r)).
        rewrite (ents_away _ _ (elems r)) by (intros x I; specialize (Fr x I); simpl; split; auto; rewrite <- C; intros ->; eapply blt_irrefl; eauto).
        replace (match lo with Exact _ => f0 k v | Neighbor _ => witness_tree V vhash k v end) with (ent (Some lo) None k v).
        2:{ unfold ent. rewrite f0_f. destruct lo; simpl in C; subst; cbv zeta; rewrite bytes_eqb_refl; reflexivity. }
        apply (shape_mid _ _ _ _ true true _ _ []); [intros s <-; apply ent_lab| |apply shape_full].
        apply shape_child. intro Z. destruct l as [|lc ll lk lv lr lh]; [reflexivity|exfalso].
        assert (I : In lk (keysof (T lc ll lk lv lr lh))) by (unfold keysof; simpl; rewrite map_app; apply in_or_app; right; left; reflexivity).
        specialize (Fl _ I). assert (Y : ge_lo lo lk = true) by (apply Z; unfold keysof; simpl; rewrite map_app; apply in_or_app; left; exact I).
        unfold ge_lo in Y. rewrite <- C in Y. unfold blt in Fl. rewrite Fl in Y. discriminate.
      - assert (X : ge_lo lo k = false) by cmp. rewrite X.
        rewrite (rng_none _ _ (elems l)) by (intros x I; simpl; specialize (Fl x I); rewrite ?andb_true_r; cmp).
        eapply shape_weak; [eapply shape_pl; exact IHr| |auto].
        intro Z. specialize (Z k). rewrite X in Z. discriminate Z. unfold keysof. simpl. rewrite map_app. apply in_or_app; right; left; reflexivity.
      - assert (X : ge_lo lo k = true) by cmp. rewrite X.
        rewrite (rng_all _ _ (elems r)) by (intros x I; simpl; specialize (Fr x I); rewrite ?andb_true_r; cmp).
        unfold ents at 2. cbn [map fst snd]. fold (ents (Some lo) None (elems r)).
        rewrite (ents_away _ _ (elems r)) by (intros x I; specialize (Fr x I); simpl; split; auto; intros ->; bdone).
        rewrite ent_away by (simpl; auto; intros ->; eapply blt_irrefl; eauto).
        rewrite f0_f. apply shape_lab; [|apply shape_full].
        eapply shape_weak; [exact IHl| |auto]. intros Z x I. apply Z. unfold keysof. simpl. rewrite map_app. apply in_or_app; left; exact I.
    Qed.

    Lemma shape_below hi t : bst V t ->
      shape (witness_range_below H V vhash f0 hi t) (ents None (Some hi) (rng None (Some hi) (elems t)))
        True (forall k, In k (keysof t) -> le_hi hi k = true).
    Proof.
      induction t as [|c l IHl k v r IHr h]; intro S.
      { exists [], []. simpl. repeat split; auto. }
      apply bst_node in S. destruct S as (Sl & Sr & Fl & Fr).
      specialize (IHl Sl). specialize (IHr Sr).
      cbn [witness_range_below RbTree.elems]. rewrite rng_app, ents_app.
      change (rng None (Some hi) ((k, v) :: elems r)) with
        (if true && le_hi hi k then (k, v) :: rng None (Some hi) (elems r) else rng None (Some hi) (elems r)).
      rewrite andb_true_l.
      destruct (bcmp_spec k (kb_key hi)) as [C|C|C].
      - assert (X : le_hi hi k = true) by cmp. rewrite X.
        rewrite (rng_none _ _ (elems r)) by (intros x I; simpl; specialize (Fr x I); cmp).
        rewrite (rng_all _ _ (elems l)) by (intros x I; simpl; specialize (Fl x I); cmp).
        unfold ents at 2. cbn [map fst snd].
        rewrite (ents_away _ _ (elems l)) by (intros x I; specialize (Fl x I); simpl; split; auto; rewrite <- C; intros ->; eapply blt_irrefl; eauto).
        replace (match hi with Exact _ => f0 k v | Neighbor _ => witness_tree V vhash k v end) with (ent None (Some hi) k v).
        2:{ unfold ent. rewrite f0_f. destruct hi; simpl in C; subst; cbv zeta; rewrite bytes_eqb_refl; reflexivity. }
        apply (shape_mid _ _ _ _ true true _ _ _ []); [intros s <-; apply ent_lab|apply shape_full|].
        apply shape_child'. intro Z. destruct r as [|rc rl rk rv rr rh]; [reflexivity|exfalso].
        assert (I : In rk (keysof (T rc rl rk rv rr rh))) by (unfold keysof; simpl; rewrite map_app; apply in_or_app; right; left; reflexivity).
        specialize (Fr _ I). assert (Y : le_hi hi rk = true) by (apply Z; unfold keysof; simpl; rewrite map_app; apply in_or_app; right; right; exact I).
        unfold le_hi in Y. rewrite <- C in Y. apply bcmp_gt_lt in Fr. rewrite Fr in Y. discriminate.
      - assert (X : le_hi hi k = true) by cmp. rewrite X.
        rewrite (rng_all _ _ (elems l)) by (intros x I; simpl; specialize (Fl x I); cmp).
        unfold ents at 2. cbn [map fst snd]. fold (ents None (Some hi) (rng None (Some hi) (elems r))).
        rewrite (ents_away _ _ (elems l)) by (intros x I; specialize (Fl x I); simpl; split; auto; intros ->; bdone).
        rewrite ent_away by (simpl; auto; intros ->; eapply blt_irrefl; eauto).
        rewrite f0_f. apply shape_lab; [apply shape_full|].
        eapply shape_weak; [exact IHr|auto|]. intros Z x I. apply Z. unfold keysof. simpl. rewrite map_app. apply in_or_app; right; right; exact I.
      - assert (X : le_hi hi k = false) by cmp. rewrite X.
        rewrite (rng_none _ _ (elems r)) by (intros x I; simpl; specialize (Fr x I); cmp).
        simpl (ents _ _ []). rewrite app_nil_r.
        eapply shape_weak; [eapply shape_pr; exact IHl|auto|].
        intro Z. specialize (Z k). rewrite X in Z. discriminate Z. unfold keysof. simpl. rewrite map_app. apply in_or_app; right; left; reflexivity.
    Qed.

    Lemma keysof_l c l k v r h x : In x (keysof l) -> In x (keysof (T c l k v r h)).
    Proof. intro I. unfold keysof. simpl. rewrite map_app. apply in_or_app; left; exact I. Qed.
    Lemma keysof_r c l k v r h x : In x (keysof r) -> In x (keysof (T c l k v r h)).
    Proof. intro I. unfold keysof. simpl. rewrite map_app. apply in_or_app; right; right; exact I. Qed.
    Lemma keysof_k c l k v r h : In k (keysof (T c l k v r h)).
    Proof. unfold keysof. simpl. rewrite map_app. apply in_or_app; right; left; reflexivity. Qed.

    Lemma shape_between lo hi t : bst V t -> ble (kb_key lo) (kb_key hi) ->
      shape (witness_range_between H V vhash f0 lo hi t) (ents (Some lo) (Some hi) (rng (Some lo) (Some hi) (elems t)))
        (forall k, In k (keysof t) -> ge_lo lo k = true) (forall k, In k (keysof t) -> le_hi hi k = true).
    Proof.
      intros S LH. induction t as [|c l IHl k v r IHr h].
      { exists [], []. simpl. repeat split; auto. }
      apply bst_node in S. destruct S as (Sl & Sr & Fl & Fr).
      specialize (IHl Sl). specialize (IHr Sr).
      cbn [witness_range_between RbTree.elems]. rewrite rng_app, ents_app.
      change (rng (Some lo) (Some hi) ((k, v) :: elems r)) with
        (if ge_lo lo k && le_hi hi k then (k, v) :: rng (Some lo) (Some hi) (elems r) else rng (Some lo) (Some hi) (elems r)).
      assert (EQL : forall x, k = kb_key lo -> In x (keysof l) -> ge_lo lo x = false).
      { intros x C I. specialize (Fl x I). unfold ge_lo. rewrite <- C. unfold blt in Fl. rewrite Fl. reflexivity. }
      assert (EQR : forall x, k = kb_key hi -> In x (keysof r) -> le_hi hi x = false).
      { intros x C I. specialize (Fr x I). unfold le_hi. rewrite <- C. apply bcmp_gt_lt in Fr. rewrite Fr. reflexivity. }
      assert (NL : k = kb_key lo -> (forall x, In x (keysof (T c l k v r h)) -> ge_lo lo x = true) -> l = E).
      { intros C Z. destruct l as [|lc ll lk lv lr lh]; [reflexivity|exfalso].
        specialize (Z _ (keysof_l c _ k v r h _ (keysof_k lc ll lk lv lr lh))).
        rewrite EQL in Z; [discriminate|exact C|apply keysof_k]. }
      assert (NR : k = kb_key hi -> (forall x, In x (keysof (T c l k v r h)) -> le_hi hi x = true) -> r = E).
      { intros C Z. destruct r as [|rc rl rk rv rr rh]; [reflexivity|exfalso].
        specialize (Z _ (keysof_r c l k v _ h _ (keysof_k rc rl rk rv rr rh))).
        rewrite EQR in Z; [discriminate|exact C|apply keysof_k]. }
      assert (SL : ble k (kb_key hi) -> shape (witness_range_between H V vhash f0 lo hi l)
        (ents (Some lo) (Some hi) (rng (Some lo) (Some hi) (elems l)))
        (forall x, In x (keysof (T c l k v r h)) -> ge_lo lo x = true) True).
      { intro C. eapply shape_weak; [exact IHl| |]; intros Z x I.
        - apply Z. apply keysof_l; exact I.
        - specialize (Fl x I). assert (blt x (kb_key hi)) by (eapply blt_ble_trans; eauto). cmp. }
      assert (SR : ble (kb_key lo) k -> shape (witness_range_between H V vhash f0 lo hi r)
        (ents (Some lo) (Some hi) (rng (Some lo) (Some hi) (elems r)))
        True (forall x, In x (keysof (T c l k v r h)) -> le_hi hi x = true)).
      { intro C. eapply shape_weak; [exact IHr| |]; intros Z x I.
        - specialize (Fr x I). assert (blt (kb_key lo) x) by (eapply ble_blt_trans; eauto). cmp.
        - apply Z. apply keysof_r; exact I. }
      destruct (bcmp_spec (kb_key lo) k) as [C|C|C]; destruct (bcmp_spec k (kb_key hi)) as [D|D|D].
      - (* Eq Eq *)
        assert (X : ge_lo lo k && le_hi hi k = true) by (unfold ge_lo, le_hi; rewrite C, <- D, bcmp_refl; reflexivity). rewrite X.
        rewrite (rng_none _ _ (elems l)) by (intros x I; simpl; rewrite EQL; auto).
        rewrite (rng_none _ _ (elems r)) by (intros x I; simpl; rewrite (EQR x); auto; apply andb_false_r).
        simpl (ents _ _ []). simpl (ents _ _ [_]).
        replace (match lo, hi with Exact _, _ => f0 k v | _, Exact _ => f0 k v | _, _ => witness_tree V vhash k v end)
          with (ent (Some lo) (Some hi) k v).
        2:{ unfold ent. rewrite f0_f. destruct lo, hi; simpl in C, D; subst; cbv zeta; rewrite bytes_eqb_refl; reflexivity. }
        apply (shape_mid _ _ _ _ true true _ _ [] []); [intros s <-; apply ent_lab| |].
        + apply shape_child; auto.
        + apply shape_child'; auto.
      - (* Eq Lt *)
        assert (X : ge_lo lo k && le_hi hi k = true) by (rewrite andb_true_iff; split; cmp). rewrite X.
        rewrite (rng_none _ _ (elems l)) by (intros x I; simpl; rewrite EQL; auto).
        simpl (ents _ _ []). unfold ents at 1. cbn [app map fst snd]. fold (ents (Some lo) (Some hi) (rng (Some lo) (Some hi) (elems r))).
        replace (match lo with Exact _ => f0 k v | Neighbor _ => witness_tree V vhash k v end)
          with (ent (Some lo) (Some hi) k v).
        2:{ unfold ent. rewrite f0_f. destruct lo, hi; simpl in C, D; subst; cbv zeta; rewrite bytes_eqb_refl; cbn [orb]; try reflexivity;
            rewrite (proj2 (bytes_eqb_neq k _)) by (intro; subst; eapply blt_irrefl; eauto); reflexivity. }
        apply (shape_mid _ _ _ _ true true _ _ []); [intros s <-; apply ent_lab| |].
        + apply shape_child; auto.
        + apply SR. rewrite C. apply ble_refl.
      - (* Eq Gt *) exfalso. rewrite C in LH. exact (ble_nblt _ _ LH D).
      - (* Lt Eq *)
        assert (X : ge_lo lo k && le_hi hi k = true) by (rewrite andb_true_iff; split; cmp). rewrite X.
        rewrite (rng_none _ _ (elems r)) by (intros x I; simpl; rewrite (EQR x); auto; apply andb_false_r).
        simpl (ents _ _ [_]).
        replace (match hi with Exact _ => f0 k v | Neighbor _ => witness_tree V vhash k v end)
          with (ent (Some lo) (Some hi) k v).
        2:{ unfold ent. rewrite f0_f. destruct lo, hi; simpl in C, D; subst; cbv zeta; rewrite bytes_eqb_refl; cbn [orb]; rewrite ?orb_true_r; try reflexivity;
            rewrite (proj2 (bytes_eqb_neq _ _)) by (intro; subst; eapply blt_irrefl; eauto); reflexivity. }
        apply (shape_mid _ _ _ _ true true _ _ _ []); [intros s <-; apply ent_lab| |].
        + apply SL. rewrite D. apply ble_refl.
        + apply shape_child'; auto.
      - (* Lt Lt *)
        assert (X : ge_lo lo k && le_hi hi k = true) by (rewrite andb_true_iff; split; cmp). rewrite X.
        unfold ents at 2. cbn [app map fst snd]. fold (ents (Some lo) (Some hi) (rng (Some lo) (Some hi) (elems r))).
        rewrite ent_away by (simpl; intro; subst; eapply blt_irrefl; eauto). rewrite f0_f.
        apply shape_lab; [apply SL|apply SR]; apply blt_ble; auto.
      - (* Lt Gt *)
        assert (X : le_hi hi k = false) by cmp. rewrite X, andb_false_r.
        rewrite (rng_none _ _ (elems r)).
        2:{ intros x I. simpl. specialize (Fr x I). rewrite andb_false_iff; right. cmp. }
        simpl (ents _ _ []). rewrite app_nil_r.
        eapply shape_weak; [eapply shape_pr; exact IHl| |].
        + intros Z x I. apply Z, keysof_l; exact I.
        + intro Z. specialize (Z k (keysof_k _ _ _ _ _ _)). congruence.
      - (* Gt Eq *) exfalso. rewrite <- D in LH. exact (ble_nblt _ _ LH C).
      - (* Gt Lt *)
        assert (X : ge_lo lo k = false) by cmp. rewrite X. cbn [andb].
        rewrite (rng_none _ _ (elems l)).
        2:{ intros x I. simpl. specialize (Fl x I). rewrite andb_false_iff; left. cmp. }
        simpl (ents _ _ []). cbn [app].
        eapply shape_weak; [eapply shape_pl; exact IHr| |].
        + intro Z. specialize (Z k (keysof_k _ _ _ _ _ _)). congruence.
        + intros Z x I. apply Z, keysof_r; exact I.
      - exfalso. apply (ble_nblt _ _ LH). eapply blt_trans; eauto.
    Qed.

    Lemma shape_range lo hi t w : bst V t ->
      range_witness H V vhash f0 lo hi t = Some w ->
      shape w (ents lo hi (rng lo hi (elems t))) (lo = None) (hi = None).
    Proof.
      intro S. destruct lo as [lo|], hi as [hi|]; cbn [range_witness].
      - intro X. assert (LH : ble (kb_key lo) (kb_key hi)) by (unfold ble; destruct (bcmp (kb_key lo) (kb_key hi)); congruence).
        assert (w = witness_range_between H V vhash f0 lo hi t) by (destruct (bcmp (kb_key lo) (kb_key hi)); congruence). subst w.
        eapply shape_weak; [apply shape_between; auto|discriminate|discriminate].
      - intro X; injection X as <-. eapply shape_weak; [apply shape_above; auto|discriminate|auto].
      - intro X; injection X as <-. eapply shape_weak; [apply shape_below; auto|auto|discriminate].
      - intro X; injection X as <-. rewrite rng_all by reflexivity. rewrite ents_away by (simpl; auto).
        eapply shape_weak; [apply shape_full|auto|auto].
    Qed.
  End Shapes.

End W.

(** ** Looking labels up in such a witness *)
Lemma flatten_child_at k c w : In (HLabeled k c) (flatten_forks w) -> child_at k w c.
Proof.
  induction w as [ | l IHl r IHr | x t IH | v | h]; simpl; try tauto.
  - intro I. apply in_app_or in I. destruct I as [I|I]; [apply ChLeft|apply ChRight]; auto.
  - intros [X|[]]. injection X as -> ->. constructor.
  - intros [X|[]]; discriminate.
  - intros [X|[]]; discriminate.
Qed.
Lemma child_at_flatten k c w : child_at k w c -> In (HLabeled k c) (flatten_forks w).
Proof.
  induction 1; simpl; auto; apply in_or_app; auto.
Qed.

Lemma adjacent_lab k M :
  Forall is_lab M -> StronglySorted blt (entry_labels M) ->
  (exists a, In a (entry_labels M) /\ blt a k) -> (exists b, In b (entry_labels M) /\ blt k b) ->
  ~ In k (entry_labels M) -> adjacent k M = true.
Proof.
  induction M as [|e M IH]; simpl; [intros _ _ (a & [] & _)|].
  intros L S (a & Ia & La) (b & Ib & Lb) N. inversion L as [|? ? L1 L2]; subst.
  destruct e as [ | | x s | | ]; simpl in L1; try contradiction. simpl in *.
  inversion S as [|? ? S1 S2]; subst. rewrite Forall_forall in S2.
  assert (Lx : blt x k).
  { destruct Ia as [<-|Ia]; [exact La|]. eapply blt_trans; [apply S2; exact Ia|exact La]. }
  destruct Ib as [<-|Ib]; [exfalso; exact (blt_asym _ _ Lx Lb)|].
  destruct M as [|e M]; [destruct Ib|].
  inversion L2 as [|? ? L3 L4]; subst. destruct e as [ | | y s' | | ]; simpl in L3; try contradiction.
  apply orb_true_iff. unfold lt_entry, gt_entry. unfold blt in Lx. rewrite Lx. cbn [andb].
  destruct (bcmp_spec k y) as [C|C|C].
  - exfalso. apply N. right. simpl. auto.
  - left; reflexivity.
  - right. apply IH; auto.
    + exists y. split; [simpl; auto|exact C].
    + exists b. split; auto.
Qed.

Definition absent_llr (r : llr) : Prop := match r with LAbsent | LLess | LGreater => True | _ => False end.

Lemma adjacent_mid k P1 M P2 : adjacent k M = true -> adjacent k (P1 ++ M ++ P2) = true.
Proof.
  intro A. induction P1 as [|p P1 IH]; simpl app.
  - induction M as [|m M IH]; [discriminate|]. destruct M as [|m' M]; [discriminate|].
    cbn [app] in *. rewrite adjacent_cons in *. apply orb_true_iff in A. apply orb_true_iff. destruct A; auto.
  - destruct (P1 ++ M ++ P2) as [|y l] eqn:Q; [discriminate|]. rewrite adjacent_cons, IH. apply orb_true_r.
Qed.

Lemma entry_labels_app a b : entry_labels (a ++ b) = entry_labels a ++ entry_labels b.
Proof. unfold entry_labels. apply flat_map_app. Qed.
Lemma entry_labels_pr P : Forall is_pr P -> entry_labels P = [].
Proof. induction 1 as [|p P F]; [reflexivity|]. destruct p; simpl in *; tauto. Qed.

Lemma shape_absent k w M a b :
  wf w -> shape w M a b ->
  (a \/ exists x, In x (entry_labels M) /\ blt x k) ->
  (b \/ exists x, In x (entry_labels M) /\ blt k x) ->
  ~ In k (entry_labels M) -> absent_llr (lookup_label k w).
Proof.
  intros W (P1 & P2 & E1 & A1 & B1 & L1 & X1 & Y1) CA CB N.
  assert (S := wf_sorted w W). rewrite <- flatten_labels, E1, !entry_labels_app, (entry_labels_pr P1 A1), (entry_labels_pr P2 B1), app_nil_r in S.
  simpl in S.
  assert (G := lookup_label_find k w W).
  assert (FA : find_label k (flatten_forks w) = FAbsent).
  2:{ rewrite FA in G. destruct (lookup_label k w); simpl; auto; discriminate. }
  unfold find_label. rewrite first_child_none.
  2:{ rewrite E1, !entry_labels_app, (entry_labels_pr P1 A1), (entry_labels_pr P2 B1), app_nil_r. exact N. }
  destruct (adjacent k (flatten_forks w)) eqn:AD; [reflexivity|].
  assert (CA' : P1 = [] \/ exists x, In x (entry_labels M) /\ blt x k) by (destruct CA; auto).
  assert (CB' : P2 = [] \/ exists x, In x (entry_labels M) /\ blt k x) by (destruct CB; auto).
  clear CA CB X1 Y1.
  destruct CA' as [->|CA].
  - destruct M as [|m M].
    + destruct CB' as [->|(x & [] & _)]. rewrite E1. reflexivity.
    + inversion L1 as [|? ? Lm L2]; subst. destruct m as [ | | y s | | ]; simpl in Lm; try contradiction.
      rewrite E1. cbn [app]. unfold gt_entry at 1.
      destruct (bcmp_spec k y) as [C|C|C].
      * exfalso. apply N. simpl; auto.
      * reflexivity.
      * destruct CB' as [->|CB].
        -- rewrite app_nil_r. rewrite app_nil_r in E1.
           (* all labels below? last one *)
           destruct (exists_last (l := HLabeled y s :: M) ltac:(discriminate)) as (M' & e & Q).
           rewrite Q. rewrite rev_app_distr. cbn [rev app].
           assert (Le : is_lab e).
           { rewrite Forall_forall in L1. apply L1. rewrite Q. apply in_or_app; right; left; reflexivity. }
           destruct e as [ | | z s' | | ]; simpl in Le; try contradiction. unfold lt_entry.
           destruct (bcmp_spec z k) as [D|D|D]; [|reflexivity|].
           ++ exfalso. apply N. rewrite Q, entry_labels_app. apply in_or_app; right; left; exact D.
           ++ exfalso. rewrite E1 in AD. simpl app in AD.
              rewrite adjacent_lab in AD; try discriminate; auto.
              ** exists y. split; [simpl; auto|exact C].
              ** exists z. split; [rewrite Q, entry_labels_app; apply in_or_app; right; left; reflexivity|exact D].
        -- exfalso. rewrite E1, adjacent_mid in AD; [discriminate|].
           apply adjacent_lab; auto. exists y; split; [simpl; auto|exact C].
  - destruct CB' as [->|CB].
    + destruct (exists_last (l := M)) as (M' & e & Q); [intros ->; destruct CA as (? & [] & _)|].
      rewrite E1, app_nil_r. rewrite Q at 2. rewrite app_assoc, rev_app_distr. cbn [rev app].
      assert (Le : is_lab e).
      { rewrite Forall_forall in L1. apply L1. rewrite Q. apply in_or_app; right; left; reflexivity. }
      destruct e as [ | | z s' | | ]; simpl in Le; try contradiction. unfold lt_entry.
      destruct (bcmp_spec z k) as [D|D|D].
      * exfalso. apply N. rewrite Q, entry_labels_app. apply in_or_app; right; left; exact D.
      * destruct (match P1 ++ M with [] => false | e :: _ => gt_entry k e end); reflexivity.
      * exfalso. rewrite E1, app_nil_r in AD.
        rewrite <- (app_nil_r M), adjacent_mid in AD; [discriminate|].
        apply adjacent_lab; auto.
        exists z. split; [rewrite Q, entry_labels_app; apply in_or_app; right; left; reflexivity|exact D].
    + exfalso. rewrite E1, adjacent_mid in AD; [discriminate|]. apply adjacent_lab; auto.
Qed.
