(** C112-C114: how large witnesses are. *)
From Coq Require Import List Arith Lia NArith Bool Sorted FinFun.
From Verif Require Import Bytes Sha256 HashTree HashTreeSpec HashTreeProofs HashTreeSpecProofs RbTree RbSpec RbShape RbContent RbHash RbWitness RbBounds Props_RbTree Nested NestedSpec NestedProofs Props_Nested.
Import ListNotations.
Local Open Scope nat_scope.

(** the number of nodes of a hash tree *)
Fixpoint nodes (t : htree) : nat :=
  match t with HFork l r => S (nodes l + nodes r) | HLabeled _ s => S (nodes s) | _ => 1 end.
Lemma nodes_twf H l m r : nodes (three_way_fork H l m r) <= nodes l + nodes m + nodes r + 2.
Proof. destruct l, r, m; cbn [three_way_fork nodes]; lia. Qed.

Section Size.
  Variables (H : bytes -> bytes) (V : Type) (vhash : V -> bytes).
  Lemma nodes_child (t : rb V) : nodes (child_hash_tree V t) = 1.
  Proof. destruct t; reflexivity. Qed.
  Lemma build_nodes f key : forall t w, lookup_and_build_witness H V vhash f key t = Some w ->
    nodes w <= 5 * get_steps V key t + 1 + match get V key t with Some v => nodes (f v) | None => 0 end.
  Proof.
    induction t as [|c l IHl k v r IHr h]; intros w; [discriminate|]. cbn [lookup_and_build_witness get get_steps]. destruct (bcmp key k).
    - intro X. injection X as <-. assert (N := nodes_twf H (child_hash_tree V l) (HLabeled k (f v)) (child_hash_tree V r)). rewrite !nodes_child in N. cbn [nodes] in N. lia.
    - destruct (lookup_and_build_witness H V vhash f key l) as [s|]; cbn [obind]; [|discriminate]. intro X. injection X as <-. specialize (IHl s eq_refl).
      assert (N := nodes_twf H s (HPruned (data_hash H V vhash k v)) (child_hash_tree V r)). rewrite !nodes_child in N. cbn [nodes] in N. lia.
    - destruct (lookup_and_build_witness H V vhash f key r) as [s|]; cbn [obind]; [|discriminate]. intro X. injection X as <-. specialize (IHr s eq_refl).
      assert (N := nodes_twf H (child_hash_tree V l) (HPruned (data_hash H V vhash k v)) s). rewrite !nodes_child in N. cbn [nodes] in N. lia.
  Qed.
  Notation f := (witness_tree V vhash).
  Lemma nb_nodes (b : kbound) k v : nodes (match b with Exact _ => f k v | Neighbor _ => witness_tree V vhash k v end) = 2.
  Proof. destruct b; reflexivity. Qed.
  Lemma nb2_nodes (b b' : kbound) k v : nodes (match b, b' with Exact _, _ => f k v | _, Exact _ => f k v | _, _ => witness_tree V vhash k v end) = 2.
  Proof. destruct b, b'; reflexivity. Qed.
  (** the bounds enclose the key and no stored key lies strictly between them *)
  Lemma between_nodes lo hi key : blt (kb_key lo) key -> blt key (kb_key hi) ->
    forall t, bst V t -> (forall x, In x (keysof V t) -> ble x (kb_key lo) \/ ble (kb_key hi) x) ->
    nodes (witness_range_between H V vhash f lo hi t) <= 5 * get_steps V key t + 1.
  Proof.
    intros L U. induction t as [|c l IHl k v r IHr h]; intros S N; [cbn; lia|]. apply bst_node in S. destruct S as (Sl & Sr & Fl & Fr).
    assert (Nl : forall x, In x (keysof V l) -> ble x (kb_key lo) \/ ble (kb_key hi) x) by (intros x I; apply N, in_keysof_node; auto).
    assert (Nr : forall x, In x (keysof V r) -> ble x (kb_key lo) \/ ble (kb_key hi) x) by (intros x I; apply N, in_keysof_node; auto).
    specialize (IHl Sl Nl). specialize (IHr Sr Nr). cbn [witness_range_between get_steps].
    assert (NK : ble k (kb_key lo) \/ ble (kb_key hi) k) by (apply N, in_keysof_node; auto).
    destruct (bcmp_spec (kb_key lo) k) as [A|A|A], (bcmp_spec k (kb_key hi)) as [B|B|B].
    - exfalso. apply (blt_irrefl key). rewrite A, B in L. exact (blt_trans _ _ _ U L).
    - assert (X : bcmp key k = Gt). { destruct (bcmp_spec key k) as [Y|Y|Y]; [exfalso; rewrite A, Y in L; exact (blt_irrefl _ L)|exfalso; rewrite A in L; exact (blt_asym _ _ L Y)|reflexivity]. }
      rewrite X. assert (Q := nodes_twf H (child_hash_tree V l) (match lo with Exact _ => f k v | Neighbor _ => witness_tree V vhash k v end) (witness_range_between H V vhash f lo hi r)).
      rewrite nodes_child, nb_nodes in Q. lia.
    - exfalso. rewrite A in L. exact (blt_asym _ _ B (blt_trans _ _ _ L U)).
    - assert (X : bcmp key k = Lt). { destruct (bcmp_spec key k) as [Y|Y|Y]; [exfalso; rewrite Y, B in U; exact (blt_irrefl _ U)|reflexivity|exfalso; rewrite B in Y; exact (blt_asym _ _ U Y)]. }
      rewrite X. assert (Q := nodes_twf H (witness_range_between H V vhash f lo hi l) (match hi with Exact _ => f k v | Neighbor _ => witness_tree V vhash k v end) (child_hash_tree V r)).
      rewrite nodes_child, nb_nodes in Q. lia.
    - exfalso. destruct NK as [Z|Z]; [exact (ble_nblt _ _ Z A)|exact (ble_nblt _ _ Z B)].
    - assert (X : bcmp key k = Lt). { destruct (bcmp_spec key k) as [Y|Y|Y]; [exfalso; rewrite Y in U; exact (blt_asym _ _ U B)|reflexivity|exfalso; exact (blt_asym _ _ U (blt_trans _ _ _ B Y))]. }
      rewrite X. assert (Q := nodes_twf H (witness_range_between H V vhash f lo hi l) (HPruned (data_hash H V vhash k v)) (child_hash_tree V r)). rewrite nodes_child in Q. cbn [nodes] in Q. lia.
    - exfalso. rewrite B in A. exact (blt_asym _ _ A (blt_trans _ _ _ L U)).
    - assert (X : bcmp key k = Gt). { destruct (bcmp_spec key k) as [Y|Y|Y]; [exfalso; rewrite Y in L; exact (blt_asym _ _ L A)|exfalso; exact (blt_asym _ _ L (blt_trans _ _ _ Y A))|reflexivity]. }
      rewrite X. assert (Q := nodes_twf H (child_hash_tree V l) (HPruned (data_hash H V vhash k v)) (witness_range_between H V vhash f lo hi r)). rewrite nodes_child in Q. cbn [nodes] in Q. lia.
    - cbn [nodes]. lia.
  Qed.
  Lemma no_keys (t : rb V) : (forall x, ~ In x (keysof V t)) -> t = E.
  Proof. destruct t as [|c l k v r h]; [reflexivity|]. intro N. destruct (N k). apply in_keysof_node. auto. Qed.
  Lemma above_nodes lo key : blt (kb_key lo) key ->
    forall t, bst V t -> (forall x, In x (keysof V t) -> ble x (kb_key lo)) ->
    nodes (witness_range_above H V vhash f lo t) <= 5 * get_steps V key t + 1.
  Proof.
    intro L. induction t as [|c l IHl k v r IHr h]; intros S N; [cbn; lia|]. apply bst_node in S. destruct S as (Sl & Sr & Fl & Fr).
    assert (Nr : forall x, In x (keysof V r) -> ble x (kb_key lo)) by (intros x I; apply N, in_keysof_node; auto).
    specialize (IHr Sr Nr). cbn [witness_range_above get_steps]. assert (NK : ble k (kb_key lo)) by (apply N, in_keysof_node; auto).
    assert (X : bcmp key k = Gt). { destruct (bcmp_spec key k) as [Y|Y|Y]; [exfalso; rewrite Y in L; exact (ble_nblt _ _ NK L)|exfalso; exact (ble_nblt _ _ NK (blt_trans _ _ _ L Y))|reflexivity]. }
    rewrite X. destruct (bcmp_spec k (kb_key lo)) as [A|A|A].
    - assert (r = E). { apply no_keys. intros x I. exact (ble_nblt _ _ (Nr x I) (eq_ind k (fun z => blt z x) (Fr x I) _ A)). } subst r. cbn [full_witness_tree].
      assert (Q := nodes_twf H (child_hash_tree V l) (match lo with Exact _ => f k v | Neighbor _ => witness_tree V vhash k v end) HEmpty). rewrite nodes_child, nb_nodes in Q. cbn [nodes] in Q. lia.
    - assert (Q := nodes_twf H (child_hash_tree V l) (HPruned (data_hash H V vhash k v)) (witness_range_above H V vhash f lo r)). rewrite nodes_child in Q. cbn [nodes] in Q. lia.
    - destruct (ble_nblt _ _ NK A).
  Qed.
  Lemma below_nodes hi key : blt key (kb_key hi) ->
    forall t, bst V t -> (forall x, In x (keysof V t) -> ble (kb_key hi) x) ->
    nodes (witness_range_below H V vhash f hi t) <= 5 * get_steps V key t + 1.
  Proof.
    intro L. induction t as [|c l IHl k v r IHr h]; intros S N; [cbn; lia|]. apply bst_node in S. destruct S as (Sl & Sr & Fl & Fr).
    assert (Nl : forall x, In x (keysof V l) -> ble (kb_key hi) x) by (intros x I; apply N, in_keysof_node; auto).
    specialize (IHl Sl Nl). cbn [witness_range_below get_steps]. assert (NK : ble (kb_key hi) k) by (apply N, in_keysof_node; auto).
    assert (X : bcmp key k = Lt). { destruct (bcmp_spec key k) as [Y|Y|Y]; [exfalso; rewrite Y in L; exact (ble_nblt _ _ NK L)|reflexivity|exfalso; exact (ble_nblt _ _ NK (blt_trans _ _ _ Y L))]. }
    rewrite X. destruct (bcmp_spec k (kb_key hi)) as [A|A|A].
    - assert (l = E). { apply no_keys. intros x I. exact (ble_nblt _ _ (Nl x I) (eq_ind k (fun z => blt x z) (Fl x I) _ A)). } subst l. cbn [full_witness_tree].
      assert (Q := nodes_twf H HEmpty (match hi with Exact _ => f k v | Neighbor _ => witness_tree V vhash k v end) (child_hash_tree V r)). rewrite nodes_child, nb_nodes in Q. cbn [nodes] in Q. lia.
    - destruct (ble_nblt _ _ NK A).
    - assert (Q := nodes_twf H (witness_range_below H V vhash f hi l) (HPruned (data_hash H V vhash k v)) (child_hash_tree V r)). rewrite nodes_child in Q. cbn [nodes] in Q. lia.
  Qed.
  Lemma nested_nodes (vtree : V -> htree) g key t w : bst V t -> nested_witness H V vhash key g t = Some w ->
    nodes w <= 5 * get_steps V key t + 1 + match get V key t with Some v => nodes (g v) | None => 0 end.
  Proof.
    intros S. unfold nested_witness. destruct (lookup_and_build_witness H V vhash g key t) as [s|] eqn:B.
    - intro X. injection X as <-. apply build_nodes. exact B.
    - apply (build_none H V vhash vtree g key t S) in B. rewrite B. intro X.
      assert (NI : ~ In key (keysof V t)). { rewrite get_elems in B by exact S. rewrite aget_none in B. exact B. }
      assert (LB := lower_bound_spec V key t S). assert (UB := upper_bound_spec V key t S).
      destruct (lower_bound V key t) as [[lo|lo]|]; [destruct LB as [-> I]; contradiction| |]; (destruct (upper_bound V key t) as [[hi|hi]|]; [destruct UB as [-> I]; contradiction| |]); cbn [range_witness] in X.
      + destruct LB as (L & IL & NL), UB as (U & IU & NU). assert (w = witness_range_between H V vhash f (Neighbor lo) (Neighbor hi) t) by (destruct (bcmp (kb_key (Neighbor lo)) (kb_key (Neighbor hi))); congruence). subst w.
        assert (Q := between_nodes (Neighbor lo) (Neighbor hi) key L U t S). cbn [kb_key] in Q. rewrite Nat.add_0_r. apply Q.
        intros x I. destruct (NL x I) as [Y|Y]; [left; exact Y|right]. destruct (NU x I) as [Z|Z]; [exact Z|]. destruct (blt_asym _ _ Y Z).
      + injection X as <-. destruct LB as (L & IL & NL). assert (Q := above_nodes (Neighbor lo) key L t S). cbn [kb_key] in Q. rewrite Nat.add_0_r. apply Q.
        intros x I. destruct (NL x I) as [Y|Y]; [exact Y|]. destruct (blt_asym _ _ Y (UB x I)).
      + injection X as <-. destruct UB as (U & IU & NU). assert (Q := below_nodes (Neighbor hi) key U t S). cbn [kb_key] in Q. rewrite Nat.add_0_r. apply Q.
        intros x I. destruct (NU x I) as [Y|Y]; [exact Y|]. destruct (blt_asym _ _ Y (LB x I)).
      + injection X as <-. assert (t = E). { apply no_keys. intros x I. exact (blt_asym _ _ (LB x I) (UB x I)). } subst t. cbn. lia.
  Qed.
End Size.

(** C112: the witness for a key has logarithmically many nodes besides the value. *)
Theorem C112_witness_is_logarithmic :
  forall (H : bytes -> bytes) (V : Type) (vhash : V -> bytes) (vtree : V -> htree) (ops : list (op V)) (t : rb V) (stored : list bytes) (key : bytes) (w : htree),
  run H V vhash ops E = Some t ->
  (forall k, map_after V ops k <> None -> In k stored) ->
  witness H V vhash vtree key t = Some w ->
  exists height, 2 ^ height <= (length stored + 1) ^ 2 /\
  nodes w <= 5 * height + 1 + match map_after V ops key with Some v => nodes (vtree v) | None => 0 end.
Proof.
  intros H V vhash vtree ops t ks key w R D W. destruct (reach_good V H vhash ops t R) as [[S [n P]] G].
  exists (get_steps V key t). split.
  - assert (Q := get_steps_bound V n key t P). assert (L : size V t <= length ks).
    { rewrite size_elems, <- (map_length fst). apply NoDup_incl_length.
      - clear -S. unfold bst, sorted in S. induction (map fst (elems V t)) as [|a l IH]; constructor; inversion S; subst; auto.
        rewrite Forall_forall in H2. intro I. exact (blt_irrefl _ (H2 _ I)).
      - intros x I. apply D. rewrite <- G, get_elems by exact S. rewrite aget_none. tauto. }
    cbn [Nat.pow]. nia.
  - rewrite <- G. apply (nested_nodes H V vhash vtree vtree key t w S W).
Qed.
Print Assumptions C112_witness_is_logarithmic.
Example C112_ex : exists t w, run sha256 bytes (leaf_hash sha256) ex_ops E = Some t /\ witness sha256 bytes (leaf_hash sha256) HLeaf (bs "c") t = Some w /\ nodes w = 6 /\
  (exists w', witness sha256 bytes (leaf_hash sha256) HLeaf (bs "ca") t = Some w' /\ nodes w' = 7).
Proof. eexists. eexists. split; [vm_compute; reflexivity|]. split; [vm_compute; reflexivity|]. split; [reflexivity|]. eexists. split; [vm_compute; reflexivity|reflexivity]. Qed.

(** ** Nested trees *)
Section RbFlat.
  Context {V A : Type}.
  Variable f : bytes -> V -> list A.
  Fixpoint rb_flat (t : rb V) : list A := match t with E => [] | T _ l k v r _ => rb_flat l ++ f k v ++ rb_flat r end.
  Lemma rb_flat_elems t : rb_flat t = flat_map (fun e => f (fst e) (snd e)) (elems V t).
  Proof. induction t as [|c l IHl k v r IHr h]; [reflexivity|]. cbn [rb_flat elems]. rewrite flat_map_app, IHl, IHr. reflexivity. Qed.
End RbFlat.
(** the paths held by a tree *)
Fixpoint npaths (t : ntree) : list (list bytes) :=
  match t with NLeaf _ => [[]] | NNested tr => rb_flat (fun k c => map (cons k) (npaths c)) tr end.
Lemma npaths_nested tr : npaths (NNested tr) = flat_map (fun e => map (cons (fst e)) (npaths (snd e))) (elems ntree tr).
Proof. apply (rb_flat_elems (fun k c => map (cons k) (npaths c))). Qed.
Section NSize.
  Variable H : bytes -> bytes.
  Lemma in_npaths t : nok H t -> forall p, In p (npaths t) <-> nget p t <> None.
  Proof.
    induction t as [v|tr IH] using ntree_ind'; intros K p.
    - cbn. destruct p as [|k p]; cbn; split; try tauto; try (intros _ Z; discriminate Z). intros [Z|[]]. discriminate Z.
    - rewrite npaths_nested, in_flat_map. rewrite allv_in in IH. inversion K as [|? G Hk C]; subst. split.
      + intros ((k & c) & I & J). cbn [fst snd] in J. apply in_map_iff in J. destruct J as (q & <- & J). cbn [nget]. rewrite (in_get tr k c G I). apply (IH k c I (C k c I)). exact J.
      + destruct p as [|k p]; cbn [nget]; [congruence|]. destruct (get ntree k tr) as [c|] eqn:Gk; [|congruence]. intro X. assert (I := get_in tr k c G Gk). exists (k, c). split; [exact I|].
        cbn [fst snd]. apply in_map_iff. exists p. split; [reflexivity|]. apply (IH k c I (C k c I)). exact X.
  Qed.
  Lemma nodup_npaths t : nok H t -> NoDup (npaths t).
  Proof.
    induction t as [v|tr IH] using ntree_ind'; intros K; [cbn; constructor; [tauto|constructor]|].
    rewrite npaths_nested. rewrite allv_in in IH. inversion K as [|? G Hk C]; subst. destruct G as [S _].
    assert (IH' : forall k c, In (k, c) (elems ntree tr) -> NoDup (npaths c)) by (intros k c I; exact (IH k c I (C k c I))). clear IH C K Hk. unfold bst, sorted in S.
    induction (elems ntree tr) as [|[k c] l IHl]; [constructor|]. cbn [flat_map fst snd map] in *. inversion S as [|? ? S' F]; subst.
    assert (ND : NoDup (map (cons k) (npaths c))) by (apply Injective_map_NoDup; [intros x y Z; injection Z; auto|apply (IH' k c); left; reflexivity]).
    assert (NL := IHl S' (fun k' c' I => IH' k' c' (or_intror I))). clear IHl.
    assert (DJ : forall p, In p (map (cons k) (npaths c)) -> ~ In p (flat_map (fun e => map (cons (fst e)) (npaths (snd e))) l)).
    { intros p I J. apply in_map_iff in I. destruct I as (q & <- & _). apply in_flat_map in J. destruct J as ([k' c'] & J & M). cbn [fst snd] in M. apply in_map_iff in M. destruct M as (q' & Z & _). injection Z as -> _.
      rewrite Forall_forall in F. apply (blt_irrefl k). apply F. apply (in_map fst) in J. exact J. }
    revert ND DJ. generalize (map (cons k) (npaths c)). intros m ND DJ. induction m as [|x m IHm]; [exact NL|]. inversion ND; subst. cbn [app]. constructor.
    - intro Z. apply in_app_or in Z. destruct Z as [Z|Z]; [contradiction|]. exact (DJ x (or_introl eq_refl) Z).
    - apply IHm; [assumption|]. intros p I. apply DJ. right. exact I.
  Qed.
  Lemma npaths_some t : noempty t -> t <> ndefault -> 1 <= length (npaths t).
  Proof.
    induction t as [v|tr IH] using ntree_ind'; intros N D; [cbn; lia|]. rewrite npaths_nested. rewrite allv_in in IH. inversion N as [|? C]; subst.
    destruct (elems ntree tr) as [|[k c] l] eqn:Q; [destruct tr as [|c l k v r h]; [contradiction|exfalso; cbn in Q; destruct (elems ntree l); discriminate Q]|].
    cbn [flat_map fst snd]. rewrite app_length, map_length. destruct (C k c (or_introl eq_refl)) as [N' D']. assert (X := IH k c (or_introl eq_refl) N' D'). lia.
  Qed.
  Lemma size_npaths tr : noempty (NNested tr) -> size ntree tr <= length (npaths (NNested tr)).
  Proof.
    intro N. rewrite npaths_nested, size_elems. inversion N as [|? C]; subst. induction (elems ntree tr) as [|[k c] l IH]; [cbn; lia|].
    cbn [flat_map fst snd length]. rewrite app_length, map_length. destruct (C k c (or_introl eq_refl)) as [N' D']. assert (X := npaths_some c N' D'). assert (Y := IH (fun k' c' I => C k' c' (or_intror I))). lia.
  Qed.
  Lemma child_npaths tr k c : In (k, c) (elems ntree tr) -> length (npaths c) <= length (npaths (NNested tr)).
  Proof.
    rewrite npaths_nested. induction (elems ntree tr) as [|[k' c'] l IH]; [intros []|]. cbn [flat_map fst snd]. rewrite app_length, map_length. intros [Z|I]; [injection Z as -> ->; lia|]. specialize (IH I). lia.
  Qed.
  (** a tree shown in full *)
  Lemma full_nodes (f : ntree -> htree) tr :
    match tr with
    | E => True
    | _ => nodes (full_witness_tree H ntree (fun k c => HLabeled k (f c)) tr) + 1 <= list_sum (map (fun e => nodes (f (snd e)) + 2) (elems ntree tr))
    end.
  Proof.
    induction tr as [|c l IHl k v r IHr h]; [exact I|]. cbn [elems]. rewrite map_app, list_sum_app. cbn [map snd list_sum fold_right].
    change (fold_right Nat.add 0 (map (fun e => nodes (f (snd e)) + 2) (elems ntree r))) with (list_sum (map (fun e => nodes (f (snd e)) + 2) (elems ntree r))).
    cbn [full_witness_tree]. set (L := full_witness_tree H ntree (fun k c => HLabeled k (f c)) l) in *. set (R := full_witness_tree H ntree (fun k c => HLabeled k (f c)) r) in *.
    assert (EL : l = E -> L = HEmpty) by (intros ->; reflexivity). assert (ER : r = E -> R = HEmpty) by (intros ->; reflexivity).
    assert (X : nodes (three_way_fork H L (HLabeled k (f v)) R) <= nodes (f v) + 1 + match l with E => 0 | _ => nodes L + 1 end + match r with E => 0 | _ => nodes R + 1 end).
    { assert (Q := nodes_twf H L (HLabeled k (f v)) R). cbn [nodes] in Q. destruct l, r.
      - rewrite EL, ER by reflexivity. cbn. lia.
      - rewrite EL by reflexivity. destruct R; cbn [three_way_fork nodes]; lia.
      - rewrite ER by reflexivity. destruct L; cbn [three_way_fork nodes]; lia.
      - lia. }
    destruct l; [cbn [elems map list_sum fold_right] in *|]; (destruct r; [cbn [elems map list_sum fold_right] in *|]); lia.
  Qed.
  Lemma shown_nodes t : nok H t -> noempty t -> t <> ndefault -> forall D, (forall p, In p (npaths t) -> length p <= D) ->
    nodes (nhtree H t) <= (2 * D + 1) * length (npaths t).
  Proof.
    induction t as [v|tr IH] using ntree_ind'; intros K N ND D B; [cbn; lia|]. rewrite allv_in in IH. inversion K as [|? G Hk C]; subst. inversion N as [|? NC]; subst.
    assert (F := full_nodes (nhtree H) tr). assert (TE : tr <> E) by (intros ->; apply ND; reflexivity).
    assert (F' : nodes (nhtree H (NNested tr)) + 1 <= list_sum (map (fun e => nodes (nhtree H (snd e)) + 2) (elems ntree tr))) by (destruct tr; [contradiction|exact F]). clear F.
    rewrite npaths_nested in B |- *.
    assert (X : list_sum (map (fun e => nodes (nhtree H (snd e)) + 2) (elems ntree tr)) <= (2 * D + 1) * length (flat_map (fun e => map (cons (fst e)) (npaths (snd e))) (elems ntree tr))); [|lia].
    clear F' TE ND G Hk K N. revert IH C NC B. generalize (elems ntree tr). intro l. induction l as [|[k c] l IHl]; intros IH C NC B; [cbn; lia|].
    cbn [map list_sum fold_right flat_map fst snd]. change (fold_right Nat.add 0 (map (fun e => nodes (nhtree H (snd e)) + 2) l)) with (list_sum (map (fun e => nodes (nhtree H (snd e)) + 2) l)).
    rewrite app_length, map_length.
    assert (Y := IHl (fun k' c' I => IH k' c' (or_intror I)) (fun k' c' I => C k' c' (or_intror I)) (fun k' c' I => NC k' c' (or_intror I)) (fun p I => B p (in_or_app _ _ _ (or_intror I)))).
    destruct (NC k c (or_introl eq_refl)) as [N' D'].
    assert (BC : forall p, In p (npaths c) -> S (length p) <= D).
    { intros p I. apply (B (k :: p)). apply in_or_app. left. cbn [fst snd]. apply in_map. exact I. }
    assert (DP : 1 <= D). { assert (P := npaths_some c N' D'). destruct (npaths c) as [|p q]; [cbn in P; lia|]. assert (Z := BC p (or_introl eq_refl)). lia. }
    assert (Z := IH k c (or_introl eq_refl) (C k c (or_introl eq_refl)) N' D' (D - 1) ltac:(intros p I; assert (Q := BC p I); lia)). assert (P := npaths_some c N' D').
    nia.
  Qed.
  Lemma nwitness_nodes p : forall t w N D below, nok H t -> noempty t -> nwitness H p t = Some w -> length (npaths t) <= N ->
    (forall r, nget (p ++ r) t <> None -> In r below /\ length r <= D) ->
    exists h, 2 ^ h <= (N + 1) ^ 2 /\ nodes w <= length p * (5 * h + 2) + 1 + (2 * D + 1) * length below.
  Proof.
    induction p as [|key p IH]; intros t w N D below K NE W L B.
    - cbn [nwitness] in W. injection W as <-. exists 0. split; [cbn; lia|]. cbn [app] in B. cbn [length].
      assert (X : t = ndefault \/ t <> ndefault) by (destruct t as [v|[|c l k v r h]]; [right; discriminate|left; reflexivity|right; discriminate]). destruct X as [->|ND]; [cbn; lia|].
      assert (Y := shown_nodes t K NE ND D). rewrite Nat.mul_0_l. cbn [Nat.add].
      assert (Z : length (npaths t) <= length below) by (apply NoDup_incl_length; [apply nodup_npaths; exact K|]; intros r I; apply B, (in_npaths t K); exact I).
      assert (Q : nodes (nhtree H t) <= (2 * D + 1) * length (npaths t)) by (apply Y; intros r I; apply (B r), (in_npaths t K); exact I). nia.
    - destruct t as [v|tr]; [cbn [nwitness] in W; injection W as <-; exists 0; split; [cbn; lia|]; cbn [nodes length]; lia|].
      cbn [nwitness] in W. inversion K as [|? G Hk C]; subst. assert (S := proj1 G).
      assert (HB : 2 ^ get_steps ntree key tr <= (N + 1) ^ 2).
      { destruct G as [_ [n P]]. assert (Q := get_steps_bound ntree n key tr P). assert (SZ := size_npaths tr NE). cbn [Nat.pow]. nia. }
      destruct (get ntree key tr) as [c|] eqn:Gk.
      + destruct (nwitness H p c) as [w0|] eqn:W0; cbn [obind] in W; [|discriminate W]. assert (I := get_in tr key c G Gk).
        destruct (noempty_get tr key c G NE Gk) as [NC _].
        destruct (IH c w0 N D below (C key c I) NC W0) as (h & Hh & Hn).
        { assert (Q := child_npaths tr key c I). lia. }
        { intros r X. apply B. cbn [app nget]. rewrite Gk. exact X. }
        assert (Q := nested_nodes H ntree (nhash H) (nhtree H) _ key tr w S W). cbv beta in Q. rewrite Gk in Q.
        exists (Nat.max h (get_steps ntree key tr)). split; [destruct (Nat.max_spec h (get_steps ntree key tr)) as [[_ ->]|[_ ->]]; assumption|].
        cbn [length]. assert (M1 := Nat.le_max_l h (get_steps ntree key tr)). assert (M2 := Nat.le_max_r h (get_steps ntree key tr)). nia.
      + assert (Q := nested_nodes H ntree (nhash H) (nhtree H) _ key tr w S W). rewrite Gk in Q. exists (get_steps ntree key tr). split; [exact HB|]. cbn [length]. nia.
  Qed.
End NSize.

(** C113: the witness for a path has logarithmically many nodes for each label of the path, and a few for each path shown. *)
Theorem C113_nested_witness_is_logarithmic :
  forall (H : bytes -> bytes) (ops : list nop) (t : ntree) (p : path) (w : htree) (stored below : list path) (depth : nat),
  nrun H ops ndefault = Some t -> nwitness H p t = Some w ->
  (* all paths held *)
  (forall q v, holds ops q v -> In q stored) ->
  (* what is held at or below the path asked for *)
  (forall r v, holds ops (p ++ r) v -> In r below /\ length r <= depth) ->
  exists height, 2 ^ height <= (length stored + 1) ^ 2 /\
  nodes w <= length p * (5 * height + 2) + 1 + (2 * depth + 1) * length below.
Proof.
  intros H ops t p w stored below D R W ST BE. destruct (nrun_ok H ops) as (t' & R' & K & N & Q). assert (t' = t) by congruence. subst t'.
  apply (nwitness_nodes H p t w (length stored) D below K N W).
  - apply NoDup_incl_length; [apply (nodup_npaths H); exact K|]. intros q I. apply (in_npaths H t K) in I. destruct (nget q t) as [v|] eqn:G; [|congruence]. apply Q in G. exact (ST q v G).
  - intros r X. destruct (nget (p ++ r) t) as [v|] eqn:G; [|congruence]. apply Q in G. exact (BE r v G).
Qed.
Print Assumptions C113_nested_witness_is_logarithmic.
Theorem C113_merge_adds_nothing :
  forall a b m, merge a b = Some m -> nodes m <= nodes a + nodes b.
Proof.
  induction a as [|l1 IH1 l2 IH2|x l IH|v|h]; intros b m E; destruct b as [|r1 r2|y r|u|g]; cbn [merge] in E; try (injection E as <-; cbn [nodes]; lia); try discriminate E.
  - destruct (merge l1 r1) as [a|] eqn:A; cbn [obind] in E; [|discriminate E]. destruct (merge l2 r2) as [b|] eqn:B; cbn [obind] in E; [|discriminate E]. injection E as <-.
    specialize (IH1 _ _ A). specialize (IH2 _ _ B). cbn [nodes]. lia.
  - destruct (bytes_eqb x y); [|discriminate E]. destruct (merge l r) as [a|] eqn:A; cbn [obind] in E; [|discriminate E]. injection E as <-. specialize (IH _ _ A). cbn [nodes]. lia.
  - destruct (bytes_eqb v u); [|discriminate E]. injection E as <-. cbn [nodes]. lia.
  - destruct (bytes_eqb h g); [|discriminate E]. injection E as <-. cbn [nodes]. lia.
Qed.
Print Assumptions C113_merge_adds_nothing.
(** the tree of C16's example holds two paths, of the five its history wrote *)
Example C113_hypotheses : exists t w, nrun sha256 exn_ops ndefault = Some t /\ nwitness sha256 [bs "a"] t = Some w /\
  (forall q v, holds exn_ops q v -> In q [[bs "a"; bs "c"]; [bs "d"; bs "e"]]) /\
  (forall r v, holds exn_ops ([bs "a"] ++ r) v -> In r [[bs "c"]] /\ length r <= 1) /\ nodes w = 5.
Proof.
  destruct (nrun_ok sha256 exn_ops) as (t & R & K & _ & Q).
  assert (S : forall q v, holds exn_ops q v -> In q [[bs "a"; bs "c"]; [bs "d"; bs "e"]]).
  { intros q v X. apply Q in X. assert (I : In q (npaths t)) by (apply (in_npaths sha256 t K); rewrite X; discriminate).
    assert (P : option_map npaths (nrun sha256 exn_ops ndefault) = Some [[bs "a"; bs "c"]; [bs "d"; bs "e"]]) by (vm_compute; reflexivity).
    rewrite R in P. cbn [option_map] in P. injection P as P. rewrite P in I. exact I. }
  assert (W : option_map (fun t => option_map nodes (nwitness sha256 [bs "a"] t)) (nrun sha256 exn_ops ndefault) = Some (Some 5)) by (vm_compute; reflexivity).
  rewrite R in W. cbn [option_map] in W. destruct (nwitness sha256 [bs "a"] t) as [w|] eqn:E; [|discriminate W]. injection W as W.
  exists t, w. split; [exact R|]. split; [exact E|]. split; [exact S|]. split; [|exact W].
  intros r v X. destruct (S _ _ X) as [Y|[Y|[]]]; cbn [app] in Y; [injection Y as <-; split; [left; reflexivity|cbn; lia]|]. injection Y as Y. discriminate Y.
Qed.
