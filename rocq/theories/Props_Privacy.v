(** C152: a proof discloses only what was asked for. *)
From Coq Require Import List Arith NArith Lia Bool.
From Verif Require Import Bytes Toy HashTree HashTreeSpec HashTreeProofs HashTreeSpecProofs RbTree RbSpec RbContent RbHash RbWitness RbBounds Nested NestedSpec NestedProofs Props_Nested
  Cbor HttpTypes HttpHash Cel Wildcard WildcardSpec V2 Props_Wildcard Verify VerifySpec Props_Verify HttpTree HttpTreeSpec Props_HttpTree AssetSpec.
Import ListNotations.

(** ** Specification *)
(** Under the label path [q ++ [k]] the proof [w] shows something: only [HPruned h], a hash, if that
    is not on the way to, at, or below a path asked for; and then [k] is the label next to a missing label [x]
    where a path asked for ended. [used]: something is stored at or below a path. *)
Definition next_to (used : path -> Prop) (q : path) (k x : bytes) : Prop :=
  used (q ++ [k]) /\ ~ used (q ++ [x]) /\
  forall y, used (q ++ [y]) -> ~ (blt k y /\ blt y x) /\ ~ (blt x y /\ blt y k).
Definition discloses_only (asked used : path -> Prop) (w : htree) : Prop :=
  forall q k c, at_path (q ++ [k]) w c ->
    (exists a, asked a /\ overlapping (q ++ [k]) a) \/
    exists h x r, c = HPruned h /\ asked (q ++ x :: r) /\ next_to used q k x.

(** ** One witness *)
Lemma at_path_inv q k t c : at_path (k :: q) t c -> exists d, child_at k t d /\ at_path q d c.
Proof. intro A. inversion A; subst. eauto. Qed.
Lemma overlapping_cons k p q : overlapping p q -> overlapping (k :: p) (k :: q).
Proof. intros [[r ->]|[r ->]]; [left|right]; exists r; reflexivity. Qed.
Section One.
  Variable H : bytes -> bytes.
  Notation get := (get ntree).
  Notation nok := (nok H).
  Notation nwitness := (nwitness H).
  Definition used_in (t : ntree) (p : path) : Prop := contains_path p t = true.
  Lemma get_keysof k (tr : rb ntree) c : bst ntree tr -> get k tr = Some c -> In k (keysof ntree tr).
  Proof. intros S G. rewrite get_elems in G by exact S. apply aget_in in G. apply in_map_iff. exists (k, c). auto. Qed.
  (** the labels shown beside a missing one *)
  Lemma shown_next key (tr : rb ntree) w k c : bst ntree tr -> get key tr = None ->
    range_witness H ntree (nhash H) (witness_tree ntree (nhash H)) (lower_bound ntree key tr) (upper_bound ntree key tr) tr = Some w -> child_at k w c ->
    (exists h, c = HPruned h) /\ get k tr <> None /\
    forall y, get y tr <> None -> ~ (blt k y /\ blt y key) /\ ~ (blt key y /\ blt y k).
  Proof.
    intros S G R C.
    assert (R2 : forall k v, witness_tree ntree (nhash H) k v = HLabeled k (HPruned (nhash H v))) by reflexivity.
    destruct (shown_only H ntree (nhash H) (nhtree H) (fun _ v => HPruned (nhash H v)) _ R2 _ _ _ _ _ _ S R C) as (v & Gk & X).
    assert (Ik := get_keysof k tr v S Gk). assert (NK : ~ In key (keysof ntree tr)) by (apply not_key; assumption).
    split; [destruct X as [[_ ->]|(_ & _ & -> & _)]; eauto|]. split; [congruence|]. intros y Gy.
    assert (Iy : In y (keysof ntree tr)). { destruct (get y tr) as [d|] eqn:E; [|congruence]. exact (get_keysof y tr d S E). }
    assert (L := lower_bound_spec ntree key tr S). assert (U := upper_bound_spec ntree key tr S).
    destruct X as [[[E|E] _]|(I1 & I2 & _ & N1 & N2)].
    - rewrite E in L. destruct L as (L0 & _ & L'). split; intros [A B].
      + destruct (L' y Iy) as [Q|Q]; [exact (ble_nblt _ _ Q A)|exact (blt_asym _ _ Q B)].
      + exact (blt_asym _ _ L0 (blt_trans _ _ _ A B)).
    - rewrite E in U. destruct U as (L0 & _ & L'). split; intros [A B].
      + exact (blt_asym _ _ L0 (blt_trans _ _ _ A B)).
      + destruct (L' y Iy) as [Q|Q]; [exact (ble_nblt _ _ Q B)|exact (blt_asym _ _ Q A)].
    - exfalso. destruct (lower_bound ntree key tr) as [[l|l]|]; [destruct L as [-> LL]; contradiction| |];
      (destruct (upper_bound ntree key tr) as [[u|u]|]; [destruct U as [-> UU]; contradiction| |]).
      all: cbn [in_lo in_hi] in I1, I2; unfold ge_lo, le_hi in *; cbn [kb_key] in *.
      all: assert (NL : forall z, z = k -> Some (Neighbor k) = Some (Neighbor z)) by (intros ? ->; reflexivity).
      + assert (A : blt key k).
        { destruct L as (_ & _ & LL). destruct (LL k Ik) as [Q|Q]; [|exact Q]. exfalso. assert (k = l); [|subst; destruct N1 as [N1|N1]; congruence].
          unfold ble in Q. destruct (bcmp_spec k l) as [Z|Z|Z]; [exact Z|discriminate I1|congruence]. }
        assert (B : blt k key).
        { destruct U as (_ & _ & UU). destruct (UU k Ik) as [Q|Q]; [|exact Q]. exfalso. assert (k = u); [|subst; destruct N2 as [N2|N2]; congruence].
          destruct (bcmp_spec k u) as [Z|Z|Z]; [exact Z|exfalso; exact (ble_nblt _ _ Q Z)|discriminate I2]. }
        exact (blt_asym _ _ A B).
      + assert (B := U k Ik). assert (A : blt key k).
        { destruct L as (_ & _ & LL). destruct (LL k Ik) as [Q|Q]; [|exact Q]. exfalso. assert (k = l); [|subst; destruct N1 as [N1|N1]; congruence].
          unfold ble in Q. destruct (bcmp_spec k l) as [Z|Z|Z]; [exact Z|discriminate I1|congruence]. }
        exact (blt_asym _ _ A B).
      + assert (A := L k Ik). assert (B : blt k key).
        { destruct U as (_ & _ & UU). destruct (UU k Ik) as [Q|Q]; [|exact Q]. exfalso. assert (k = u); [|subst; destruct N2 as [N2|N2]; congruence].
          destruct (bcmp_spec k u) as [Z|Z|Z]; [exact Z|exfalso; exact (ble_nblt _ _ Q Z)|discriminate I2]. }
        exact (blt_asym _ _ A B).
      + exact (blt_asym _ _ (L k Ik) (U k Ik)).
  Qed.
  Lemma used_cons k q tr c : get k tr = Some c -> used_in (NNested tr) (k :: q) <-> used_in c q.
  Proof. intro G. unfold used_in. cbn [contains_path]. rewrite G. tauto. Qed.
  Lemma used_one k tr : used_in (NNested tr) [k] <-> get k tr <> None.
  Proof. unfold used_in. cbn [contains_path]. destruct (get k tr); split; congruence. Qed.
  Lemma nwitness_only p : forall t w, nok t -> nwitness p t = Some w -> discloses_only (eq p) (used_in t) w.
  Proof.
    induction p as [|key rest IH]; intros t w K E q k c A.
    { left. exists []. split; [reflexivity|]. right. eexists. reflexivity. }
    destruct t as [v|tr].
    { injection E as <-. destruct q as [|k0 q]; apply at_path_inv in A; destruct A as (d & A & _); inversion A. }
    assert (TO := nok_tree_ok H tr K). cbn [Nested.nwitness] in E. destruct (get key tr) as [d|] eqn:G.
    - destruct (nwitness_ok H rest d (nok_get H _ _ _ K G)) as (w0 & E1 & P1 & _). rewrite E1 in E. cbn [obind] in E.
      destruct (nested_witness_ok H ntree (nhash H) (nhtree H) (fun _ => w0) key tr TO) as (w' & E2 & _ & W2 & L2).
      { intros c0 G0. rewrite G in G0. injection G0 as <-. exact P1. }
      rewrite G in L2. destruct L2 as [L2 L3]. assert (w' = w) by congruence. subst w'.
      destruct q as [|k0 q]; cbn [app] in *; apply at_path_inv in A; destruct A as (d' & A & B).
      + apply L3 in A. subst k. left. exists (key :: rest). split; [reflexivity|]. left. exists rest. reflexivity.
      + assert (k0 = key) by exact (L3 _ _ A). subst k0. apply (lookup_label_child_iff key w d' W2) in A. rewrite L2 in A. injection A as <-.
        destruct (IH d w0 (nok_get H _ _ _ K G) E1 q k c B) as [(a & <- & O)|(h & x & r & -> & -> & N1 & N2 & N3)].
        * left. exists (key :: rest). split; [reflexivity|]. apply overlapping_cons. exact O.
        * right. exists h, x, r. split; [reflexivity|]. split; [reflexivity|]. split; [apply (used_cons _ _ _ _ G); exact N1|].
          split; [intro Z; apply N2; apply (used_cons _ _ _ _ G) in Z; exact Z|]. intros y Z. apply N3. apply (used_cons _ _ _ _ G) in Z. exact Z.
    - destruct TO as (S & _). unfold nested_witness in E. rewrite (proj2 (build_none H ntree (nhash H) (nhtree H) _ key tr S) G) in E.
      destruct q as [|k0 q]; cbn [app] in *; apply at_path_inv in A; destruct A as (d' & A & B); destruct (shown_next key tr w _ _ S G E A) as ((h & ->) & U & N).
      + inversion B; subst. right. exists h, key, rest. split; [reflexivity|]. split; [reflexivity|]. split; [apply used_one; exact U|].
        split; [intro Z; apply used_one in Z; congruence|]. intros y Z. apply N. apply used_one. exact Z.
      + exfalso. destruct q as [|k1 q]; apply at_path_inv in B; destruct B as (e & B & _); inversion B.
  Qed.
End One.

(** ** Merging *)
Lemma merge_child a : forall b m k c, merge a b = Some m -> child_at k m c ->
  child_at k a c \/ child_at k b c \/ exists ca cb, child_at k a ca /\ child_at k b cb /\ merge ca cb = Some c.
Proof.
  induction a as [|l IHl r IHr|l t IH|v|h]; intros [|l' r'|l' t'|v'|h'] m k c E C; cbn [merge] in E; try discriminate E.
  all: try (injection E as <-; tauto).
  - destruct (merge l l') as [x|] eqn:E1; [|discriminate]. cbn [obind] in E. destruct (merge r r') as [y|] eqn:E2; [|discriminate]. cbn [obind] in E. injection E as <-.
    inversion C as [|? ? ? ? C'|? ? ? ? C']; subst.
    + destruct (IHl _ _ _ _ E1 C') as [Z|[Z|(ca & cb & Z1 & Z2 & Z3)]]; [left; constructor; exact Z|right; left; constructor; exact Z|]. right; right. exists ca, cb. repeat split; try constructor; assumption.
    + destruct (IHr _ _ _ _ E2 C') as [Z|[Z|(ca & cb & Z1 & Z2 & Z3)]]; [left; apply ChRight; exact Z|right; left; apply ChRight; exact Z|]. right; right. exists ca, cb. split; [apply ChRight; exact Z1|]. split; [apply ChRight; exact Z2|exact Z3].
  - destruct (bytes_eqb_spec l l') as [<-|]; [|discriminate]. destruct (merge t t') as [x|] eqn:E1; [|discriminate]. cbn [obind] in E. injection E as <-.
    inversion C; subst. right; right. exists t, t'. split; [constructor|]. split; [constructor|exact E1].
  - destruct (bytes_eqb v v'); [|discriminate]. injection E as <-. left. exact C.
  - destruct (bytes_eqb h h'); [|discriminate]. injection E as <-. left. exact C.
Qed.
Lemma merge_at p : forall a b m c, merge a b = Some m -> at_path p m c ->
  at_path p a c \/ at_path p b c \/ exists ca cb, at_path p a ca /\ at_path p b cb /\ merge ca cb = Some c.
Proof.
  induction p as [|k p IH]; intros a b m c E A.
  - inversion A; subst. right; right. exists a, b. split; [constructor|]. split; [constructor|exact E].
  - apply at_path_inv in A. destruct A as (d & C & A). destruct (merge_child a b m k d E C) as [Z|[Z|(ca & cb & Z1 & Z2 & Z3)]].
    + left. econstructor; eassumption.
    + right; left. econstructor; eassumption.
    + destruct (IH ca cb d c Z3 A) as [Y|[Y|(da & db & Y1 & Y2 & Y3)]].
      * left. econstructor; eassumption.
      * right; left. econstructor; eassumption.
      * right; right. exists da, db. split; [econstructor; eassumption|]. split; [econstructor; eassumption|exact Y3].
Qed.
Lemma merge_pruned ca cb c h h' : ca = HPruned h -> cb = HPruned h' -> merge ca cb = Some c -> c = HPruned h.
Proof. intros -> -> E. cbn [merge] in E. destruct (bytes_eqb h h'); [|discriminate]. congruence. Qed.
Lemma merge_only asked used a b m : merge a b = Some m -> discloses_only asked used a -> discloses_only asked used b -> discloses_only asked used m.
Proof.
  intros E A B q k c P. destruct (merge_at _ _ _ _ _ E P) as [Z|[Z|(ca & cb & Z1 & Z2 & Z3)]]; [exact (A q k c Z)|exact (B q k c Z)|].
  destruct (A q k ca Z1) as [L|(h & x & r & P1 & P2 & P3)]; [left; exact L|]. destruct (B q k cb Z2) as [L|(h' & _ & _ & P1' & _)]; [left; exact L|].
  right. exists h, x, r. split; [eapply merge_pruned; eassumption|]. split; assumption.
Qed.
Lemma only_weak (a a' u u' : path -> Prop) w : (forall p, a p -> a' p) -> (forall p, p <> [] -> (u p <-> u' p)) -> discloses_only a u w -> discloses_only a' u' w.
Proof.
  intros A U D q k c P. assert (NN : forall z : bytes, q ++ [z] <> []) by (intros z Z; destruct q; discriminate Z).
  destruct (D q k c P) as [(p & I & O)|(h & x & r & -> & I & N1 & N2 & N3)]; [left; exists p; auto|]. right. exists h, x, r. split; [reflexivity|]. split; [auto|].
  split; [apply U; auto|]. split; [intro Z; apply N2; apply U; auto|]. intros y Z. apply N3. apply U; auto.
Qed.

(** ** C152 *)
(** A proof of a path in a nested tree shows the way to the path, what is below it, and, if it is missing, the labels next
    to where it ends; everything else is a hash. *)
Theorem C152_nested_proof_discloses_only_the_path :
  forall (H : bytes -> bytes) (ops : list nop) (t : ntree) (p : path) (w : htree),
  nrun H ops ndefault = Some t -> nwitness H p t = Some w ->
  discloses_only (eq p) (fun q => exists r v, holds ops (q ++ r) v) w.
Proof.
  intros H ops t p w R E. destruct (nrun_ok H ops) as (t' & R' & K & NE & Q). assert (t' = t) by congruence. subst t'.
  refine (only_weak (eq p) (eq p) (used_in t) _ w (fun _ X => X) _ (nwitness_only H p t w K E)).
  intros q N. split.
  - intro U. destruct (contains_path_leaf H q t K NE U N) as (r & v & G). exists r, v. apply Q. exact G.
  - intros (r & v & X). apply Q in X. exact (proj1 (nget_app q r t v X)).
Qed.
Print Assumptions C152_nested_proof_discloses_only_the_path.

(** What the proof in a response is asked for: the entry's own path; or, for a wildcard, the path requested, the wildcard, and the
    more specific ones that match the request. *)
Inductive asked (en : entry) (url : bytes) : path -> Prop :=
| AskedExact p : en_path en = PExact p -> asked en url (entry_tree_path en)
| AskedPath p : en_path en = PWildcard p -> asked en url (request_parts url ++ [bs "<$>"])
| AskedWildcard p : en_path en = PWildcard p -> asked en url (request_parts p ++ [bs "<*>"])
| AskedMore p u : en_path en = PWildcard p -> matches u (request_parts url) -> more_specific u (request_parts p) -> asked en url (u ++ [bs "<*>"]).
Lemma merge_all_only H t asked used : nok H t -> forall l acc m, merge_all H t acc l = OOk m ->
  (forall p w, In p l -> nwitness H p t = Some w -> discloses_only asked used w) -> discloses_only asked used acc -> discloses_only asked used m.
Proof.
  intros K l. induction l as [|p l IH]; intros acc m E F A; cbn [merge_all] in E; [injection E as <-; exact A|].
  destruct (nwitness H p t) as [w|] eqn:W; [|discriminate]. destruct (merge acc w) as [x|] eqn:M; [|discriminate].
  apply (IH _ _ E); [intros p' w' I; apply F; right; exact I|]. eapply merge_only; [exact M|exact A|]. eapply F; [left; reflexivity|exact W].
Qed.
Theorem C152_http_proof_discloses_only_the_request :
  forall (H : bytes -> bytes) (ops : list http_op) (t : ntree) (en : entry) (request_url : bytes) (w : htree),
  http_run H ops = Some t -> http_witness H t en request_url = OOk w ->
  unreserved (en_path en) request_url -> (forall p, en_path en = PWildcard p -> matches (request_parts p) (request_parts request_url)) ->
  exists m, w = HLabeled (bs "http_expr") m /\ discloses_only (asked en request_url) (occupied ops) m.
Proof.
  intros H ops t en url w R E UR M. destruct (http_run_ok H ops) as (t' & R' & K & NE & Q). assert (t' = t) by congruence. subst t'.
  assert (U : forall p, p <> [] -> (used_in t p <-> occupied ops p)).
  { intros q N. split.
    - intro X. destruct (contains_path_leaf H q t K NE X N) as (r & v & G). exists r, v. apply Q. exact G.
    - intros (r & v & X). apply Q in X. exact (proj1 (nget_app q r t v X)). }
  assert (ONE : forall p x, asked en url p -> nwitness H p t = Some x -> discloses_only (asked en url) (occupied ops) x).
  { intros p x A X. refine (only_weak (eq p) _ (used_in t) _ x _ U (nwitness_only H p t x K X)). intros ? <-. exact A. }
  unfold http_witness in E. destruct (en_path en) as [p|p] eqn:EP.
  - destruct (nwitness H (entry_tree_path en) t) as [x|] eqn:X; [|discriminate]. cbn [out_bind] in E. injection E as <-. exists x. split; [reflexivity|].
    apply (ONE _ _ (AskedExact en url p EP) X).
  - unfold path_tree_path in E. rewrite !path_to_segments_parts in E. change exact_terminator with (bs "<$>") in E. change wildcard_terminator with (bs "<*>") in E.
    destruct (_ <? _); [discriminate E|]. destruct (nwitness H (request_parts url ++ [bs "<$>"]) t) as [w1|] eqn:E1; [|discriminate].
    destruct (nwitness H (request_parts p ++ [bs "<*>"]) t) as [w2|] eqn:E2; [|discriminate]. destruct (merge w1 w2) as [w0|] eqn:E0; [|discriminate].
    destruct UR as (OP & NP). destruct (C35_canister_side _ _ (parts_segments url OP) NP (M p eq_refl)) as (l & El & _ & I).
    rewrite El in E. destruct (merge_all H t w0 (map (fun q => q ++ [bs "<*>"]) l)) as [m| | |] eqn:EM; cbn [out_bind] in E; try discriminate E. injection E as <-.
    exists m. split; [reflexivity|]. apply (merge_all_only H t _ _ K _ _ _ EM).
    + intros p' x J X. apply in_map_iff in J. destruct J as (u & <- & J). apply I in J. destruct J as [J1 J2]. refine (ONE _ _ _ X). exact (AskedMore en url p u EP J1 J2).
    + eapply merge_only; [exact E0| |]; [apply (ONE _ _ (AskedPath en url p EP) E1)|apply (ONE _ _ (AskedWildcard en url p EP) E2)].
Qed.
Print Assumptions C152_http_proof_discloses_only_the_request.
(** Three entries and a fallback: asked for a path that is not there, the proof shows the fallback and the labels next to the
    missing one; the other entries are hashes. The whole tree would show more. *)
Definition pv_skip : certification := CSkip (bs "skip").
Definition pv_ops : list http_op :=
  map (fun p => HInsert (mk_entry (PExact p) pv_skip)) [bs "/a"; bs "/c"; bs "/e"; bs "/g"] ++ [HInsert (mk_entry (PWildcard (bs "/")) pv_skip)].
Definition pv_fallback : entry := mk_entry (PWildcard (bs "/")) pv_skip.
Example C152_hypotheses : unreserved (en_path pv_fallback) (bs "/d") /\ matches (request_parts (bs "/")) (request_parts (bs "/d")).
Proof.
  split; [split; [split|]; intros q E; cbn in E|right; exists [], (bs "d"), []; split; reflexivity].
  - destruct q as [|a [|b q]]; try discriminate E; destruct q; discriminate E.
  - destruct q as [|a [|b q]]; try discriminate E; destruct q; discriminate E.
  - discriminate E.
Qed.
Fixpoint shown_labels (p : path) (t : htree) : list path :=
  match t with
  | HFork l r => shown_labels p l ++ shown_labels p r
  | HLabeled k t => (p ++ [k]) :: shown_labels (p ++ [k]) t
  | _ => []
  end.
Example C152_ex :
  (do t <- http_run toy pv_ops; match http_witness toy t pv_fallback (bs "/d") with OOk w => Some (shown_labels [] w) | _ => None end) =
  Some ([[bs "http_expr"]; [bs "http_expr"; bs ""]; [bs "http_expr"; bs ""; bs "<*>"]; [bs "http_expr"; bs ""; bs "<*>"; bs "skip"];
                      [bs "http_expr"; bs "c"]; [bs "http_expr"; bs "e"]]).
Proof. vm_compute. reflexivity. Qed.
(** [discloses_only] fails for a proof that shows another entry *)
Example C152_ex_more : forall w, ~ discloses_only (asked pv_fallback (bs "/d")) (occupied pv_ops) (HFork w (HLabeled (bs "g") (HLeaf []))).
Proof.
  intros w D. destruct (D [] (bs "g") (HLeaf [])) as [(a & A & O)|(h & x & r & E & _)]; [econstructor; [apply ChRight; constructor|constructor]| |discriminate E].
  assert (F : exists k r, a = k :: r /\ k <> bs "g").
  { inversion A as [p E|p E|p E|p u E M N]; subst; [discriminate E| | |].
    - exists (bs "d"), [bs "<$>"]. split; [reflexivity|discriminate].
    - injection E as <-. exists [], [bs "<*>"]. split; [reflexivity|discriminate].
    - destruct M as [(s & M)|(p' & y & s & -> & M)]; cbn in M.
      + destruct u as [|k u]; [exists (bs "<*>"), []; split; [reflexivity|discriminate]|]. injection M as <- _. eexists _, _. split; [reflexivity|discriminate].
      + destruct p' as [|k p']; [exists [], [bs "<*>"]; split; [reflexivity|discriminate]|]. injection M as <- _. eexists _, _. split; [reflexivity|discriminate]. }
  destruct F as (k & r & -> & N). destruct O as [[s E]|[s E]]; cbn [app] in E; injection E as E _; congruence.
Qed.
