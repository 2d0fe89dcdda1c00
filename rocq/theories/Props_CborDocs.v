(** C118: which byte strings ic-cbor decodes to hash trees, certificates, ranges and strings. *)
From Coq Require Import List Arith NArith Lia Bool.
From Verif Require Import Bytes Utf8 HashTree Cbor CborSpec CborProofs Props_Cbor CborGrammar Props_CborGrammar CborDocs.
Import ListNotations.
Local Open Scope N_scope.

Lemma value_untagged i : item_value (untagged i) = item_value i.
Proof. induction i; cbn; auto. Qed.
Lemma untagged_untagged i : forall s a j, untagged i <> ITagged s a j.
Proof. induction i; cbn; intros; try discriminate; auto. Qed.
Lemma number_not a : (forall s, number_value a <> CBytes s) /\ (forall l, number_value a <> CArray l) /\ (forall l, number_value a <> CMap l).
Proof. assert (F := number_free a). destruct (number_value a) eqn:E; try (repeat split; intros; discriminate); exfalso; destruct a as [n|n|n|n|n]; cbn in E; try discriminate E;
  destruct n as [|[[p|p|]|[[p|p|]|[p|p|]|]|]]; discriminate E. Qed.
Lemma string_value s i : is_string s i <-> item_value i = CBytes s.
Proof.
  unfold is_string. rewrite <- value_untagged. assert (U := untagged_untagged i). destruct (untagged i) as [a|a|t a s'|a l|a l|b a j]; cbn [item_value].
  - split; [intros (t & b & Z); discriminate Z|]. intro Z. destruct (proj1 (number_not a) s Z).
  - split; [intros (t & b & Z)|intro Z]; discriminate Z.
  - split; [intros (t' & b & Z)|intro Z]; injection Z; intros; subst; eauto.
  - split; [intros (t & b & Z)|intro Z]; discriminate Z.
  - split; [intros (t & b & Z)|intro Z]; discriminate Z.
  - destruct (U b a j eq_refl).
Qed.
Lemma array_value vs i : item_value i = CArray vs <-> exists l, is_array l i /\ vs = map item_value l.
Proof.
  unfold is_array. rewrite <- value_untagged. assert (U := untagged_untagged i). destruct (untagged i) as [a|a|t a s'|a l|a l|b a j]; cbn [item_value].
  - split; [intro Z; destruct (proj1 (proj2 (number_not a)) vs Z)|intros (l & (b & Z) & _); discriminate Z].
  - split; [intro Z|intros (l & (b & Z) & _)]; discriminate Z.
  - split; [intro Z|intros (l & (b & Z) & _)]; discriminate Z.
  - split; [intro Z; injection Z as <-; eauto|intros (l' & (b & Z) & ->); injection Z as <- <-; reflexivity].
  - split; [intro Z|intros (l' & (b & Z) & _)]; discriminate Z.
  - destruct (U b a j eq_refl).
Qed.
Definition entries_value (l : list (item * item)) : list (bytes * cval) :=
  fold_left (fun m kv => match kv with (k, v) => match item_value k with CBytes s => map_set s (item_value v) m | _ => m end end) l [].
Lemma map_value m i : item_value i = CMap m <-> exists l, is_map l i /\ m = entries_value l.
Proof.
  unfold is_map. rewrite <- value_untagged. assert (U := untagged_untagged i). destruct (untagged i) as [a|a|t a s'|a l|a l|b a j]; cbn [item_value].
  - split; [intro Z; destruct (proj2 (proj2 (number_not a)) m Z)|intros (l & (b & Z) & _); discriminate Z].
  - split; [intro Z|intros (l & (b & Z) & _)]; discriminate Z.
  - split; [intro Z|intros (l & (b & Z) & _)]; discriminate Z.
  - split; [intro Z|intros (l' & (b & Z) & _)]; discriminate Z.
  - fold (entries_value l). split; [intro Z; injection Z as <-; eauto|intros (l' & (b & Z) & ->); injection Z as <- <-; reflexivity].
  - destruct (U b a j eq_refl).
Qed.
Definition tag_number (t : ctag) : N := match t with TEmpty => 0 | TFork => 1 | TLabelled => 2 | TLeaf => 3 | TPruned => 4 end.
Lemma small_value t i : is_small (tag_number t) i <-> item_value i = CTag t.
Proof.
  unfold is_small. rewrite <- value_untagged. assert (U := untagged_untagged i). destruct (untagged i) as [a|a|tt a s'|a l|a l|b a j]; cbn [item_value];
    try (split; [intros [Z|Z]|intro Z]; discriminate Z); [|destruct (U b a j eq_refl)].
  split; [intros [Z|Z]; injection Z as ->; destruct t; reflexivity|].
  intro Z. destruct a as [n|n|n|n|n]; cbn in Z; try discriminate Z;
  destruct n as [|[[p|p|]|[[p|p|]|[p|p|]|]|]]; try discriminate Z; injection Z as <-; auto.
Qed.
Lemma map_get_set {A} k k' (v : A) m : map_get k (map_set k' v m) = if bytes_eqb k k' then Some v else map_get k m.
Proof.
  induction m as [|[k2 v2] m IH]; cbn [map_set map_get]; [reflexivity|].
  destruct (bytes_eqb k' k2) eqn:E; cbn [map_get].
  - apply bytes_eqb_eq in E. subst k2. destruct (bytes_eqb k k'); reflexivity.
  - rewrite IH. destruct (bytes_eqb k k2) eqn:F; [|reflexivity]. apply bytes_eqb_eq in F. subst k2. destruct (bytes_eqb k k') eqn:G; [|reflexivity]. apply bytes_eqb_eq in G. subst k'. rewrite bytes_eqb_refl in E. discriminate E.
Qed.
Lemma entries_snoc l k v : entries_value (l ++ [(k, v)]) = match item_value k with CBytes s => map_set s (item_value v) (entries_value l) | _ => entries_value l end.
Proof. unfold entries_value. rewrite fold_left_app. reflexivity. Qed.
Lemma entry_snoc key l k v x : entry key (l ++ [(k, v)]) x <-> is_string key k /\ x = v \/ ~ is_string key k /\ entry key l x.
Proof.
  unfold entry. split.
  - intros (b & k' & a & E & S & F). destruct a as [|y a' _] using rev_ind.
    + apply app_inj_tail in E. destruct E as [-> E]. injection E as <- <-. auto.
    + change ((k', x) :: a' ++ [y]) with (((k', x) :: a') ++ [y]) in E. rewrite app_assoc in E. apply app_inj_tail in E. destruct E as [-> <-].
      apply Forall_app in F. destruct F as [F1 F2]. inversion F2; subst. cbn [fst] in *. right. split; [assumption|]. exists b, k', a'. auto.
  - intros [(S & ->)|(S & b & k' & a & -> & S' & F)].
    + exists l, k, []. auto.
    + exists b, k', (a ++ [(k, v)]). rewrite <- app_assoc. split; [reflexivity|]. split; [exact S'|]. apply Forall_app. auto.
Qed.

Lemma get_entry key l v : map_get key (entries_value l) = Some v <-> exists x, entry key l x /\ v = item_value x.
Proof.
  induction l as [|[k y] l IH] using rev_ind.
  - cbn. split; [intro Z; discriminate Z|]. intros (x & (b & k & a & E & _) & _). destruct b; discriminate E.
  - rewrite entries_snoc. setoid_rewrite entry_snoc. destruct (item_value k) as [| |s| | |] eqn:K.
    3: { rewrite map_get_set. destruct (bytes_eqb_spec key s) as [<-|N].
      + split; [intro Z; injection Z as <-; exists y; split; [left; split; [apply string_value; exact K|reflexivity]|reflexivity]|].
        intros (x & [(S & ->)|(S & _)] & ->); [reflexivity|]. destruct S. apply string_value. exact K.
      + assert (NS : ~ is_string key k) by (rewrite string_value, K; intro Z; injection Z as Z; congruence).
        rewrite IH. split; [intros (x & E & ->); exists x; auto|intros (x & [(S & _)|(_ & E)] & ->); [destruct (NS S)|exists x; auto]]. }
    all: assert (NS : ~ is_string key k) by (rewrite string_value, K; intro Z; discriminate Z);
      rewrite IH; (split; [intros (x & E & ->); exists x; auto|intros (x & [(S & _)|(_ & E)] & ->); [destruct (NS S)|exists x; auto]]).
Qed.
Lemma entry_unique key l x y : entry key l x -> entry key l y -> x = y.
Proof.
  induction l as [|[k z] l IH] using rev_ind.
  - intros (b & k & a & E & _). destruct b; discriminate E.
  - rewrite !entry_snoc. intros [(S & ->)|(S & E)] [(S' & ->)|(S' & E')]; try tauto; auto.
Qed.

Lemma tree_value : forall i t, is_tree t i <-> to_tree (item_value i) = Some t.
Proof.
  assert (G : forall t i, is_tree t i -> to_tree (item_value i) = Some t).
  { induction 1 as [n more i A S|n l r more tl tr i A S TL IL TR IR|n k c more s t i A S K TC IC|n d more s i A S K|n d more s i A S K L];
      match type of A with is_array ?l _ => assert (E : item_value i = CArray (map item_value l)) by (apply array_value; exists l; split; [exact A|reflexivity]) end; rewrite E; cbn [map];
      [apply (small_value TEmpty) in S|apply (small_value TFork) in S|apply (small_value TLabelled) in S|apply (small_value TLeaf) in S|apply (small_value TPruned) in S]; rewrite S; cbn [to_tree].
    - reflexivity.
    - rewrite IL, IR. reflexivity.
    - apply string_value in K. rewrite K, IC. reflexivity.
    - apply string_value in K. rewrite K. reflexivity.
    - apply string_value in K. rewrite K, L. reflexivity. }
  intros i t. split; [apply G|]. clear G.
  assert (B : forall n i t, (length (item_bytes i) < n)%nat -> to_tree (item_value i) = Some t -> is_tree t i).
  { clear. induction n as [|n IH]; intros i t L E; [lia|].
    destruct (item_value i) as [| | |vs| |] eqn:V; try discriminate E. destruct (proj1 (array_value vs i) V) as (l & A & ->).
    assert (SM : forall x, In x l -> (length (item_bytes x) < n)%nat).
    { intros x X. apply in_split in X. destruct X as (l1 & l2 & ->).
      assert (Q : forall i, (length (item_bytes (untagged i)) <= length (item_bytes i))%nat) by (clear; induction i; cbn [untagged item_bytes]; rewrite ?app_length; lia).
      destruct A as (a & A). specialize (Q i). rewrite A in Q. cbn [item_bytes] in Q. rewrite flat_map_app, !app_length in Q. cbn [flat_map] in Q. rewrite !app_length in Q.
      assert (1 <= length (rfc_head 4 a))%nat by (destruct a; cbn; lia). lia. }
    destruct l as [|x [|y [|z more]]]; cbn [map to_tree] in E; try discriminate E.
    - destruct (item_value x) as [| | | | |[]] eqn:X; try discriminate E. injection E as <-. eapply TEmptyNode; [exact A|apply (small_value TEmpty); exact X].
    - destruct (item_value x) as [| | | | |[]] eqn:X; try discriminate E.
      + injection E as <-. eapply TEmptyNode; [exact A|apply (small_value TEmpty); exact X].
      + destruct (item_value y) as [| | | | |] eqn:Y; discriminate E.
      + destruct (item_value y) as [| |s| | |] eqn:Y; try discriminate E. injection E as <-. eapply TLeafNode; [exact A|apply (small_value TLeaf); exact X|apply string_value; exact Y].
      + destruct (item_value y) as [| |s| | |] eqn:Y; try discriminate E. destruct (Nat.eqb_spec (length s) 32) as [LS|]; [|discriminate E]. injection E as <-. eapply TPrunedNode; [exact A|apply (small_value TPruned); exact X|apply string_value; exact Y|exact LS].
    - assert (SY := SM y ltac:(cbn; auto)). assert (SZ := SM z ltac:(cbn; auto)). clear SM V L.
      destruct (item_value x) as [| | | | |[]] eqn:X; try discriminate E.
      + injection E as <-. eapply TEmptyNode; [exact A|apply (small_value TEmpty); exact X].
      + destruct (to_tree (item_value y)) as [tl|] eqn:Y; [|discriminate E]. destruct (to_tree (item_value z)) as [tr|] eqn:Z; [|discriminate E]. injection E as <-.
        eapply TForkNode; [exact A|apply (small_value TFork); exact X|apply IH; assumption|apply IH; assumption].
      + destruct (item_value y) as [| |s| | |] eqn:Y; try discriminate E. destruct (to_tree (item_value z)) as [tr|] eqn:Z; [|discriminate E]. injection E as <-.
        eapply TLabeledNode; [exact A|apply (small_value TLabelled); exact X|apply string_value; exact Y|apply IH; assumption].
      + destruct (item_value y) as [| |s| | |] eqn:Y; try discriminate E. injection E as <-. eapply TLeafNode; [exact A|apply (small_value TLeaf); exact X|apply string_value; exact Y].
      + destruct (item_value y) as [| |s| | |] eqn:Y; try discriminate E. destruct (Nat.eqb_spec (length s) 32) as [LS|]; [|discriminate E]. injection E as <-. eapply TPrunedNode; [exact A|apply (small_value TPruned); exact X|apply string_value; exact Y|exact LS]. }
  apply (B (S (length (item_bytes i)))). lia.
Qed.

Lemma cert_value : forall i c, is_certificate c i <-> to_certificate (item_value i) = Some c.
Proof.
  intros i c. split.
  - intros (l & M & (xt & Et & T) & (xs & Es & S) & D).
    assert (V : item_value i = CMap (entries_value l)) by (apply map_value; exists l; auto). rewrite V. cbn [to_certificate].
    rewrite (proj2 (get_entry (bs "tree") l _) (ex_intro _ xt (conj Et eq_refl))). apply tree_value in T. rewrite T.
    rewrite (proj2 (get_entry (bs "signature") l _) (ex_intro _ xs (conj Es eq_refl))). apply string_value in S. rewrite S.
    destruct c as [t s [[ds dc]|]]; cbn [c_tree c_sig c_deleg d_subnet d_cert] in *.
    + destruct D as (x & m & Ed & Md & (y & Ey & Sy) & (z & Ez & Sz)). rewrite (proj2 (get_entry (bs "delegation") l _) (ex_intro _ x (conj Ed eq_refl))).
      assert (Vd : item_value x = CMap (entries_value m)) by (apply map_value; exists m; auto). rewrite Vd.
      rewrite (proj2 (get_entry (bs "subnet_id") m _) (ex_intro _ y (conj Ey eq_refl))). rewrite (proj2 (get_entry (bs "certificate") m _) (ex_intro _ z (conj Ez eq_refl))).
      apply string_value in Sy. apply string_value in Sz. rewrite Sy, Sz. reflexivity.
    + destruct (map_get (bs "delegation") (entries_value l)) as [v|] eqn:G; [|reflexivity]. apply get_entry in G. destruct G as (x & Ex & ->).
      destruct (item_value x) as [| | | |m|] eqn:X; try reflexivity. apply map_value in X. destruct X as (m' & Mx & _). destruct (D x Ex m' Mx).
  - intro E. destruct (item_value i) as [| | | |m|] eqn:V; try discriminate E. apply map_value in V. destruct V as (l & M & ->). cbn [to_certificate] in E.
    destruct (map_get (bs "tree") (entries_value l)) as [tv|] eqn:GT; [|discriminate E]. apply get_entry in GT. destruct GT as (xt & Et & ->).
    destruct (to_tree (item_value xt)) as [t|] eqn:T; [|discriminate E]. apply tree_value in T.
    destruct (map_get (bs "signature") (entries_value l)) as [sv|] eqn:GS; [|discriminate E]. apply get_entry in GS. destruct GS as (xs & Es & ->).
    destruct (item_value xs) as [| |s| | |] eqn:S; try discriminate E. apply string_value in S.
    exists l. split; [exact M|].
    assert (K : forall d, c = mk_cert t s d -> (exists x, entry (bs "tree") l x /\ is_tree (c_tree c) x) /\ (exists x, entry (bs "signature") l x /\ is_string (c_sig c) x) /\ c_deleg c = d) by (intros d ->; cbn; repeat split; eauto).
    destruct (map_get (bs "delegation") (entries_value l)) as [dv|] eqn:GD.
    + apply get_entry in GD. destruct GD as (xd & Ed & ->).
      assert (NM : (forall dm, item_value xd <> CMap dm) -> Some (mk_cert t s None) = Some c -> (exists x, entry (bs "tree") l x /\ is_tree (c_tree c) x) /\ (exists x, entry (bs "signature") l x /\ is_string (c_sig c) x) /\
        match c_deleg c with Some d => exists x m, entry (bs "delegation") l x /\ is_map m x /\ (exists y, entry (bs "subnet_id") m y /\ is_string (d_subnet d) y) /\ (exists y, entry (bs "certificate") m y /\ is_string (d_cert d) y)
        | None => forall x, entry (bs "delegation") l x -> forall m, ~ is_map m x end).
      { intros N Q. injection Q as Q. destruct (K None (eq_sym Q)) as (K1 & K2 & K3). split; [exact K1|]. split; [exact K2|]. rewrite K3. intros x Ex m Mx.
        rewrite (entry_unique _ _ _ _ Ex Ed) in Mx. apply (N (entries_value m)). apply map_value. exists m. auto. }
      destruct (item_value xd) as [| | | |dm|] eqn:D; try (apply NM; [intros dm Z; discriminate Z|exact E]). clear NM.
      apply map_value in D. destruct D as (m & Md & ->).
      destruct (map_get (bs "subnet_id") (entries_value m)) as [av|] eqn:GA; [|discriminate E]. apply get_entry in GA. destruct GA as (xa & Ea & ->). destruct (item_value xa) as [| |a| | |] eqn:A; try discriminate E.
      destruct (map_get (bs "certificate") (entries_value m)) as [cv|] eqn:GC; [|discriminate E]. apply get_entry in GC. destruct GC as (xc & Ec & ->). destruct (item_value xc) as [| |cc| | |] eqn:C; try discriminate E.
      injection E as E. destruct (K _ (eq_sym E)) as (K1 & K2 & K3). split; [exact K1|]. split; [exact K2|]. rewrite K3. cbn [d_subnet d_cert]. exists xd, m. split; [exact Ed|]. split; [exact Md|].
      apply string_value in A. apply string_value in C. split; eauto.
    + injection E as E. destruct (K _ (eq_sym E)) as (K1 & K2 & K3). split; [exact K1|]. split; [exact K2|]. rewrite K3. intros x Ex. exfalso.
      assert (Z := proj2 (get_entry (bs "delegation") l _) (ex_intro _ x (conj Ex eq_refl))). rewrite GD in Z. discriminate Z.
Qed.
Lemma ranges_value l : forall rs, to_ranges (map item_value l) = OOk rs <-> Forall2 is_range_item rs l /\ Forall (fun r => (length (fst r) <= 29)%nat /\ (length (snd r) <= 29)%nat) rs.
Proof.
  induction l as [|x l IH]; intro rs; cbn [map to_ranges].
  - split; [intro Z; injection Z as <-; auto|]. intros [F _]. inversion F. reflexivity.
  - split.
    + intro E. destruct (item_value x) as [| | |vs| |] eqn:X; try discriminate E. apply array_value in X. destruct X as (xl & XA & ->). destruct xl as [|a [|b more]]; cbn [map] in E; try discriminate E.
      { destruct (item_value a); discriminate E. }
      destruct (item_value a) as [| |sa| | |] eqn:A; try discriminate E. destruct (item_value b) as [| |sb| | |] eqn:B; try discriminate E.
      destruct (Nat.leb_spec (length sa) 29) as [LA|]; [|discriminate E]. destruct (Nat.leb_spec (length sb) 29) as [LB|]; [|discriminate E]. cbn [andb] in E.
      destruct (to_ranges (map item_value l)) as [rs'| | |] eqn:R; cbn [out_bind] in E; try discriminate E. injection E as <-. destruct (proj1 (IH _) eq_refl) as [R1 R2].
      split; constructor; auto. exists a, b, more. split; [exact XA|]. split; apply string_value; assumption.
    + intros [F P]. inversion F as [|[sa sb] ? rs' ? (a & b & more & XA & A & B) F' Q1 Q2]. subst. inversion P as [|? ? [LA LB] P']. subst. cbn [fst snd] in *.
      assert (V : item_value x = CArray (map item_value (a :: b :: more))) by (apply array_value; eexists; split; [exact XA|reflexivity]). rewrite V. cbn [map].
      apply string_value in A. apply string_value in B. rewrite A, B.
      destruct (Nat.leb_spec (length sa) 29) as [_|]; [|lia]. destruct (Nat.leb_spec (length sb) 29) as [_|]; [|lia]. cbn [andb].
      rewrite (proj2 (IH rs') (conj F' P')). reflexivity.
Qed.
Lemma strings_value l : forall ss, to_strings (map item_value l) = OOk ss <-> Forall2 is_string ss l /\ Forall (fun s => utf8_valid s = true) ss.
Proof.
  induction l as [|x l IH]; intro ss; cbn [map to_strings].
  - split; [intro Z; injection Z as <-; auto|]. intros [F _]. inversion F. reflexivity.
  - split.
    + intro E. destruct (item_value x) as [| |s| | |] eqn:X; try discriminate E. destruct (utf8_valid s) eqn:U; [|discriminate E].
      destruct (to_strings (map item_value l)) as [ss'| | |] eqn:R; cbn [out_bind] in E; try discriminate E. injection E as <-. destruct (proj1 (IH _) eq_refl) as [R1 R2]. apply string_value in X. split; constructor; auto.
    + intros [F P]. inversion F as [|s ? ss' ? S F' Q1 Q2]. subst. inversion P as [|? ? U P']. subst. apply string_value in S. rewrite S, U. rewrite (proj2 (IH ss') (conj F' P')). reflexivity.
Qed.

Section Decode.
  Variables (umod cap_max : N).
  Lemma decode_iff {A} (spec : A -> item -> Prop) (conv : cval -> out A) : (forall i a, spec a i <-> conv (item_value i) = OOk a) ->
    (forall i a, well_formed umod cap_max false i -> (out_bind (parse_cbor umod cap_max (item_bytes i)) conv = OOk a <-> spec a i)) /\
    (forall input a, out_bind (parse_cbor umod cap_max input) conv = OOk a -> exists i, well_formed umod cap_max true i /\ input = item_bytes i /\ spec a i).
  Proof.
    intro S. split.
    - intros i a W. rewrite (C117_every_item_is_read _ _ _ W). cbn [out_bind]. rewrite S. tauto.
    - intros input a E. destruct (parse_cbor umod cap_max input) as [v| | |] eqn:P; cbn [out_bind] in E; try discriminate E.
      destruct (C117_only_items_are_read _ _ _ _ P) as (i & W & J & ->). exists i. rewrite S. auto.
  Qed.
End Decode.
Lemma of_opt_some {A} (o : option A) a : of_opt o = OOk a <-> o = Some a.
Proof. destruct o; cbn; split; intro E; try discriminate E; injection E as <-; reflexivity. Qed.

Theorem C118_hash_trees :
  forall umod cap_max : N,
  (forall i t, well_formed umod cap_max false i -> (tree_from_cbor umod cap_max (item_bytes i) = OOk t <-> is_tree t i)) /\
  (forall input t, tree_from_cbor umod cap_max input = OOk t -> exists i, well_formed umod cap_max true i /\ input = item_bytes i /\ is_tree t i).
Proof. intros umod cap. apply (decode_iff umod cap is_tree (fun v => of_opt (to_tree v))). intros i t. rewrite of_opt_some. apply tree_value. Qed.
Print Assumptions C118_hash_trees.

Theorem C118_certificates :
  forall umod cap_max : N,
  (forall i c, well_formed umod cap_max false i -> (cert_from_cbor umod cap_max (item_bytes i) = OOk c <-> is_certificate c i)) /\
  (forall input c, cert_from_cbor umod cap_max input = OOk c -> exists i, well_formed umod cap_max true i /\ input = item_bytes i /\ is_certificate c i).
Proof. intros umod cap. apply (decode_iff umod cap is_certificate (fun v => of_opt (to_certificate v))). intros i t. rewrite of_opt_some. apply cert_value. Qed.
Print Assumptions C118_certificates.

Theorem C118_ranges_and_strings :
  forall umod cap_max : N,
  (forall i rs, well_formed umod cap_max false i -> (principals_from_cbor umod cap_max (item_bytes i) = OOk rs <-> is_ranges rs i)) /\
  (forall input rs, principals_from_cbor umod cap_max input = OOk rs -> exists i, well_formed umod cap_max true i /\ input = item_bytes i /\ is_ranges rs i) /\
  (forall i ss, well_formed umod cap_max false i -> (strings_from_cbor umod cap_max (item_bytes i) = OOk ss <-> is_strings ss i)) /\
  (forall input ss, strings_from_cbor umod cap_max input = OOk ss -> exists i, well_formed umod cap_max true i /\ input = item_bytes i /\ is_strings ss i).
Proof.
  intros umod cap.
  destruct (decode_iff umod cap is_ranges (fun v => match v with CArray l => to_ranges l | _ => OErr end)) as [R1 R2].
  { intros i rs. unfold is_ranges. split.
    - intros (l & A & F). assert (V : item_value i = CArray (map item_value l)) by (apply array_value; exists l; auto). rewrite V. apply ranges_value. exact F.
    - intro E. destruct (item_value i) as [| | |vs| |] eqn:V; try discriminate E. apply array_value in V. destruct V as (l & A & ->). exists l. split; [exact A|]. apply ranges_value. exact E. }
  destruct (decode_iff umod cap is_strings (fun v => match v with CArray l => to_strings l | _ => OErr end)) as [S1 S2].
  { intros i rs. unfold is_strings. split.
    - intros (l & A & F). assert (V : item_value i = CArray (map item_value l)) by (apply array_value; exists l; auto). rewrite V. apply strings_value. exact F.
    - intro E. destruct (item_value i) as [| | |vs| |] eqn:V; try discriminate E. apply array_value in V. destruct V as (l & A & ->). exists l. split; [exact A|]. apply strings_value. exact E. }
  split; [exact R1|]. split; [exact R2|]. split; [exact S1|exact S2].
Qed.
Print Assumptions C118_ranges_and_strings.

(** A certificate whose tree has a tag, an ignored element and a two-byte number, with an
    unknown entry, a signature given twice, and a delegation that is not a map. *)
Definition ex_cert_item : item :=
  IMap (Imm 5)
    [(IString true (Imm 9) (bs "signature"), INumber (Imm 1));
     (IString true (Imm 10) (bs "delegation"), ITagged true (Imm 22) (IArray (Imm 0) []));
     (IString true (Imm 4) (bs "tree"), ITagged false (Arg2 55799) (IArray (Imm 3) [INumber (Arg1 3); IString false (Imm 1) (unhex "61"); INegative (Imm 0)]));
     (IString true (Imm 4) (bs "more"), INumber (Imm 7));
     (IString true (Imm 9) (bs "signature"), IString false (Imm 2) (unhex "abcd"))].
Example ex_cert_item_well_formed : well_formed (2 ^ 64) (2 ^ 32) false ex_cert_item.
Proof. cbn. repeat split; try lia; try (left; reflexivity); try (eexists; split; reflexivity). Qed.
Example ex_cert_item_is : is_certificate (mk_cert (HLeaf (unhex "61")) (unhex "abcd") None) ex_cert_item.
Proof. apply cert_value. vm_compute. reflexivity. Qed.
Example ex_cert_item_decoded : cert_from_cbor (2 ^ 64) (2 ^ 32) (item_bytes ex_cert_item) = OOk (mk_cert (HLeaf (unhex "61")) (unhex "abcd") None).
Proof. apply (proj1 (C118_certificates (2 ^ 64) (2 ^ 32))); [apply ex_cert_item_well_formed|apply ex_cert_item_is]. Qed.
Example ex_ranges_item : is_ranges [(unhex "00", unhex "ff01")] (IArray (Imm 1) [IArray (Imm 2) [IString false (Imm 1) (unhex "00"); IString true (Imm 2) (unhex "ff01")]]).
Proof. eexists. split; [eexists; reflexivity|]. split; [constructor; [|constructor]|constructor; [cbn; lia|constructor]]. exists (IString false (Imm 1) (unhex "00")), (IString true (Imm 2) (unhex "ff01")), []. split; [eexists; reflexivity|]. split; eexists _, _; reflexivity. Qed.
