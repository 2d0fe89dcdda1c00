(** C119: the two decoders of the repository (serde's and ic-cbor's) never read the same
    bytes as different trees or certificates, except for a delegation given as an array. *)
From Coq Require Import List Arith NArith Lia Bool.
From Verif Require Import Bytes Utf8 HashTree Cbor CborSpec CborGrammar Props_CborGrammar CborDocs Props_CborDocs Text Serde.
Import ListNotations.
Local Open Scope N_scope.

(** What serde_cbor 0.11 shows of a data item (it skips tags); bytes and strings borrow
    from the input if that is a slice. *)
Fixpoint serde_view (borrowed : bool) (i : item) : dval :=
  match i with
  | INumber a => SUint (arg_value a)
  | INegative _ => SOther
  | IString true _ s => SStr borrowed s
  | IString false _ s => SBytes borrowed s
  | IArray _ l => SSeq (map (serde_view borrowed) l)
  | IMap _ l => SMap (map (fun kv => match kv with (k, v) => (serde_view borrowed k, serde_view borrowed v) end) l)
  | ITagged false _ i => serde_view borrowed i
  | ITagged true _ _ => SOther
  end.
(** no null, boolean or float: serde_cbor sees those as values of their own *)
Fixpoint no_simple (i : item) : Prop :=
  match i with
  | IArray _ l => fold_right (fun i P => no_simple i /\ P) True l
  | IMap _ l => fold_right (fun kv P => match kv with (k, v) => (no_simple k /\ no_simple v) /\ P end) True l
  | ITagged simple _ i => simple = false /\ no_simple i
  | _ => True
  end.

Section Agree.
  Variable b : bool.
  Notation view := (serde_view b).
  Lemma view_untagged i : no_simple i -> view (untagged i) = view i /\ no_simple (untagged i).
  Proof. induction i as [a|a|t a s|a l|a l|s a i IH]; cbn [untagged no_simple serde_view]; auto. intros [-> N]. apply IH. exact N. Qed.
  Lemma view_array l i : no_simple i -> is_array l i -> view i = SSeq (map view l) /\ Forall no_simple l.
  Proof.
    intros N (a & E). apply view_untagged in N. rewrite E in N. destruct N as [N1 N2]. cbn [serde_view no_simple] in *. split; [auto|].
    clear - N2. induction l; cbn [fold_right] in N2; [constructor|]. destruct N2. constructor; auto.
  Qed.
  Lemma view_map l i : no_simple i -> is_map l i -> view i = SMap (map (fun kv => match kv with (k, v) => (view k, view v) end) l) /\ Forall (fun kv => no_simple (fst kv) /\ no_simple (snd kv)) l.
  Proof.
    intros N (a & E). apply view_untagged in N. rewrite E in N. destruct N as [N1 N2]. cbn [serde_view no_simple] in *. split; [auto|].
    clear - N2. induction l as [|[k v] l IH]; cbn [fold_right] in N2; [constructor|]. destruct N2. constructor; auto.
  Qed.
  Lemma view_string s i : no_simple i -> is_string s i -> view i = SStr b s \/ view i = SBytes b s.
  Proof. intros N (t & a & E). apply view_untagged in N. rewrite E in N. destruct N as [N1 _]. destruct t; cbn in N1; auto. Qed.
  Lemma view_small n i : no_simple i -> is_small n i -> view i = SUint n.
  Proof. intros N [E|E]; apply view_untagged in N; rewrite E in N; destruct N as [N1 _]; cbn in N1; auto. Qed.
  Lemma storage_string st s i s' : no_simple i -> is_string s i -> de_storage st (view i) = Some s' -> s' = s.
  Proof. intros N S E. destruct (view_string _ _ N S) as [V|V]; rewrite V in E; destruct st; cbn in E; try (injection E as <-; reflexivity); destruct b; try discriminate E; injection E as <-; reflexivity. Qed.
  Lemma ref_string s i s' : no_simple i -> is_string s i -> de_bytes_ref (view i) = Some s' -> s' = s.
  Proof. intros N S E. destruct (view_string _ _ N S) as [V|V]; rewrite V in E; cbn in E; destruct b; try discriminate E; injection E as <-; reflexivity. Qed.

  Lemma trees_agree st t i : is_tree t i -> no_simple i -> forall t', de_tree st (view i) = Some t' -> t' = t.
  Proof.
    induction 1 as [n more i A S|n l r more tl tr i A S TL IL TR IR|n k c more s t i A S K TC IC|n d more s i A S K|n d more s i A S K L];
      intros N t' E; destruct (view_array _ _ N A) as [V F]; rewrite V in E; cbn [map] in E;
      repeat match goal with H : Forall no_simple (_ :: _) |- _ => inversion H; clear H; subst end;
      rewrite (view_small _ n) in E by eassumption; cbn [de_tree] in E.
    - destruct (map view more); [|discriminate E]. injection E as <-. reflexivity.
    - destruct (map view more); [|discriminate E]. destruct (de_tree st (view l)) eqn:DL; [|discriminate E]. destruct (de_tree st (view r)) eqn:DR; [|discriminate E]. injection E as <-. f_equal; auto.
    - destruct (map view more); [|discriminate E]. destruct (de_storage st (view k)) as [k'|] eqn:DK; [|discriminate E]. destruct (de_tree st (view c)) eqn:DC; [|discriminate E]. injection E as <-. f_equal; [|auto].
      eapply (storage_string st _ k); eassumption.
    - destruct (map view more); [|discriminate E]. destruct (de_storage st (view d)) as [d'|] eqn:DK; [|discriminate E]. injection E as <-. f_equal. eapply (storage_string st _ d); eassumption.
    - destruct (map view more); [|discriminate E]. destruct (de_bytes_ref (view d)) as [d'|] eqn:DK; [|discriminate E]. destruct (Nat.eqb (length d') 32); [|discriminate E]. injection E as <-. f_equal. eapply (ref_string _ d); eassumption.
  Qed.

  Lemma field_string names k s n : no_simple k -> is_string s k -> field names (view k) = Some n -> nth_error names n = Some s.
  Proof.
    intros N St E. assert (X : forall i l, (fix find (i : nat) (s : bytes) (l : list bytes) : option nat := match l with [] => None | n :: r => if bytes_eqb s n then Some i else find (S i) s r end) i s l = Some n -> (i <= n)%nat /\ nth_error l (n - i) = Some s).
    { intros i l. revert i. induction l as [|x l IH]; intros i Q; [discriminate Q|]. destruct (bytes_eqb_spec s x) as [<-|Ne].
      - injection Q as <-. rewrite Nat.sub_diag. auto.
      - apply IH in Q. destruct Q as [Q1 Q2]. split; [lia|]. replace (n - i)%nat with (S (n - S i)) by lia. exact Q2. }
    destruct (view_string _ _ N St) as [V|V]; rewrite V in E; cbn [field] in E; apply X in E; destruct E as [_ E]; rewrite Nat.sub_0_r in E; exact E.
  Qed.
  Lemma key_view (fld : dval -> option nat) s k n : (fld (SStr b s) = n /\ fld (SBytes b s) = n) -> no_simple k -> is_string s k -> fld (view k) = n.
  Proof. intros [F1 F2] N S. destruct (view_string _ _ N S) as [V|V]; rewrite V; assumption. Qed.
  Notation pairs l := (map (fun kv : item * item => match kv with (k, v) => (view k, view v) end) l).
  Lemma dloop st l : forall sn ct d, delegation_loop st (pairs l) sn ct = Some d ->
    (forall x, sn = Some x -> d_subnet d = x) /\ (forall x, ct = Some x -> d_cert d = x) /\
    (forall k v, In (k, v) l -> delegation_field (view k) = Some 0%nat -> de_storage st (view v) = Some (d_subnet d)) /\
    (forall k v, In (k, v) l -> delegation_field (view k) = Some 1%nat -> de_storage st (view v) = Some (d_cert d)).
  Proof.
    induction l as [|[k v] l IH]; intros sn ct d E; cbn [map delegation_loop] in E.
    - destruct sn, ct; try discriminate E. injection E as <-. cbn. repeat split; try congruence; intros ? ? [].
    - destruct (delegation_field (view k)) as [[|[|n]]|] eqn:K; try discriminate E.
      + destruct sn; [discriminate E|]. destruct (de_storage st (view v)) as [s|] eqn:V; [|discriminate E]. apply IH in E. destruct E as (E1 & E2 & E3 & E4). specialize (E1 s eq_refl).
        split; [congruence|]. split; [exact E2|]. split; intros k' v' [Q|I] F; try (injection Q as <- <-); eauto; congruence.
      + destruct ct; [discriminate E|]. destruct (de_storage st (view v)) as [s|] eqn:V; [|discriminate E]. apply IH in E. destruct E as (E1 & E2 & E3 & E4). specialize (E2 s eq_refl).
        split; [exact E1|]. split; [congruence|]. split; intros k' v' [Q|I] F; try (injection Q as <- <-); eauto; congruence.
  Qed.
  Lemma cloop st l : forall T G D c, certificate_loop st (pairs l) T G D = Some c ->
    (forall x, T = Some x -> c_tree c = x) /\ (forall x, G = Some x -> c_sig c = x) /\ (forall x, D = Some x -> c_deleg c = Some x) /\
    (forall k v, In (k, v) l -> certificate_field (view k) = Some 0%nat -> de_tree st (view v) = Some (c_tree c)) /\
    (forall k v, In (k, v) l -> certificate_field (view k) = Some 1%nat -> de_storage st (view v) = Some (c_sig c)) /\
    (forall k v, In (k, v) l -> certificate_field (view k) = Some 2%nat -> exists d, de_delegation st (view v) = Some d /\ c_deleg c = Some d) /\
    (D = None -> c_deleg c = None \/ exists k v, In (k, v) l /\ certificate_field (view k) = Some 2%nat).
  Proof.
    induction l as [|[k v] l IH]; intros T G D c E; cbn [map certificate_loop] in E.
    - destruct T, G; try discriminate E. injection E as <-. cbn. repeat split; try congruence; try (intros ? ? []); auto.
    - destruct (certificate_field (view k)) as [[|[|[|n]]]|] eqn:K; try discriminate E.
      + destruct T; [discriminate E|]. destruct (de_tree st (view v)) as [s|] eqn:V; [|discriminate E]. apply IH in E. destruct E as (E1 & E2 & E3 & E4 & E5 & E6 & E7). specialize (E1 s eq_refl).
        split; [congruence|]. split; [exact E2|]. split; [exact E3|]. repeat split; try (intros k' v' [Q|I] F; try (injection Q as <- <-); eauto; congruence).
        intro Z. destruct (E7 Z) as [|(k' & v' & I & F)]; [auto|right; exists k', v'; split; [right; exact I|exact F]].
      + destruct G; [discriminate E|]. destruct (de_storage st (view v)) as [s|] eqn:V; [|discriminate E]. apply IH in E. destruct E as (E1 & E2 & E3 & E4 & E5 & E6 & E7). specialize (E2 s eq_refl).
        split; [exact E1|]. split; [congruence|]. split; [exact E3|]. repeat split; try (intros k' v' [Q|I] F; try (injection Q as <- <-); eauto; congruence).
        intro Z. destruct (E7 Z) as [|(k' & v' & I & F)]; [auto|right; exists k', v'; split; [right; exact I|exact F]].
      + destruct D; [discriminate E|]. destruct (de_delegation st (view v)) as [s|] eqn:V; [|discriminate E]. apply IH in E. destruct E as (E1 & E2 & E3 & E4 & E5 & E6 & E7). specialize (E3 s eq_refl).
        split; [exact E1|]. split; [exact E2|]. split; [congruence|]. repeat split; try (intros k' v' [Q|I] F; try (injection Q as <- <-); eauto; congruence).
        intros _. right. exists k, v. split; [left; reflexivity|exact K].
  Qed.
  Lemma entry_in key l x : Forall (fun kv => no_simple (fst kv) /\ no_simple (snd kv)) l -> entry key l x -> exists k, In (k, x) l /\ is_string key k /\ no_simple k /\ no_simple x.
  Proof. intros F (b1 & k & a & -> & S & _). exists k. apply Forall_app in F. destruct F as [_ F]. inversion F as [|? ? [N1 N2] _]. subst. split; [apply in_or_app; right; left; reflexivity|auto]. Qed.
  Lemma delegations_agree st m x d d' : no_simple x -> is_map m x -> (exists y, entry (bs "subnet_id") m y /\ is_string (d_subnet d) y) -> (exists y, entry (bs "certificate") m y /\ is_string (d_cert d) y) ->
    de_delegation st (view x) = Some d' -> d' = d.
  Proof.
    intros N M (y & Ey & Sy) (z & Ez & Sz) E. destruct (view_map _ _ N M) as [V F]. rewrite V in E. cbn [de_delegation] in E. apply dloop in E. destruct E as (_ & _ & E3 & E4).
    destruct (entry_in _ _ _ F Ey) as (ky & Iy & Ky & Nk & Ny). destruct (entry_in _ _ _ F Ez) as (kz & Iz & Kz & Nkz & Nz).
    apply E3 in Iy; [|apply (key_view delegation_field (bs "subnet_id")); [split; reflexivity|assumption|assumption]]. apply E4 in Iz; [|apply (key_view delegation_field (bs "certificate")); [split; reflexivity|assumption|assumption]].
    apply (storage_string st _ y _ Ny Sy) in Iy. apply (storage_string st _ z _ Nz Sz) in Iz. destruct d, d'. cbn in *. congruence.
  Qed.
End Agree.

Lemma last_entry key l k v : In (k, v) l -> is_string key k -> exists x, entry key l x.
Proof.
  induction l as [|[k' v'] l IH] using rev_ind; [intros []|]. intros I S. setoid_rewrite entry_snoc.
  destruct (item_value k') as [| |s| | |] eqn:K'.
  3: { destruct (bytes_eqb_spec key s) as [<-|Ne].
    - exists v'. left. split; [apply string_value; exact K'|reflexivity].
    - assert (NS : ~ is_string key k') by (rewrite string_value, K'; intro Z; injection Z as Z; congruence).
      apply in_app_or in I. destruct I as [I|[Q|[]]]; [destruct (IH I S) as (x & E); exists x; auto|]. injection Q as -> ->. destruct (NS S). }
  all: assert (NS : ~ is_string key k') by (rewrite string_value, K'; intro Z; discriminate Z);
    apply in_app_or in I; (destruct I as [I|[Q|[]]]; [destruct (IH I S) as (x & E); exists x; auto|injection Q as -> ->; destruct (NS S)]).
Qed.
Lemma wf_keys umod cap l i : well_formed umod cap false i -> is_map l i -> forall k v, In (k, v) l -> exists s, is_string s k.
Proof.
  intros W (a & E).
  assert (W' : well_formed umod cap false (untagged i)). { clear E. revert W. induction i; cbn [untagged well_formed]; tauto. }
  rewrite E in W'. cbn [well_formed] in W'. destruct W' as (_ & _ & _ & F). intros k v I. clear E. induction l as [|[k' v'] l IH]; [destruct I|]. cbn [fold_right] in F. destruct F as [(_ & _ & s & V & _) F].
  destruct I as [Q|I]; [|auto]. injection Q as -> ->. exists s. apply string_value. exact V.
Qed.

Theorem C119_decoders_agree_on_trees :
  forall (umod cap_max : N) (borrowed : bool) (st : storage) (i : item) (t t' : htree),
  well_formed umod cap_max false i -> no_simple i ->
  de_tree st (serde_view borrowed i) = Some t -> tree_from_cbor umod cap_max (item_bytes i) = OOk t' -> t = t'.
Proof.
  intros umod cap b st i t t' W N E E'. apply (proj1 (C118_hash_trees umod cap) i t' W) in E'. apply (trees_agree b st t' i E' N t E).
Qed.
Print Assumptions C119_decoders_agree_on_trees.

Theorem C119_decoders_agree_on_certificates :
  forall (umod cap_max : N) (borrowed : bool) (st : storage) (i : item) (c c' : certificate),
  well_formed umod cap_max false i -> no_simple i ->
  de_certificate st (serde_view borrowed i) = Some c -> cert_from_cbor umod cap_max (item_bytes i) = OOk c' ->
  c = c' \/
  (c_deleg c' = None /\ c_tree c = c_tree c' /\ c_sig c = c_sig c' /\
   exists l x xs, is_map l i /\ entry (bs "delegation") l x /\ is_array xs x).
Proof.
  intros umod cap b st i c' c W N E E'. apply (proj1 (C118_certificates umod cap) i c W) in E'.
  destruct E' as (l & M & (x & Ex & Tx) & (y & Ey & Sy) & D). destruct (view_map b _ _ N M) as [V F]. rewrite V in E. cbn [de_certificate] in E.
  apply cloop in E. destruct E as (_ & _ & _ & E4 & E5 & E6 & E7).
  destruct (entry_in _ _ _ F Ex) as (kx & Ix & Kx & Nkx & Nx). destruct (entry_in _ _ _ F Ey) as (ky & Iy & Ky & Nky & Ny).
  apply E4 in Ix; [|apply (key_view b certificate_field (bs "tree")); [split; reflexivity|assumption|assumption]]. apply (trees_agree b st _ _ Tx Nx) in Ix.
  apply E5 in Iy; [|apply (key_view b certificate_field (bs "signature")); [split; reflexivity|assumption|assumption]]. apply (storage_string b st _ y _ Ny Sy) in Iy.
  destruct c as [t s [d|]]; cbn [c_tree c_sig c_deleg] in *.
  - left. destruct D as (z & m & Ez & Mz & DS & DC). destruct (entry_in _ _ _ F Ez) as (kz & Iz & Kz & Nkz & Nz).
    apply E6 in Iz; [|apply (key_view b certificate_field (bs "delegation")); [split; reflexivity|assumption|assumption]]. destruct Iz as (d' & Q & C).
    apply (delegations_agree b st m z d d' Nz Mz DS DC) in Q. destruct c' as [t' s' dd]. cbn in *. congruence.
  - destruct (E7 eq_refl) as [Z|(k & v & I & K)].
    + left. destruct c' as [t' s' dd]. cbn in *. congruence.
    + right. split; [reflexivity|]. split; [exact Ix|]. split; [exact Iy|].
      destruct (wf_keys _ _ _ _ W M _ _ I) as (ks & S). rewrite Forall_forall in F. assert (NK := F _ I). cbn in NK. destruct NK as [NK NV].
      assert (X := field_string b _ _ _ _ NK S K). cbn in X. injection X as X. subst ks.
      destruct (last_entry _ _ _ _ I S) as (z & Ez). assert (Ez' := Ez). apply (entry_in _ _ _ (proj2 (Forall_forall _ _) F)) in Ez'. destruct Ez' as (kz & Iz & Kz & Nkz & Nz).
      apply E6 in Iz; [|apply (key_view b certificate_field (bs "delegation")); [split; reflexivity|assumption|assumption]]. destruct Iz as (d' & Q & _).
      assert (NM := D z Ez). destruct (view_untagged b z Nz) as [VU NU]. rewrite <- VU in Q. destruct (untagged z) as [?|?|[] ? ?|aa ll|aa ll|[] ? ?] eqn:U; cbn [serde_view de_delegation] in Q; try discriminate Q.
      * exists l, z, ll. split; [exact M|]. split; [exact Ez|]. exists aa. exact U.
      * destruct (NM ll). exists aa. exact U.
      * destruct (untagged_untagged z _ _ _ U).
Qed.
Print Assumptions C119_decoders_agree_on_certificates.

(** The exception happens: a delegation written as an array is a delegation for serde and none for ic-cbor. *)
Definition ex_array_delegation : item :=
  IMap (Imm 3)
    [(IString true (Imm 4) (bs "tree"), IArray (Imm 1) [INumber (Imm 0)]);
     (IString true (Imm 9) (bs "signature"), IString false (Imm 1) (unhex "ab"));
     (IString true (Imm 10) (bs "delegation"), IArray (Imm 2) [IString false (Imm 1) (unhex "01"); IString false (Imm 1) (unhex "02")])].
Example ex_array_delegation_well_formed : well_formed (2 ^ 64) (2 ^ 32) false ex_array_delegation /\ no_simple ex_array_delegation.
Proof. cbn. repeat split; try lia; try (left; reflexivity); try (eexists; split; reflexivity). Qed.
Theorem C119_array_delegations_differ :
  exists (umod cap_max : N) (i : item) (c c' : certificate),
  well_formed umod cap_max false i /\ no_simple i /\
  de_certificate VecStorage (serde_view true i) = Some c /\ cert_from_cbor umod cap_max (item_bytes i) = OOk c' /\
  c_deleg c <> None /\ c_deleg c' = None.
Proof.
  exists (2 ^ 64), (2 ^ 32), ex_array_delegation, (mk_cert HEmpty (unhex "ab") (Some (mk_deleg (unhex "01") (unhex "02")))), (mk_cert HEmpty (unhex "ab") None).
  destruct ex_array_delegation_well_formed as [W N]. split; [exact W|]. split; [exact N|]. split; [vm_compute; reflexivity|]. split; [vm_compute; reflexivity|]. split; [discriminate|reflexivity].
Qed.
Print Assumptions C119_array_delegations_differ.
(** and the agreement is not vacuous *)
Definition ex_map_delegation : item :=
  IMap (Imm 3)
    [(IString true (Imm 4) (bs "tree"), IArray (Imm 3) [INumber (Imm 2); IString false (Imm 1) (unhex "61"); ITagged false (Imm 5) (IArray (Imm 2) [INumber (Arg1 3); IString false (Imm 0) []])]);
     (IString false (Imm 9) (bs "signature"), IString false (Imm 1) (unhex "ab"));
     (IString true (Imm 10) (bs "delegation"), IMap (Imm 2) [(IString true (Imm 11) (bs "certificate"), IString false (Imm 1) (unhex "01")); (IString true (Imm 9) (bs "subnet_id"), IString false (Imm 1) (unhex "02"))])].
Example ex_map_delegation_both :
  well_formed (2 ^ 64) (2 ^ 32) false ex_map_delegation /\ no_simple ex_map_delegation /\
  de_certificate CowStorage (serde_view true ex_map_delegation) = Some (mk_cert (HLabeled (unhex "61") (HLeaf [])) (unhex "ab") (Some (mk_deleg (unhex "02") (unhex "01")))) /\
  cert_from_cbor (2 ^ 64) (2 ^ 32) (item_bytes ex_map_delegation) = OOk (mk_cert (HLabeled (unhex "61") (HLeaf [])) (unhex "ab") (Some (mk_deleg (unhex "02") (unhex "01")))).
Proof.
  split; [cbn; repeat split; try lia; try (left; reflexivity); try (eexists; split; reflexivity)|]. split; [cbn; repeat split|]. split; vm_compute; reflexivity.
Qed.
