(** Property C143: the errors for CBOR documents. *)
From Coq Require Import List Arith NArith ZArith Bool Lia.
From Verif Require Import Bytes Utf8 Utf8Spec HashTree Cbor Errors CborErrors CborErrorSpec CborSpec Props_CelGrammar Toy.
Import ListNotations.

Definition opt_r {A} (r : res cbor_error A) : option A := match r with ROk a => Some a | _ => None end.
Definition no_panic {A} (r : res cbor_error A) : Prop := (exists a, r = ROk a) \/ exists e, r = RErr e.

Lemma tree_opt : forall v, opt_r (to_tree_e v) = to_tree v /\ no_panic (to_tree_e v).
Proof.
  assert (OK : forall A (a : A), no_panic (ROk a)) by (left; eauto). assert (ER : forall A e, @no_panic A (RErr e)) by (right; eauto).
  fix IH 1. intros [| | |l| |]; cbn [to_tree_e to_tree]; try (split; [reflexivity|apply ER]).
  destruct l as [|[| | | | |t] more]; try (split; [reflexivity|apply ER]). destruct t.
  - split; [reflexivity|apply OK].
  - destruct more as [|a [|b r]]; try (split; [reflexivity|apply ER]).
    destruct (IH a) as [Ea Pa], (IH b) as [Eb Pb]. clear IH. rewrite <- Ea, <- Eb. destruct Pa as [[ta ->]|[e ->]], Pb as [[tb ->]|[e' ->]]; cbn; split; auto.
  - destruct more as [|[| |d| | |] [|c r]]; try (split; [reflexivity|apply ER]). destruct (IH c) as [Ec Pc]. clear IH. rewrite <- Ec. destruct Pc as [[t ->]|[e ->]]; cbn; split; auto.
  - destruct more as [|[| |d| | |] r]; try (split; [reflexivity|apply ER]). split; [reflexivity|apply OK].
  - destruct more as [|[| |d| | |] r]; try (split; [reflexivity|apply ER]). destruct (Nat.eqb (length d) 32); split; auto.
Qed.
Lemma tree_ok_stands : forall v t, to_tree_e v = ROk t -> stands_for v t.
Proof.
  fix IH 1. intros [| | |l| |] tt0; cbn [to_tree_e]; try discriminate.
  destruct l as [|[| | | | |g] more]; try discriminate. destruct g.
  - intro E; injection E as <-. constructor.
  - destruct more as [|a [|b r]]; try discriminate. destruct (to_tree_e a) as [ta| | |] eqn:Ea; try discriminate. destruct (to_tree_e b) as [tb| | |] eqn:Eb; try discriminate.
    cbn. intro E; injection E as <-. constructor; apply IH; assumption.
  - destruct more as [|[| |d| | |] [|c r]]; try discriminate. destruct (to_tree_e c) as [tc| | |] eqn:Ec; try discriminate. cbn. intro E; injection E as <-. constructor. apply IH. exact Ec.
  - destruct more as [|[| |d| | |] r]; try discriminate. intro E; injection E as <-. constructor.
  - destruct more as [|[| |d| | |] r]; try discriminate. destruct (Nat.eqb_spec (length d) 32); try discriminate. intro E; injection E as <-. constructor. assumption.
Qed.
Lemma stands_tree_ok v t : stands_for v t -> to_tree_e v = ROk t.
Proof.
  induction 1; cbn [to_tree_e]; try reflexivity.
  - rewrite IHstands_for1. cbn [rbind]. rewrite IHstands_for2. reflexivity.
  - rewrite IHstands_for. reflexivity.
  - destruct (Nat.eqb_spec (length d) 32); [reflexivity|contradiction].
Qed.
Lemma tree_err_fault : forall v e, to_tree_e v = RErr e -> tree_fault v e.
Proof.
  fix IH 1. intros [| | |l| |] e; cbn [to_tree_e]; try (intro E; injection E as <-; apply no_array; intros; discriminate).
  destruct l as [|[| | | | |g] more]; try (intro E; injection E as <-; apply no_tag; intros; discriminate). destruct g.
  - discriminate.
  - destruct more as [|a [|b r]]; try (intro E; injection E as <-; apply no_fork_parts; intros; discriminate).
    destruct (to_tree_e a) as [ta|x| |] eqn:Ea; try discriminate.
    + destruct (to_tree_e b) as [tb|y| |] eqn:Eb; try discriminate. cbn. intro E; injection E as <-. apply (bad_right a b r ta); [apply tree_ok_stands; exact Ea|apply IH; exact Eb].
    + cbn. intro E; injection E as <-. apply bad_left. apply IH. exact Ea.
  - destruct more as [|[| |d| | |] [|c r]]; try (intro E; injection E as <-; apply no_label_parts; intros; discriminate).
    destruct (to_tree_e c) as [tc|x| |] eqn:Ec; try discriminate. cbn. intro E; injection E as <-. apply bad_child. apply IH. exact Ec.
  - destruct more as [|[| |d| | |] r]; try (intro E; injection E as <-; apply no_leaf_data; intros; discriminate). discriminate.
  - destruct more as [|[| |d| | |] r]; try (intro E; injection E as <-; apply no_pruned_data; intros; discriminate).
    destruct (Nat.eqb_spec (length d) 32); [discriminate|]. intro E; injection E as <-. apply bad_pruned_length. assumption.
Qed.
Lemma fault_tree_err v e : tree_fault v e -> to_tree_e v = RErr e.
Proof.
  induction 1 as [v N|l N|more N|more N|d more N|more N|d c more e F IH|more N|l r more e F IH|l r more tl e S F IH]; cbn [to_tree_e].
  - destruct v; try reflexivity. exfalso. eapply N. reflexivity.
  - destruct l as [|[| | | | |t] more]; try reflexivity. exfalso. eapply N. reflexivity.
  - destruct more as [|[| |d| | |] r]; try reflexivity. exfalso. eapply N. reflexivity.
  - destruct more as [|[| |d| | |] r]; try reflexivity. exfalso. eapply N. reflexivity.
  - destruct (Nat.eqb_spec (length d) 32); [contradiction|reflexivity].
  - destruct more as [|[| |d| | |] [|c r]]; try reflexivity. exfalso. eapply N. reflexivity.
  - rewrite IH. reflexivity.
  - destruct more as [|a [|b r]]; try reflexivity. exfalso. eapply N. reflexivity.
  - rewrite IH. reflexivity.
  - rewrite (stands_tree_ok _ _ S). cbn [rbind]. rewrite IH. reflexivity.
Qed.
Lemma tree_err v e : to_tree_e v = RErr e <-> tree_fault v e.
Proof. split; [apply tree_err_fault|apply fault_tree_err]. Qed.
Lemma tree_ok v t : to_tree_e v = ROk t <-> stands_for v t.
Proof. split; [apply tree_ok_stands|apply stands_tree_ok]. Qed.

Lemma get_entry m k v : map_get k m = Some v <-> has_entry m k v.
Proof.
  induction m as [|[k' v'] m IH]; cbn [map_get].
  - split; [discriminate|]. intros (a & b & E & _). destruct a; discriminate.
  - destruct (bytes_eqb_spec k k') as [<-|N].
    + split; [intro E; injection E as <-; exists [], m; split; [reflexivity|intros []]|].
      intros (a & b & E & X). destruct a as [|[k1 v1] a]; cbn in E; injection E; [congruence|]. intros _ _ <-. exfalso. apply X. left. reflexivity.
    + rewrite IH. split; intros (a & b & E & X).
      * exists ((k', v') :: a), b. split; [rewrite E; reflexivity|]. cbn. intros [Y|Y]; [congruence|contradiction].
      * destruct a as [|[k1 v1] a]; cbn in E; injection E; [congruence|]. intros Z _ _. exists a, b. split; [exact Z|]. intro Y. apply X. right. exact Y.
Qed.
Lemma get_none (m : list (bytes * cval)) k : map_get k m = None <-> no_entry m k.
Proof.
  unfold no_entry. induction m as [|[k' v'] m IH]; cbn; [split; auto|]. destruct (bytes_eqb_spec k k') as [<-|N].
  - split; [discriminate|]. intro X. exfalso. apply X. auto.
  - rewrite IH. split; intros X; [intros [Y|Y]; [congruence|contradiction]|intro Y; apply X; auto].
Qed.
(** either a string is there or not *)
Lemma string_or m k : (exists s, map_get k m = Some (CBytes s)) \/ (no_string m k /\ forall s, map_get k m <> Some (CBytes s)).
Proof.
  destruct (map_get k m) as [v|] eqn:G; [destruct v as [| |s| | |]|]; try (left; eauto; fail);
    (right; split; [intros ? E; apply get_entry in E; congruence|intros ?; discriminate]).
Qed.
Lemma no_string_get m k : no_string m k -> forall s, map_get k m <> Some (CBytes s).
Proof. intros N s E. apply get_entry in E. exact (N s E). Qed.
Lemma cert_opt v : opt_r (to_certificate_e v) = to_certificate v /\ no_panic (to_certificate_e v).
Proof.
  assert (OK : forall A (a : A), no_panic (ROk a)) by (left; eauto). assert (ER : forall A e, @no_panic A (RErr e)) by (right; eauto).
  destruct v as [| | | |m|]; cbn [to_certificate_e to_certificate]; try (split; [reflexivity|apply ER]).
  destruct (map_get (bs "tree") m) as [tv|]; [|split; [reflexivity|apply ER]]. destruct (tree_opt tv) as [E P]. rewrite <- E. destruct P as [[t ->]|[e ->]]; [|split; [reflexivity|apply ER]].
  cbn [rbind opt_r]. destruct (map_get (bs "signature") m) as [[| |s| | |]|]; try (split; [reflexivity|apply ER]).
  destruct (map_get (bs "delegation") m) as [[| | | |dm|]|]; try (split; [reflexivity|apply OK]).
  destruct (map_get (bs "subnet_id") dm) as [[| |a| | |]|]; try (split; [reflexivity|apply ER]);
  destruct (map_get (bs "certificate") dm) as [[| |c| | |]|]; try (split; [reflexivity|apply ER]). split; [reflexivity|apply OK].
Qed.
Lemma cert_err v e : to_certificate_e v = RErr e <-> certificate_fault v e.
Proof.
  split.
  - destruct v as [| | | |m|]; cbn [to_certificate_e]; try (intro E; injection E as <-; apply not_a_map; intros; discriminate).
    destruct (map_get (bs "tree") m) as [tv|] eqn:G; [apply get_entry in G|apply get_none in G; intro E; injection E as <-; apply no_tree; exact G].
    destruct (to_tree_e tv) as [t|x| |] eqn:T; cbn [rbind]; try discriminate; [|intro E; injection E as <-; apply (bad_tree m tv); [exact G|apply tree_err; exact T]].
    apply tree_ok in T.
    destruct (string_or m (bs "signature")) as [[s Gs]|[Ns Ns']]; [rewrite Gs|].
    + destruct (map_get (bs "delegation") m) as [[| | | |dm|]|] eqn:Gd; try discriminate. apply get_entry in Gs, Gd.
      destruct (string_or dm (bs "subnet_id")) as [[a Ga]|[Na Na']]; [rewrite Ga|].
      * destruct (string_or dm (bs "certificate")) as [[c Gc]|[Nc Nc']]; [rewrite Gc; discriminate|]. apply get_entry in Ga.
        intro E. assert (X : e = MalformedCertificate (bs "Expected Delegation Map to contain a Certificate when parsing Certificate Cbor")).
        { destruct (map_get (bs "certificate") dm) as [[| |c| | |]|]; try (injection E; auto; fail). exfalso. eapply Nc'. reflexivity. }
        subst e. eapply no_subnet_certificate; eauto.
      * intro E. assert (X : e = MalformedCertificate (bs "Expected Delegation Map to contain a Subnet ID when parsing Certificate Cbor")).
        { destruct (map_get (bs "subnet_id") dm) as [[| |c| | |]|]; try (injection E; auto; fail). exfalso. eapply Na'. reflexivity. }
        subst e. eapply no_subnet; eauto.
    + intro E. assert (X : e = MalformedCertificate (bs "Expected Signature when parsing Certificate Cbor")).
      { destruct (map_get (bs "signature") m) as [[| |c| | |]|]; try (injection E; auto; fail). exfalso. eapply Ns'. reflexivity. }
      subst e. eapply no_signature; eauto.
  - intros [w N|m N|m w x G T|m w t G T Ns|m w t s dm G T Gs Gd Na|m w t s dm a G T Gs Gd Ga Nc]; cbn [to_certificate_e].
    { destruct w; try reflexivity. exfalso. eapply N. reflexivity. }
    { apply get_none in N. rewrite N. reflexivity. }
    all: apply get_entry in G; rewrite G; try (apply tree_err in T; rewrite T; reflexivity); apply tree_ok in T; rewrite T; cbn [rbind].
    + assert (X := no_string_get _ _ Ns). destruct (map_get (bs "signature") m) as [[| |c| | |]|]; try reflexivity. exfalso. eapply X. reflexivity.
    + apply get_entry in Gs, Gd. rewrite Gs, Gd. assert (X := no_string_get _ _ Na). destruct (map_get (bs "subnet_id") dm) as [[| |c| | |]|]; try reflexivity. exfalso. eapply X. reflexivity.
    + apply get_entry in Gs, Gd, Ga. rewrite Gs, Gd, Ga. assert (X := no_string_get _ _ Nc). destruct (map_get (bs "certificate") dm) as [[| |c| | |]|]; try reflexivity. exfalso. eapply X. reflexivity.
Qed.

Lemma ranges_forget l : forget (to_ranges_e l) = to_ranges l.
Proof.
  induction l as [|[| | |[|[| |a| | |] [|[| |b| | |] more]]| |] l IH]; cbn [to_ranges_e to_ranges]; try reflexivity.
  destruct (Nat.leb (length a) 29 && Nat.leb (length b) 29); [|reflexivity]. rewrite <- IH. destruct (to_ranges_e l); reflexivity.
Qed.
Lemma ranges_err l e : to_ranges_e l = RErr e <-> ranges_fault (CArray l) e.
Proof.
  split.
  - revert e. induction l as [|x l IH]; intros e; [discriminate|]. intro E.
    assert (D : (exists a b more, x = CArray (CBytes a :: CBytes b :: more)) \/ (forall a b more, x <> CArray (CBytes a :: CBytes b :: more))).
    { destruct x as [| | |[|[| |a| | |] [|[| |b| | |] more]]| |]; try (right; intros; discriminate). left. eauto. }
    destruct D as [(a & b & more & ->)|N].
    + cbn [to_ranges_e] in E. destruct (Nat.leb_spec (length a) 29), (Nat.leb_spec (length b) 29); cbn [andb] in E; try discriminate.
      destruct (to_ranges_e l) as [rs|y| |]; try discriminate. cbn in E. injection E as <-.
      specialize (IH y eq_refl). inversion IH as [v N EQ|good z rest G N EQ]; [exfalso; eapply N; reflexivity|]. subst.
      apply (ranges_element (_ :: good)); [|exact N]. constructor; [|exact G]. exists a, b, more. auto.
    + assert (X : e = MalformedCborCanisterRanges).
      { destruct x as [| | |[|[| |a| | |] [|[| |b| | |] more]]| |]; cbn in E; try (injection E; auto; fail). exfalso. eapply N. reflexivity. }
      subst e. apply (ranges_element []); [constructor|exact N].
  - intro F. inversion F as [v N EQ|good z rest G N EQ]; [exfalso; eapply N; reflexivity|]. subst. clear F.
    induction G as [|y good (a & b & more & -> & La & Lb) G IH].
    + destruct z as [| | |[|[| |a| | |] [|[| |b| | |] more]]| |]; try reflexivity. exfalso. eapply N. reflexivity.
    + cbn [app to_ranges_e]. rewrite (proj2 (Nat.leb_le _ _) La), (proj2 (Nat.leb_le _ _) Lb). cbn [andb]. rewrite IH. reflexivity.
Qed.
Lemma strings_forget l : forget (to_strings_e l) = to_strings l.
Proof.
  induction l as [|[| |s| | |] l IH]; cbn [to_strings_e to_strings]; try reflexivity. destruct (utf8_valid s); [|reflexivity]. rewrite <- IH. destruct (to_strings_e l); reflexivity.
Qed.
Lemma strings_err l e : to_strings_e l = RErr e <-> strings_fault (CArray l) e.
Proof.
  split.
  - revert e. induction l as [|x l IH]; intros e; [discriminate|]. intro E.
    assert (D : (exists s, x = CBytes s) \/ (forall s, x <> CBytes s)).
    { destruct x as [| |s| | |]; try (right; intros; discriminate). left. eauto. }
    destruct D as [(s & ->)|N].
    + cbn [to_strings_e] in E. destruct (utf8_valid s) eqn:U.
      * destruct (to_strings_e l) as [rs|y| |]; try discriminate. cbn in E. injection E as <-.
        assert (GS : good_string (CBytes s)) by (exists s; split; [reflexivity|apply text_valid; exact U]).
        specialize (IH y eq_refl). inversion IH as [v N EQ|good z rest G N EQ|good z rest G N EQ]; [exfalso; eapply N; reflexivity| |]; subst.
        -- apply (strings_element (_ :: good)); [constructor; assumption|exact N].
        -- apply (strings_text (_ :: good)); [constructor; assumption|exact N].
      * injection E as <-. apply (strings_text []); [constructor|]. intro T. apply text_valid in T. congruence.
    + assert (X : e = UnexpectedCborNodeType (bs "ByteString") x).
      { destruct x as [| |s| | |]; cbn in E; try (injection E; auto; fail). exfalso. eapply N. reflexivity. }
      subst e. apply (strings_element []); [constructor|exact N].
  - intro F. inversion F as [v N EQ|good z rest G N EQ|good z rest G N EQ]; [exfalso; eapply N; reflexivity| |]; subst; clear F.
    + induction G as [|y good (s & -> & T) G IH].
      * destruct z as [| |s| | |]; try reflexivity. exfalso. eapply N. reflexivity.
      * cbn [app to_strings_e]. apply text_valid in T. rewrite T, IH. reflexivity.
    + induction G as [|y good (s & -> & T) G IH].
      * cbn [app to_strings_e]. destruct (utf8_valid z) eqn:U; [|reflexivity]. exfalso. apply N. apply text_valid. exact U.
      * cbn [app to_strings_e]. apply text_valid in T. rewrite T, IH. reflexivity.
Qed.

Lemma parse_err umod cap i A (f : cval -> res cbor_error A) e :
  rbind (parse_cbor_e umod cap i) f = RErr e <-> (e = MalformedCbor /\ parse_cbor umod cap i = OErr) \/ exists v, parse_cbor umod cap i = OOk v /\ f v = RErr e.
Proof.
  unfold parse_cbor_e. destruct (parse_cbor umod cap i) as [v| | |]; cbn [with_err rbind].
  - split; [right; eauto|]. intros [[_ X]|(w & X & E)]; [discriminate|]. injection X as ->. exact E.
  - split; [intro E; injection E as <-; left; auto|]. intros [[-> _]|(w & X & _)]; [reflexivity|discriminate].
  - split; [discriminate|]. intros [[_ X]|(w & X & _)]; discriminate.
  - split; [discriminate|]. intros [[_ X]|(w & X & _)]; discriminate.
Qed.
Lemma forget_opt {A} (r : res cbor_error A) : no_panic r -> forget r = of_opt (opt_r r).
Proof. intros [[a ->]|[e ->]]; reflexivity. Qed.

(** The error values do not change the result. *)
Theorem C143_same_verdict :
  forall (umod cap_max : N) (i : bytes),
  forget (tree_from_cbor_e umod cap_max i) = tree_from_cbor umod cap_max i /\
  forget (cert_from_cbor_e umod cap_max i) = cert_from_cbor umod cap_max i /\
  forget (principals_from_cbor_e umod cap_max i) = principals_from_cbor umod cap_max i /\
  forget (strings_from_cbor_e umod cap_max i) = strings_from_cbor umod cap_max i.
Proof.
  intros. unfold tree_from_cbor_e, tree_from_cbor, cert_from_cbor_e, cert_from_cbor, principals_from_cbor_e, principals_from_cbor, strings_from_cbor_e, strings_from_cbor, parse_cbor_e.
  destruct (parse_cbor umod cap_max i) as [v| | |]; cbn [with_err rbind out_bind forget]; auto. repeat split.
  - destruct (tree_opt v) as [E P]. rewrite <- E. apply forget_opt. exact P.
  - destruct (cert_opt v) as [E P]. rewrite <- E. apply forget_opt. exact P.
  - destruct v; try reflexivity. apply ranges_forget.
  - destruct v; try reflexivity. apply strings_forget.
Qed.
Print Assumptions C143_same_verdict.

(** The error is that of what is wrong first: [MalformedCbor] exactly if the bytes are no CBOR value. *)
Theorem C143_reported_error :
  forall (umod cap_max : N) (i : bytes) (e : cbor_error),
  (tree_from_cbor_e umod cap_max i = RErr e <->
   (e = MalformedCbor /\ parse_cbor umod cap_max i = OErr) \/ exists v, parse_cbor umod cap_max i = OOk v /\ tree_fault v e) /\
  (cert_from_cbor_e umod cap_max i = RErr e <->
   (e = MalformedCbor /\ parse_cbor umod cap_max i = OErr) \/ exists v, parse_cbor umod cap_max i = OOk v /\ certificate_fault v e) /\
  (principals_from_cbor_e umod cap_max i = RErr e <->
   (e = MalformedCbor /\ parse_cbor umod cap_max i = OErr) \/ exists v, parse_cbor umod cap_max i = OOk v /\ ranges_fault v e) /\
  (strings_from_cbor_e umod cap_max i = RErr e <->
   (e = MalformedCbor /\ parse_cbor umod cap_max i = OErr) \/ exists v, parse_cbor umod cap_max i = OOk v /\ strings_fault v e).
Proof.
  intros. unfold tree_from_cbor_e, cert_from_cbor_e, principals_from_cbor_e, strings_from_cbor_e. rewrite !parse_err.
  assert (EQ : forall P Q : cval -> Prop, (forall v, P v <-> Q v) ->
    ((e = MalformedCbor /\ parse_cbor umod cap_max i = OErr) \/ (exists v, parse_cbor umod cap_max i = OOk v /\ P v)) <->
    ((e = MalformedCbor /\ parse_cbor umod cap_max i = OErr) \/ (exists v, parse_cbor umod cap_max i = OOk v /\ Q v))).
  { intros P Q X. split; (intros [Y|(v & Y & Z)]; [left; exact Y|right; exists v; split; [exact Y|apply X; exact Z]]). }
  split; [apply EQ; intro; apply tree_err|]. split; [apply EQ; intro; apply cert_err|]. split; apply EQ; intro v.
  - destruct v as [| | |l| |]; try (split; [intro E; injection E as <-; apply ranges_no_array; intros; discriminate|intro F; inversion F; reflexivity]). apply ranges_err.
  - destruct v as [| | |l| |]; try (split; [intro E; injection E as <-; apply strings_no_array; intros; discriminate|intro F; inversion F; reflexivity]). apply strings_err.
Qed.
Print Assumptions C143_reported_error.

(** A value has at most one fault. *)
Theorem C143_one_error :
  forall (v : cval) (e e' : cbor_error),
  (tree_fault v e -> tree_fault v e' -> e = e') /\ (certificate_fault v e -> certificate_fault v e' -> e = e') /\
  (ranges_fault v e -> ranges_fault v e' -> e = e') /\ (strings_fault v e -> strings_fault v e' -> e = e').
Proof.
  intros v e e'. split; [|split; [|split]].
  - intros A B. apply tree_err in A, B. congruence.
  - intros A B. apply cert_err in A, B. congruence.
  - intros A B. inversion A; inversion B; reflexivity.
  - intros A B. destruct v as [| | |l| |]; try (inversion A; inversion B; subst; congruence). apply strings_err in A, B. congruence.
Qed.
Print Assumptions C143_one_error.

(** ** C144: input that ends too early is not told from other malformed input *)
Theorem C144_end_of_input_refuted :
  forall (umod cap_max : N) (i : bytes),
  tree_from_cbor_e umod cap_max i <> RErr UnexpectedEndOfInput /\ cert_from_cbor_e umod cap_max i <> RErr UnexpectedEndOfInput /\
  principals_from_cbor_e umod cap_max i <> RErr UnexpectedEndOfInput /\ strings_from_cbor_e umod cap_max i <> RErr UnexpectedEndOfInput /\
  tree_from_cbor_e umod cap_max [] = RErr MalformedCbor.
Proof.
  intros. assert (TF : forall v, ~ tree_fault v UnexpectedEndOfInput).
  { intros v F. remember UnexpectedEndOfInput as e eqn:E. induction F; try discriminate E; auto. }
  repeat split.
  - intro E. apply (C143_reported_error umod cap_max i) in E. destruct E as [[X _]|(v & _ & F)]; [discriminate|]. exact (TF v F).
  - intro E. apply (C143_reported_error umod cap_max i) in E. destruct E as [[X _]|(v & _ & F)]; [discriminate|]. inversion F; subst. eapply TF; eassumption.
  - intro E. apply (C143_reported_error umod cap_max i) in E. destruct E as [[X _]|(v & _ & F)]; [discriminate|]. inversion F.
  - intro E. apply (C143_reported_error umod cap_max i) in E. destruct E as [[X _]|(v & _ & F)]; [discriminate|]. inversion F.
Qed.
Print Assumptions C144_end_of_input_refuted.

(** ** Concrete cases *)
Definition big : N := 18446744073709551616.
Example c143_ex :
  tree_from_cbor_e big 1000 [x83; x01; x81; x00; x82; x04; x41; x00] = RErr IncorrectPrunedDataLength /\
  tree_from_cbor_e big 1000 [x81; x03] = RErr (MalformedHashTree (bs "Missing ByteString for Leaf node")) /\
  tree_from_cbor_e big 1000 [x83; x01] = RErr MalformedCbor /\
  cert_from_cbor_e big 1000 [xa1; x64; "t"%byte; "r"%byte; "e"%byte; "e"%byte; x81; x00] = RErr (MalformedCertificate (bs "Expected Signature when parsing Certificate Cbor")) /\
  strings_from_cbor_e big 1000 [x82; x61; "a"%byte; x20] = RErr (UnexpectedCborNodeType (bs "ByteString") (CSigned (I8 (-1)%Z))) /\
  strings_from_cbor_e big 1000 [x81; x61; xff] = RErr CborUtf8ConversionError /\
  principals_from_cbor_e big 1000 [x81; x81; x41; x01] = RErr MalformedCborCanisterRanges.
Proof. repeat split; vm_compute; reflexivity. Qed.
