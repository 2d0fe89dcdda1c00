(** Property C75: the [serde] implementations of hash trees and certificates. *)
From Coq Require Import List Arith NArith Lia Bool.
From Verif Require Import Bytes HashTree Cbor CborSpec Serde SerdeSpec Props_Cbor.
Import ListNotations.
Local Open Scope N_scope.

Section DInd.
  Variable P : dval -> Prop.
  Hypothesis PU : forall n, P (SUint n).
  Hypothesis PB : forall b x, P (SBytes b x).
  Hypothesis PS : forall b x, P (SStr b x).
  Hypothesis PL : forall l, Forall P l -> P (SSeq l).
  Hypothesis PM : forall m, P (SMap m).
  Hypothesis PO : P SOther.
  Fixpoint dval_ind' (v : dval) : P v :=
    match v with
    | SUint n => PU n
    | SBytes b x => PB b x
    | SStr b x => PS b x
    | SSeq l => PL l ((fix go (l : list dval) : Forall P l :=
                         match l with [] => Forall_nil _ | x :: r => Forall_cons _ (dval_ind' x) (go r) end) l)
    | SMap m => PM m
    | SOther => PO
    end.
End DInd.

Lemma n2b_b2n x : n2b (b2n x) = x.
Proof. destruct x; reflexivity. Qed.
Lemma b2n_n2b n : n < 256 -> b2n (n2b n) = n.
Proof.
  intro L. assert (X : exists k, (k < 256)%nat /\ n = N.of_nat k) by (exists (N.to_nat n); lia).
  destruct X as (k & Lk & ->). clear L.
  do 256 (destruct k as [|k]; [reflexivity|]). lia.
Qed.
Lemma b2n_lt x : b2n x < 256.
Proof. destruct x; reflexivity. Qed.

Lemma u8s_spec ns : forall b, de_u8s ns = Some b <-> Forall2 (fun v x => v = SUint (b2n x)) ns b.
Proof.
  induction ns as [|v ns IH]; intro b; cbn [de_u8s].
  - split; [intro X; injection X as <-; constructor|inversion 1; reflexivity].
  - split.
    + destruct v as [n| | | | |]; cbn [de_u8]; try discriminate.
      destruct (n <? 256) eqn:L; [|discriminate]. destruct (de_u8s ns) as [r|]; [|discriminate].
      intro X; injection X as <-. constructor; [|apply IH; reflexivity].
      rewrite b2n_n2b by (apply N.ltb_lt; exact L). reflexivity.
    + inversion 1 as [|? x ? r Q F]; subst. cbn [de_u8]. rewrite (proj2 (N.ltb_lt _ _) (b2n_lt x)).
      rewrite (proj2 (IH r) F), n2b_b2n. reflexivity.
Qed.
Lemma storage_spec st v b : de_storage st v = Some b <-> byte_string st v b.
Proof.
  split.
  - destruct st, v as [n|[] x|[] x|l|m|]; cbn; try discriminate; intro X; try (injection X as ->; constructor).
    constructor. apply u8s_spec. exact X.
  - inversion 1; subst; try reflexivity; try (destruct st; reflexivity). apply u8s_spec. assumption.
Qed.
Lemma ref_spec v b : de_bytes_ref v = Some b <-> byte_string SliceStorage v b.
Proof. exact (storage_spec SliceStorage v b). Qed.

Lemma tree_spec st v : forall t, de_tree st v = Some t <-> tree_shape st v t.
Proof.
  induction v as [n|b x|b x|l IH|m|] using dval_ind'; intro t; try (split; [discriminate|inversion 1]).
  split.
  - destruct l as [|[n| | | | |] rest]; try discriminate. cbn [de_tree]. inversion IH as [|? ? _ IHr]; subst.
    destruct n as [|[[[]|[]|]|[[]|[]|]|]]; try discriminate.
    + destruct rest; [|discriminate]. intro X; injection X as <-. constructor.
    + destruct rest as [|v [|? ?]]; try discriminate. destruct (de_storage st v) eqn:Q; [|discriminate].
      intro X; injection X as <-. constructor. apply storage_spec. exact Q.
    + destruct rest as [|v [|? ?]]; try discriminate. destruct (de_bytes_ref v) as [d|] eqn:Q; [|discriminate].
      destruct (Nat.eqb (length d) 32) eqn:L; [|discriminate].
      intro X; injection X as <-. constructor; [apply ref_spec; exact Q|apply Nat.eqb_eq; exact L].
    + destruct rest as [|v [|w [|? ?]]]; try discriminate.
      inversion IHr as [|? ? _ IH2]; subst. inversion IH2 as [|? ? IHw _]; subst.
      destruct (de_storage st v) as [k|] eqn:Q; [|discriminate]. destruct (de_tree st w) as [c|] eqn:Qw; [|discriminate].
      intro X; injection X as <-. constructor; [apply storage_spec; exact Q|apply IHw; reflexivity].
    + destruct rest as [|v [|w [|? ?]]]; try discriminate.
      inversion IHr as [|? ? IHv IH2]; subst. inversion IH2 as [|? ? IHw _]; subst.
      destruct (de_tree st v) as [k|] eqn:Q; [|discriminate]. destruct (de_tree st w) as [c|] eqn:Qw; [|discriminate].
      intro X; injection X as <-. constructor; [apply IHv|apply IHw]; reflexivity.
  - inversion 1; subst; cbn [de_tree].
    + reflexivity.
    + inversion IH as [|? ? _ IHr]; subst. inversion IHr as [|? ? IHv IH2]; subst. inversion IH2 as [|? ? IHw _]; subst.
      rewrite (proj2 (IHv _)) by eassumption. rewrite (proj2 (IHw _)) by eassumption. reflexivity.
    + inversion IH as [|? ? _ IHr]; subst. inversion IHr as [|? ? _ IH2]; subst. inversion IH2 as [|? ? IHw _]; subst.
      rewrite (proj2 (storage_spec st k kb)) by assumption. rewrite (proj2 (IHw _)) by eassumption. reflexivity.
    + rewrite (proj2 (storage_spec st v b)) by assumption. reflexivity.
    + rewrite (proj2 (ref_spec v h)) by assumption.
      match goal with X : length h = _ |- _ => rewrite X end. reflexivity.
Qed.

(** ** Fields *)
Lemma dfield0 k : delegation_field k = Some 0%nat <-> names 0 (bs "subnet_id") k.
Proof.
  split.
  - destruct k as [n|b x|b x|l|m|]; try discriminate.
    + unfold delegation_field, field. cbn [length]. destruct (n <? N.of_nat 2); [|discriminate]. intro X. injection X as X.
      replace n with 0 by lia. constructor.
    + unfold delegation_field, field. destruct (bytes_eqb_spec x (bs "subnet_id")) as [->|]; [constructor|].
      destruct (bytes_eqb x (bs "certificate")); discriminate.
    + unfold delegation_field, field. destruct (bytes_eqb_spec x (bs "subnet_id")) as [->|]; [constructor|].
      destruct (bytes_eqb x (bs "certificate")); discriminate.
  - inversion 1; reflexivity.
Qed.
Lemma dfield1 k : delegation_field k = Some 1%nat <-> names 1 (bs "certificate") k.
Proof.
  split.
  - destruct k as [n|b x|b x|l|m|]; try discriminate.
    + unfold delegation_field, field. cbn [length]. destruct (n <? N.of_nat 2); [|discriminate]. intro X. injection X as X.
      replace n with 1 by lia. constructor.
    + unfold delegation_field, field. destruct (bytes_eqb_spec x (bs "subnet_id")) as [->|]; [discriminate|].
      destruct (bytes_eqb_spec x (bs "certificate")) as [->|]; [constructor|discriminate].
    + unfold delegation_field, field. destruct (bytes_eqb_spec x (bs "subnet_id")) as [->|]; [discriminate|].
      destruct (bytes_eqb_spec x (bs "certificate")) as [->|]; [constructor|discriminate].
  - inversion 1; reflexivity.
Qed.
Ltac cfield_tac n x :=
  unfold certificate_field, field;
  destruct (bytes_eqb_spec x (bs "tree")) as [->|]; [constructor || discriminate|];
  destruct (bytes_eqb_spec x (bs "signature")) as [->|]; [constructor || discriminate|];
  destruct (bytes_eqb_spec x (bs "delegation")) as [->|]; [constructor || discriminate|discriminate].
Lemma cfield k i name : In (i, name) [(0, bs "tree"); (1, bs "signature"); (2, bs "delegation")] ->
  (certificate_field k = Some (N.to_nat i) <-> names i name k).
Proof.
  intro I. split.
  - destruct k as [n|b x|b x|l|m|]; try discriminate.
    + unfold certificate_field, field. cbn [length]. destruct (n <? N.of_nat 3); [|discriminate]. intro X. injection X as X.
      replace n with i by lia. constructor.
    + simpl in I. destruct I as [I|[I|[I|[]]]]; injection I as <- <-; cfield_tac n x.
    + simpl in I. destruct I as [I|[I|[I|[]]]]; injection I as <- <-; cfield_tac n x.
  - simpl in I. destruct I as [I|[I|[I|[]]]]; injection I as <- <-; inversion 1; reflexivity.
Qed.

Definition psub st s (e : dval * dval) := names 0 (bs "subnet_id") (fst e) /\ byte_string st (snd e) s.
Definition pcert st c (e : dval * dval) := names 1 (bs "certificate") (fst e) /\ byte_string st (snd e) c.
Definition unless {A B} (a : option A) (x : B) : list B := match a with None => [x] | Some _ => [] end.

Lemma entries_nil m : entries m [] -> m = [].
Proof.
  intro X. remember [] as L eqn:Q. destruct X as [|e m w b a W X]; [reflexivity|]. destruct b; discriminate.
Qed.
Lemma entries_cons e m L : entries (e :: m) L -> exists (w : _ -> Prop) b a, L = b ++ w :: a /\ w e /\ entries m (b ++ a).
Proof. inversion 1; subst. eauto 7. Qed.

Lemma dloop st m : forall a b s c,
  delegation_loop st m a b = Some (mk_deleg s c) <->
  (a = None \/ a = Some s) /\ (b = None \/ b = Some c) /\
  entries m (unless a (psub st s) ++ unless b (pcert st c)).
Proof.
  induction m as [|[k v] m IH]; intros a b s c; cbn [delegation_loop].
  - split.
    + destruct a, b; try discriminate. intro X. injection X as -> ->. repeat split; auto. constructor.
    + intros (A & B & X). inversion X as [Q|]. destruct a; [|discriminate]. destruct b; [|discriminate].
      destruct A as [A|A]; [discriminate|]. destruct B as [B|B]; [discriminate|]. congruence.
  - split.
    + destruct (delegation_field k) as [[|[|]]|] eqn:F; try discriminate.
      * destruct a; [discriminate|]. destruct (de_storage st v) as [s0|] eqn:Q; [|discriminate]. intro X.
        apply IH in X. destruct X as (A & B & X). destruct A as [A|A]; [discriminate|]. injection A as ->.
        split; [auto|]. split; [exact B|]. cbn [unless app] in *.
        apply (EnCons (k, v) m (psub st s) []); [|exact X]. split; [apply dfield0; exact F|apply storage_spec; exact Q].
      * destruct b; [discriminate|]. destruct (de_storage st v) as [s0|] eqn:Q; [|discriminate]. intro X.
        apply IH in X. destruct X as (A & B & X). destruct B as [B|B]; [discriminate|]. injection B as ->.
        split; [exact A|]. split; [auto|]. cbn [unless app] in *.
        apply (EnCons (k, v) m (pcert st c)); [|exact X]. split; [apply dfield1; exact F|apply storage_spec; exact Q].
    + intros (A & B & X). apply entries_cons in X. destruct X as (w & bf & af & L & W & X).
      assert (C : (a = None /\ w = psub st s /\ bf ++ af = unless (Some s) (psub st s) ++ unless b (pcert st c)) \/
                  (b = None /\ w = pcert st c /\ bf ++ af = unless a (psub st s) ++ unless (Some c) (pcert st c))).
      { destruct a, b; cbn [unless app] in *.
        - destruct bf; discriminate.
        - destruct bf as [|? [|]]; try discriminate. injection L as <- <-. right. auto.
        - destruct bf as [|? [|]]; try discriminate. injection L as <- <-. left. auto.
        - destruct bf as [|? [|? [|]]]; try discriminate; injection L as <- <-; subst; auto. }
      destruct C as [(-> & -> & Q)|(-> & -> & Q)]; rewrite Q in X; destruct W as [W1 W2]; cbn [fst snd] in *.
      * rewrite (proj2 (dfield0 k) W1), (proj2 (storage_spec st v s) W2). apply IH. auto.
      * rewrite (proj2 (dfield1 k) W1), (proj2 (storage_spec st v c) W2). apply IH. auto.
Qed.

Lemma delegation_spec st v d : de_delegation st v = Some d <-> delegation_shape st v d.
Proof.
  destruct d as [s c]. split.
  - destruct v as [n|b x|b x|l|m|]; try discriminate; cbn [de_delegation].
    + destruct l as [|v [|w [|? ?]]]; try discriminate.
      destruct (de_storage st v) eqn:Q1; [|discriminate]. destruct (de_storage st w) eqn:Q2; [|discriminate].
      intro X. injection X as -> ->. constructor; apply storage_spec; assumption.
    + intro X. apply dloop in X. destruct X as (_ & _ & X). constructor. exact X.
  - inversion 1 as [v1 w1 ? ? B1 B2|m ? ? X]; subst; cbn [de_delegation].
    + rewrite (proj2 (storage_spec _ _ _) B1), (proj2 (storage_spec _ _ _) B2). reflexivity.
    + apply dloop. auto.
Qed.

Definition ptree st t (e : dval * dval) := names 0 (bs "tree") (fst e) /\ tree_shape st (snd e) t.
Definition psig st s (e : dval * dval) := names 1 (bs "signature") (fst e) /\ byte_string st (snd e) s.
Definition pdeleg st d (e : dval * dval) := names 2 (bs "delegation") (fst e) /\ delegation_shape st (snd e) d.
Definition wdeleg st (dl od : option delegation) :=
  match dl, od with None, Some d => [pdeleg st d] | _, _ => [] end.

Lemma cloop st m : forall a b dl t s od,
  certificate_loop st m a b dl = Some (mk_cert t s od) <->
  (a = None \/ a = Some t) /\ (b = None \/ b = Some s) /\ (dl = None \/ dl = od) /\
  entries m (unless a (ptree st t) ++ unless b (psig st s) ++ wdeleg st dl od).
Proof.
  induction m as [|[k v] m IH]; intros a b dl t s od; cbn [certificate_loop].
  - split.
    + destruct a, b; try discriminate. intro X. injection X as -> -> ->. repeat split; auto.
      destruct od; constructor.
    + intros (A & B & D & X). inversion X as [Q|]. destruct a; [|discriminate]. destruct b; [|discriminate].
      destruct A as [A|A]; [discriminate|]. destruct B as [B|B]; [discriminate|].
      destruct dl, od; try discriminate; destruct D as [D|D]; try discriminate; congruence.
  - split.
    + destruct (certificate_field k) as [[|[|[|]]]|] eqn:F; try discriminate.
      * destruct a; [discriminate|]. destruct (de_tree st v) as [t0|] eqn:Q; [|discriminate]. intro X.
        apply IH in X. destruct X as (A & B & D & X). destruct A as [A|A]; [discriminate|]. injection A as ->.
        split; [auto|]. split; [exact B|]. split; [exact D|]. cbn [unless app] in *.
        apply (EnCons (k, v) m (ptree st t) []); [|exact X].
        split; [apply cfield; [simpl; auto|exact F]|apply tree_spec; exact Q].
      * destruct b; [discriminate|]. destruct (de_storage st v) as [s0|] eqn:Q; [|discriminate]. intro X.
        apply IH in X. destruct X as (A & B & D & X). destruct B as [B|B]; [discriminate|]. injection B as ->.
        split; [exact A|]. split; [auto|]. split; [exact D|]. cbn [unless app] in *.
        apply (EnCons (k, v) m (psig st s)); [|exact X].
        split; [apply cfield; [simpl; auto|exact F]|apply storage_spec; exact Q].
      * destruct dl; [discriminate|]. destruct (de_delegation st v) as [d0|] eqn:Q; [|discriminate]. intro X.
        apply IH in X. destruct X as (A & B & D & X). destruct D as [D|D]; [discriminate|]. subst od.
        split; [exact A|]. split; [exact B|]. split; [auto|]. cbn [wdeleg] in *.
        rewrite app_assoc in *. rewrite app_nil_r in X.
        apply (EnCons (k, v) m (pdeleg st d0)); [|rewrite app_nil_r; exact X].
        split; [apply cfield; [simpl; auto|exact F]|apply delegation_spec; exact Q].
    + intros (A & B & D & X). apply entries_cons in X. destruct X as (w & bf & af & L & W & X).
      assert (C : (a = None /\ w = ptree st t /\ bf ++ af = unless (Some t) (ptree st t) ++ unless b (psig st s) ++ wdeleg st dl od) \/
                  (b = None /\ w = psig st s /\ bf ++ af = unless a (ptree st t) ++ unless (Some s) (psig st s) ++ wdeleg st dl od) \/
                  (exists d, dl = None /\ od = Some d /\ w = pdeleg st d /\ bf ++ af = unless a (ptree st t) ++ unless b (psig st s) ++ [])).
      { destruct a, b, dl, od; cbn [unless wdeleg app] in *;
          (destruct bf as [|? [|? [|? [|? ?]]]]; cbn [app] in *; try discriminate L; injection L; intros; subst; auto;
           try (right; left; auto; fail); right; right; eexists; auto). }
      destruct C as [(-> & -> & Q)|[(-> & -> & Q)|(d & -> & -> & -> & Q)]]; rewrite Q in X; destruct W as [W1 W2]; cbn [fst snd] in *.
      * rewrite (proj2 (cfield k 0 (bs "tree") ltac:(simpl; auto)) W1). cbn [N.to_nat].
        rewrite (proj2 (tree_spec st v t) W2). apply IH. auto.
      * rewrite (proj2 (cfield k 1 (bs "signature") ltac:(simpl; auto)) W1). change (N.to_nat 1) with 1%nat. cbv iota.
        rewrite (proj2 (storage_spec st v s) W2). apply IH. auto.
      * rewrite (proj2 (cfield k 2 (bs "delegation") ltac:(simpl; auto)) W1). change (N.to_nat 2) with 2%nat. cbv iota.
        rewrite (proj2 (delegation_spec st v d) W2). apply IH. auto.
Qed.

Lemma certificate_spec st v c : de_certificate st v = Some c <-> certificate_shape st v c.
Proof.
  destruct c as [t s od]. split.
  - destruct v as [n|b x|b x|l|m|]; try discriminate; cbn [de_certificate].
    + destruct l as [|v [|w r]]; try discriminate.
      destruct (de_tree st v) eqn:Q1; [|discriminate]. destruct (de_storage st w) eqn:Q2; [|discriminate].
      apply tree_spec in Q1. apply storage_spec in Q2.
      destruct r as [|x [|]]; try discriminate.
      * intro X. injection X as -> -> <-. constructor; assumption.
      * destruct (de_delegation st x) eqn:Q3; [|discriminate]. apply delegation_spec in Q3.
        intro X. injection X as -> -> <-. constructor; assumption.
    + intro X. apply cloop in X. destruct X as (_ & _ & _ & X). destruct od; constructor; exact X.
  - inversion 1 as [v1 w1 ? ? B1 B2|v1 w1 x1 ? ? ? B1 B2 B3|m ? ? X|m ? ? ? X]; subst; cbn [de_certificate].
    + rewrite (proj2 (tree_spec _ _ _) B1), (proj2 (storage_spec _ _ _) B2). reflexivity.
    + rewrite (proj2 (tree_spec _ _ _) B1), (proj2 (storage_spec _ _ _) B2), (proj2 (delegation_spec _ _ _) B3). reflexivity.
    + apply cloop. auto.
    + apply cloop. auto.
Qed.

(** C75: a value is accepted exactly when it has one of the documented shapes:
    nothing missing, nothing more, no field twice, no unknown field. *)
Theorem C75_accepted_shapes :
  forall (st : storage) (v : dval),
  (forall t, de_tree st v = Some t <-> tree_shape st v t) /\
  (forall d, de_delegation st v = Some d <-> delegation_shape st v d) /\
  (forall c, de_certificate st v = Some c <-> certificate_shape st v c).
Proof. intros. split; [|split]; intros; [apply tree_spec|apply delegation_spec|apply certificate_spec]. Qed.
Print Assumptions C75_accepted_shapes.

(** C75: what is written is read back, from any format that hands out slices of
    its input, with any storage; pruned hashes are 32 bytes by type. *)
Lemma read_slice t : read_back FromSlice (ser_tree t) = ser_tree t.
Proof. induction t; cbn [ser_tree read_back map]; congruence. Qed.
Lemma tree_rt st t : hashes32 t -> de_tree st (ser_tree t) = Some t.
Proof.
  intro X. induction t as [|l IHl r IHr|k c IH|b|h]; cbn [ser_tree de_tree hashes32] in *.
  - reflexivity.
  - rewrite IHl, IHr by tauto. reflexivity.
  - rewrite IH by exact X. destruct st; reflexivity.
  - destruct st; reflexivity.
  - cbn [de_bytes_ref]. rewrite X. reflexivity.
Qed.
Theorem C75_round_trip :
  forall (st : storage),
  (forall t, hashes32 t -> de_tree st (read_back FromSlice (ser_tree t)) = Some t) /\
  (forall d, de_delegation st (read_back FromSlice (ser_delegation d)) = Some d) /\
  (forall c, hashes32 (c_tree c) -> de_certificate st (read_back FromSlice (ser_certificate c)) = Some c).
Proof.
  intro st. split; [|split].
  - intros t X. rewrite read_slice. apply tree_rt. exact X.
  - intros [s c]. destruct st; reflexivity.
  - intros [t s od] X. cbn [c_tree] in X. apply certificate_spec.
    assert (Q := proj1 (tree_spec st _ t) (tree_rt st t X)).
    unfold ser_certificate. cbn [c_tree c_sig c_deleg].
    assert (Bs : byte_string st (SBytes true s) s) by constructor.
    destruct od as [[sn ce]|].
    + cbn [app map read_back fst snd ser_delegation d_subnet d_cert]. rewrite read_slice. constructor.
      apply (EnCons _ _ _ []); [split; [constructor|exact Q]|].
      apply (EnCons _ _ _ []); [split; [constructor|exact Bs]|].
      apply (EnCons _ _ _ []); [split; [constructor|]|constructor]. constructor.
      apply (EnCons _ _ _ []); [split; constructor|]. apply (EnCons _ _ _ []); [split; constructor|constructor].
    + cbn [app map read_back fst snd]. rewrite read_slice. constructor.
      apply (EnCons _ _ _ []); [split; [constructor|exact Q]|].
      apply (EnCons _ _ _ []); [split; [constructor|exact Bs]|constructor].
Qed.
Print Assumptions C75_round_trip.

(** C75: from a stream or a textual format a tree is read back, into owned
    storage, exactly when it has no pruned node: the digest of a pruned node is
    only accepted when borrowed from the input. *)
Lemma u8s_map b : de_u8s (map (fun x => SUint (b2n x)) b) = Some b.
Proof. apply u8s_spec. induction b; constructor; auto. Qed.
Theorem C75_pruned_trees_need_borrowed_bytes :
  forall (f : format) (t : htree), f <> FromSlice ->
  de_tree VecStorage (read_back f (ser_tree t)) = if has_pruned t then None else Some t.
Proof.
  intros f t F.
  assert (S : forall b, de_storage VecStorage (read_back f (SBytes true b)) = Some b).
  { intro b. destruct f; try reflexivity. cbn [read_back de_storage de_bytebuf]. apply u8s_map. }
  induction t as [|l IHl r IHr|k c IH|b|h]; cbn [ser_tree].
  - reflexivity.
  - change (read_back f (SSeq [SUint 1; ser_tree l; ser_tree r])) with (SSeq [SUint 1; read_back f (ser_tree l); read_back f (ser_tree r)]).
    cbn [de_tree]. rewrite IHl, IHr. cbn [has_pruned]. destruct (has_pruned l), (has_pruned r); reflexivity.
  - change (read_back f (SSeq [SUint 2; SBytes true k; ser_tree c])) with (SSeq [SUint 2; read_back f (SBytes true k); read_back f (ser_tree c)]).
    cbn [de_tree]. rewrite IH, S. cbn [has_pruned]. destruct (has_pruned c); reflexivity.
  - change (read_back f (SSeq [SUint 3; SBytes true b])) with (SSeq [SUint 3; read_back f (SBytes true b)]).
    cbn [de_tree]. rewrite S. reflexivity.
  - destruct f; [contradiction F; reflexivity|reflexivity|reflexivity].
Qed.
Print Assumptions C75_pruned_trees_need_borrowed_bytes.

(** C75: a label written to a human-readable format (as hex digits) is not read
    back as the same label: the digits become the label. *)
Theorem C75_human_readable_label_round_trip_refuted :
  forall (st : storage) (k : bytes), k <> [] ->
  exists k', de_label st (read_back Textual (ser_label true k)) = Some k' /\ from_hex k' = Some k /\ length k' = (2 * length k)%nat /\ k' <> k.
Proof.
  intros st k N. exists (label_hex k).
  assert (L : length (label_hex k) = (2 * length k)%nat).
  { clear. induction k as [|x k IH]; cbn [label_hex flat_map app length]; [reflexivity|].
    unfold label_hex in IH. rewrite IH. lia. }
  split; [destruct st; reflexivity|]. split; [|split; [exact L|]].
  { clear. induction k as [|x k IH]; [reflexivity|]. cbn [label_hex flat_map app from_hex]. unfold label_hex in IH. rewrite IH. destruct x; reflexivity. }
  intro Q. rewrite Q in L.
  destruct k; [contradiction N; reflexivity|]. simpl in L. lia.
Qed.
Print Assumptions C75_human_readable_label_round_trip_refuted.
Theorem C75_label_round_trip :
  forall (st : storage) (k : bytes),
  de_label st (read_back FromSlice (ser_label false k)) = Some k /\
  (st <> SliceStorage -> de_label st (read_back FromStream (ser_label false k)) = Some k).
Proof. intros [] k; (split; [reflexivity|intro N; try reflexivity; contradiction N; reflexivity]). Qed.
Print Assumptions C75_label_round_trip.

(** ** Agreement with ic-cbor *)
Lemma bytes_parsed v b c : byte_string SliceStorage v b -> parsed v c -> c = CBytes b.
Proof.
  intros B P. inversion B; subst; inversion P; subst; reflexivity.
Qed.
Lemma tag_parsed n c : parsed (SUint n) c -> n <= 4 ->
  c = CTag match n with 0 => TEmpty | 1 => TFork | 2 => TLabelled | 3 => TLeaf | _ => TPruned end.
Proof.
  intros P L. inversion P as [n' t Q| | | | |]; subst; [|lia].
  destruct Q as [Q|[Q|[Q|[Q|Q]]]]; injection Q as -> ->; reflexivity.
Qed.
Lemma tree_parsed v t : tree_shape SliceStorage v t -> forall c, parsed v c -> to_tree c = Some t.
Proof.
  induction 1 as [|v w l r Sv IHv Sw IHw|k v kb ch Bk Sv IHv|v b Bb|v h Bh Lh]; intros c P.
  all: match type of P with parsed (SSeq ?L) _ => inversion P as [| | | |? l' F|]; subst end.
  - inversion F as [|? x ? y P1 F1]; subst. inversion F1; subst. rewrite (tag_parsed 0 x P1) by lia. reflexivity.
  - inversion F as [|? x ? y P1 F1]; subst. inversion F1 as [|? x2 ? y2 P2 F2]; subst.
    inversion F2 as [|? x3 ? y3 P3 F3]; subst. rewrite (tag_parsed 1 x P1) by lia.
    cbn [to_tree]. rewrite (IHv _ P2), (IHw _ P3). reflexivity.
  - inversion F as [|? x ? y P1 F1]; subst. inversion F1 as [|? x2 ? y2 P2 F2]; subst.
    inversion F2 as [|? x3 ? y3 P3 F3]; subst. rewrite (tag_parsed 2 x P1) by lia.
    rewrite (bytes_parsed _ _ _ Bk P2). cbn [to_tree]. rewrite (IHv _ P3). reflexivity.
  - inversion F as [|? x ? y P1 F1]; subst. inversion F1 as [|? x2 ? y2 P2 F2]; subst.
    rewrite (tag_parsed 3 x P1) by lia. rewrite (bytes_parsed _ _ _ Bb P2). reflexivity.
  - inversion F as [|? x ? y P1 F1]; subst. inversion F1 as [|? x2 ? y2 P2 F2]; subst.
    rewrite (tag_parsed 4 x P1) by lia. rewrite (bytes_parsed _ _ _ Bh P2). cbn [to_tree]. rewrite Lh. reflexivity.
Qed.

(** C75: whatever borrowed-storage [serde] accepts from CBOR, ic-cbor reads the
    same: hash trees, and certificates written as maps (with the delegation, if
    any, a map too). *)
Definition map_form (v : dval) : Prop := exists m, v = SMap m /\
  forall k x, In (k, x) m -> names 2 (bs "delegation") k -> exists m', x = SMap m'.

Lemma fold_map_get (m : list (bytes * cval)) : forall acc k,
  map_get k (fold_left (fun a e => map_set (fst e) (snd e) a) m acc) =
  fold_left (fun r e => if bytes_eqb k (fst e) then Some (snd e) else r) m (map_get k acc).
Proof.
  induction m as [|[k0 v0] m IH]; intros acc k; cbn [fold_left fst snd]; [reflexivity|]. rewrite IH. f_equal.
  clear. induction acc as [|[k1 v1] acc IH]; cbn [map_set map_get].
  - reflexivity.
  - destruct (bytes_eqb_spec k0 k1) as [->|N]; cbn [map_get].
    + destruct (bytes_eqb k k1); reflexivity.
    + rewrite IH. destruct (bytes_eqb_spec k k1) as [->|N1]; [|reflexivity].
      destruct (bytes_eqb_spec k1 k0); [congruence|reflexivity].
Qed.

Notation rel := (fun e e' => (exists b, fst e = SStr b (fst e')) /\ parsed (snd e) (snd e')).
Lemma entries2 m (P Q : dval * dval -> Prop) : entries m [P; Q] ->
  exists a b, P a /\ Q b /\ (m = [a; b] \/ m = [b; a]).
Proof.
  destruct m as [|e m]; intro X.
  - inversion X.
  - apply entries_cons in X. destruct X as (w & bf & af & L & W & X).
    destruct bf as [|? [|? [|]]]; try discriminate; injection L; intros; subst; cbn [app] in X;
      (destruct m as [|e2 m]; [inversion X|]); apply entries_cons in X; destruct X as (w2 & bf & af & L2 & W2 & X);
      (destruct bf as [|? [|]]; try discriminate; injection L2; intros; subst; cbn [app] in X);
      apply entries_nil in X; subst m; eauto 8.
Qed.
Lemma entries3 m (P Q R : dval * dval -> Prop) : entries m [P; Q; R] ->
  exists a b c, P a /\ Q b /\ R c /\
  (m = [a; b; c] \/ m = [a; c; b] \/ m = [b; a; c] \/ m = [b; c; a] \/ m = [c; a; b] \/ m = [c; b; a]).
Proof.
  destruct m as [|e m]; intro X.
  - inversion X.
  - apply entries_cons in X. destruct X as (w & bf & af & L & W & X).
    destruct bf as [|? [|? [|? [|]]]]; try discriminate; injection L; intros; subst; cbn [app] in X;
      apply entries2 in X; destruct X as (a & b & A & B & [-> | ->]); eauto 12.
Qed.
Lemma named_key i name (e : dval * dval) (k' : bytes) : (exists b, fst e = SStr b k') -> names i name (fst e) -> k' = name.
Proof. intros [b Q] X. rewrite Q in X. inversion X; congruence. Qed.

Ltac keys :=
  repeat match goal with
  | |- context [bytes_eqb (bs ?a) (bs ?b)] =>
      let r := eval vm_compute in (bytes_eqb (bs a) (bs b)) in change (bytes_eqb (bs a) (bs b)) with r
  end.
Ltac f2 F := inversion F as [|? [? ?] ? ? [? ?] ?]; clear F; subst.

Lemma deleg_parsed m d : delegation_shape SliceStorage (SMap m) d -> forall m', Forall2 rel m m' ->
  exists a c, map_get (bs "subnet_id") (fold_left (fun a e => map_set (fst e) (snd e) a) m' []) = Some (CBytes a) /\
    map_get (bs "certificate") (fold_left (fun a e => map_set (fst e) (snd e) a) m' []) = Some (CBytes c) /\
    d = mk_deleg a c.
Proof.
  intros D m' F. inversion D as [|? s c X]; subst. apply entries2 in X.
  destruct X as (a & b & [A1 A2] & [B1 B2] & [-> | ->]).
  - inversion F as [|? [ka va] ? r1 [K1 P1] F1]; subst. inversion F1 as [|? [kb vb] ? r2 [K2 P2] F2]; subst. inversion F2; subst.
    cbn [fst snd] in *. assert (Q1 := named_key _ _ a ka K1 A1). assert (Q2 := named_key _ _ b kb K2 B1). subst ka kb.
    rewrite (bytes_parsed _ _ _ A2 P1), (bytes_parsed _ _ _ B2 P2). rewrite !fold_map_get. cbn [fold_left fst snd map_get].
    keys. cbv iota. eauto.
  - inversion F as [|? [ka va] ? r1 [K1 P1] F1]; subst. inversion F1 as [|? [kb vb] ? r2 [K2 P2] F2]; subst. inversion F2; subst.
    cbn [fst snd] in *. assert (Q1 := named_key _ _ b ka K1 B1). assert (Q2 := named_key _ _ a kb K2 A1). subst ka kb.
    rewrite (bytes_parsed _ _ _ B2 P1), (bytes_parsed _ _ _ A2 P2). rewrite !fold_map_get. cbn [fold_left fst snd map_get].
    keys. cbv iota. eauto.
Qed.

Lemma to_certificate_of m t s od tv :
  map_get (bs "tree") m = Some tv -> to_tree tv = Some t -> map_get (bs "signature") m = Some (CBytes s) ->
  match od with
  | None => map_get (bs "delegation") m = None
  | Some d => exists dm, map_get (bs "delegation") m = Some (CMap dm) /\
      map_get (bs "subnet_id") dm = Some (CBytes (d_subnet d)) /\ map_get (bs "certificate") dm = Some (CBytes (d_cert d))
  end -> to_certificate (CMap m) = Some (mk_cert t s od).
Proof.
  intros A B C D. unfold to_certificate. rewrite A, B, C. destruct od as [[a c]|].
  - destruct D as (dm & -> & -> & ->). reflexivity.
  - rewrite D. reflexivity.
Qed.

Theorem C75_agrees_with_ic_cbor :
  forall (v : dval) (c : cval), parsed v c ->
  (forall t, de_tree SliceStorage v = Some t -> to_tree c = Some t) /\
  (forall ct, map_form v -> de_certificate SliceStorage v = Some ct -> to_certificate c = Some ct).
Proof.
  intros v c P. split.
  - intros t X. apply tree_spec in X. eapply tree_parsed; eauto.
  - intros ct [m [-> MF]] X. apply certificate_spec in X. inversion P as [| | | | |? m' F]; subst.
    inversion X as [| |? t s En|? t s d En]; subst.
    + apply entries2 in En. destruct En as (a & b & [A1 A2] & [B1 B2] & Or).
      assert (Z : forall x y, parsed (snd a) x -> parsed (snd b) y ->
        (m' = [(bs "tree", x); (bs "signature", y)] \/ m' = [(bs "signature", y); (bs "tree", x)]) ->
        to_certificate (CMap (fold_left (fun a e => map_set (fst e) (snd e) a) m' [])) = Some (mk_cert t s None)).
      { intros x y Px Py Q. apply to_certificate_of with (tv := x).
        - rewrite fold_map_get. destruct Q as [-> | ->]; cbn [fold_left fst snd map_get]; keys; reflexivity.
        - eapply tree_parsed; eauto.
        - rewrite <- (bytes_parsed _ _ _ B2 Py). rewrite fold_map_get.
          destruct Q as [-> | ->]; cbn [fold_left fst snd map_get]; keys; reflexivity.
        - rewrite fold_map_get. destruct Q as [-> | ->]; cbn [fold_left fst snd map_get]; keys; reflexivity. }
      destruct Or as [-> | ->].
      * inversion F as [|? [ka va] ? r1 [K1 P1] F1]; subst. inversion F1 as [|? [kb vb] ? r2 [K2 P2] F2]; subst. inversion F2; subst.
        cbn [fst snd] in *. rewrite (named_key _ _ a ka K1 A1), (named_key _ _ b kb K2 B1) in *.
        apply (Z va vb P1 P2). left. reflexivity.
      * inversion F as [|? [ka va] ? r1 [K1 P1] F1]; subst. inversion F1 as [|? [kb vb] ? r2 [K2 P2] F2]; subst. inversion F2; subst.
        cbn [fst snd] in *. rewrite (named_key _ _ b ka K1 B1), (named_key _ _ a kb K2 A1) in *.
        apply (Z vb va P2 P1). right. reflexivity.
    + apply entries3 in En. destruct En as (a & b & e & [A1 A2] & [B1 B2] & [E1 E2] & Or).
      assert (MD : exists m2, snd e = SMap m2).
      { apply (MF (fst e)); [|exact E1]. rewrite <- surjective_pairing.
        destruct Or as [->|[->|[->|[->|[->| ->]]]]]; simpl; tauto. }
      destruct MD as [m2 MD].
      assert (Z : forall x y z, parsed (snd a) x -> parsed (snd b) y -> parsed (snd e) z ->
        (exists p, In p [ [(bs "tree", x); (bs "signature", y); (bs "delegation", z)];
          [(bs "tree", x); (bs "delegation", z); (bs "signature", y)];
          [(bs "signature", y); (bs "tree", x); (bs "delegation", z)];
          [(bs "signature", y); (bs "delegation", z); (bs "tree", x)];
          [(bs "delegation", z); (bs "tree", x); (bs "signature", y)];
          [(bs "delegation", z); (bs "signature", y); (bs "tree", x)] ] /\ m' = p) ->
        to_certificate (CMap (fold_left (fun a e => map_set (fst e) (snd e) a) m' [])) = Some (mk_cert t s (Some d))).
      { intros x y z Px Py Pz (p & Q & ->). apply to_certificate_of with (tv := x).
        - rewrite fold_map_get. simpl in Q. destruct Q as [<-|[<-|[<-|[<-|[<-|[<-|[]]]]]]]; cbn [fold_left fst snd map_get]; keys; reflexivity.
        - eapply tree_parsed; eauto.
        - rewrite <- (bytes_parsed _ _ _ B2 Py). rewrite fold_map_get.
          simpl in Q. destruct Q as [<-|[<-|[<-|[<-|[<-|[<-|[]]]]]]]; cbn [fold_left fst snd map_get]; keys; reflexivity.
        - rewrite MD in Pz, E2. inversion Pz as [| | | | |? m3 F3]; subst.
          destruct (deleg_parsed _ _ E2 _ F3) as (sa & sc & G1 & G2 & ->). cbn [d_subnet d_cert].
          eexists. split; [|split; [exact G1|exact G2]].
          rewrite fold_map_get. simpl in Q. destruct Q as [<-|[<-|[<-|[<-|[<-|[<-|[]]]]]]]; cbn [fold_left fst snd map_get]; keys; reflexivity. }
      destruct Or as [->|[->|[->|[->|[->| ->]]]]];
        inversion F as [|? [k1 v1] ? r1 [K1 P1] F1]; subst; inversion F1 as [|? [k2 v2] ? r2 [K2 P2] F2]; subst;
        inversion F2 as [|? [k3 v3] ? r3 [K3 P3] F3]; subst; inversion F3; subst; cbn [fst snd] in *.
      * rewrite (named_key _ _ a k1 K1 A1), (named_key _ _ b k2 K2 B1), (named_key _ _ e k3 K3 E1) in *.
        apply (Z v1 v2 v3); auto. eexists. split; [|reflexivity]. simpl. tauto.
      * rewrite (named_key _ _ a k1 K1 A1), (named_key _ _ e k2 K2 E1), (named_key _ _ b k3 K3 B1) in *.
        apply (Z v1 v3 v2); auto. eexists. split; [|reflexivity]. simpl. tauto.
      * rewrite (named_key _ _ b k1 K1 B1), (named_key _ _ a k2 K2 A1), (named_key _ _ e k3 K3 E1) in *.
        apply (Z v2 v1 v3); auto. eexists. split; [|reflexivity]. simpl. tauto.
      * rewrite (named_key _ _ b k1 K1 B1), (named_key _ _ e k2 K2 E1), (named_key _ _ a k3 K3 A1) in *.
        apply (Z v3 v1 v2); auto. eexists. split; [|reflexivity]. simpl. tauto.
      * rewrite (named_key _ _ e k1 K1 E1), (named_key _ _ a k2 K2 A1), (named_key _ _ b k3 K3 B1) in *.
        apply (Z v2 v3 v1); auto. eexists. split; [|reflexivity]. simpl. tauto.
      * rewrite (named_key _ _ e k1 K1 E1), (named_key _ _ b k2 K2 B1), (named_key _ _ a k3 K3 A1) in *.
        apply (Z v3 v2 v1); auto. eexists. split; [|reflexivity]. simpl. tauto.
Qed.
Print Assumptions C75_agrees_with_ic_cbor.

(** The converse fails: ic-cbor ignores extra elements of a node that serde
    rejects; and a delegation written as a sequence is used by serde but
    silently dropped by ic-cbor. *)
Theorem C75_ic_cbor_agrees_with_serde_refuted :
  (exists v c t, parsed v c /\ to_tree c = Some t /\ forall st, de_tree st v = None) /\
  (exists v c ct ct', parsed v c /\ de_certificate SliceStorage v = Some ct /\ to_certificate c = Some ct' /\
     c_deleg ct <> None /\ c_deleg ct' = None).
Proof.
  split.
  - exists (SSeq [SUint 0; SUint 0]), (CArray [CTag TEmpty; CTag TEmpty]), HEmpty. split; [|split; [reflexivity|reflexivity]].
    constructor. repeat constructor.
  - exists (SMap [(SStr true (bs "tree"), SSeq [SUint 0]); (SStr true (bs "signature"), SBytes true []);
      (SStr true (bs "delegation"), SSeq [SBytes true []; SBytes true []])]).
    exists (CMap [(bs "tree", CArray [CTag TEmpty]); (bs "signature", CBytes []); (bs "delegation", CArray [CBytes []; CBytes []])]).
    eexists. eexists. split; [|split; [reflexivity|split; [reflexivity|split; [discriminate|reflexivity]]]].
    apply (PMap _ [(bs "tree", CArray [CTag TEmpty]); (bs "signature", CBytes []); (bs "delegation", CArray [CBytes []; CBytes []])]).
    repeat constructor; try (eexists; reflexivity).
Qed.
Print Assumptions C75_ic_cbor_agrees_with_serde_refuted.

(** C75: the CBOR bytes of the written values (the ones C20 and C21 show ic-cbor
    to read back). *)
Theorem C75_cbor_bytes :
  (forall t, cbor_of (ser_tree t) = enc_tree t) /\ (forall c, cbor_of (ser_certificate c) = enc_cert c).
Proof.
  assert (Tr : forall t, cbor_of (ser_tree t) = enc_tree t).
  { induction t; cbn [ser_tree cbor_of flat_map enc_tree length]; rewrite ?app_nil_r; repeat match goal with X : cbor_of _ = _ |- _ => rewrite X; clear X end; reflexivity. }
  split; [exact Tr|]. intros [t s [[a b]|]]; unfold ser_certificate, ser_delegation, enc_cert;
    cbn [c_tree c_sig c_deleg d_subnet d_cert app map cbor_of flat_map length fst snd]; rewrite ?Tr, ?app_nil_r, <- ?app_assoc; reflexivity.
Qed.
Print Assumptions C75_cbor_bytes.

(** A concrete certificate with labels, values, a pruned node and a delegation. *)
Definition ex_serde : certificate :=
  mk_cert (HFork (HLabeled (bs "time") (HLeaf (bs "1"))) (HPruned (repeat x00 32))) (bs "sig") (Some (mk_deleg (bs "net") (bs "inner"))).
Example C75_ex : hashes32 (c_tree ex_serde) /\ map_form (ser_certificate ex_serde) /\ has_pruned (c_tree ex_serde) = true.
Proof.
  split; [simpl; auto|]. split; [|reflexivity]. eexists. split; [reflexivity|].
  intros k x I. simpl in I. destruct I as [I|[I|[I|[]]]]; injection I as <- <-; intro Z; inversion Z; eexists; reflexivity.
Qed.
