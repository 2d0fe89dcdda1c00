(** Proofs about the CBOR parser. *)
From Coq Require Import List Arith NArith ZArith Lia Bool.
From Verif Require Import Bytes HashTree Utf8 Cbor.
Import ListNotations.
Local Open Scope N_scope.

Lemma be_int_app a b : be_int (a ++ [b]) = be_int a * 256 + b2n b.
Proof. unfold be_int. rewrite fold_left_app. reflexivity. Qed.
Lemma be_int_enc k : forall n, n < 256 ^ N.of_nat k -> be_int (be_enc k n) = n.
Proof.
  induction k as [|k IH]; intros n L; [change (0 = n); change (n < 1) in L; lia|]. cbn [be_enc]. rewrite be_int_app, b2n_n2b.
  rewrite IH.
  - rewrite (N.div_mod n 256) at 3 by lia. lia.
  - apply N.div_lt_upper_bound; [lia|]. rewrite Nat2N.inj_succ, N.pow_succ_r' in L. exact L.
Qed.
Lemma be_enc_length k : forall n, length (be_enc k n) = k.
Proof. induction k as [|k IH]; intro n; [reflexivity|]. simpl. rewrite app_length, IH. simpl. lia. Qed.

Lemma take_app n a r : N.of_nat (length a) = n -> take n (a ++ r) = Some (a, r).
Proof.
  intros <-. unfold take. rewrite app_length.
  assert (E : N.of_nat (length a) <=? N.of_nat (length a + length r) = true) by (apply N.leb_le; lia).
  rewrite E, Nat2N.id. f_equal. f_equal.
  - rewrite firstn_app, Nat.sub_diag, firstn_all. simpl. apply app_nil_r.
  - rewrite skipn_app, Nat.sub_diag, skipn_all. reflexivity.
Qed.
Lemma take_some n i d r : take n i = Some (d, r) -> i = d ++ r /\ N.of_nat (length d) = n.
Proof.
  unfold take. destruct (n <=? N.of_nat (length i)) eqn:E; [|discriminate]. intro X. injection X as <- <-.
  apply N.leb_le in E. split; [symmetry; apply firstn_skipn|]. rewrite firstn_length. lia.
Qed.
Lemma take_ext n i d r e : take n i = Some (d, r) -> take n (i ++ e) = Some (d, r ++ e).
Proof. intro X. apply take_some in X. destruct X as [-> L]. rewrite <- app_assoc. apply take_app. exact L. Qed.

Lemma head_type major n k : major < 8 -> n < 32 -> k = n2b (32 * major + n) -> cbor_type k = major /\ cbor_info k = n.
Proof.
  intros A B ->. unfold cbor_type, cbor_info. rewrite b2n_n2b_small by lia. split.
  - symmetry. apply (N.div_unique _ _ _ n); lia.
  - symmetry. apply (N.mod_unique _ _ major); lia.
Qed.

(** Every header written by [enc_head] is read back. *)
Lemma head_ok major n r : major < 8 -> n < 2 ^ 64 ->
  exists b tl u, enc_head major n = b :: tl /\ cbor_type b = major /\
    extract_cbor_value (enc_head major n ++ r) = Some (u, r) /\ uval u = n /\ (n <= 255 -> u = U8 n).
Proof.
  intros A B. unfold enc_head.
  assert (G : forall k w (f : N -> cuint), (forall x, uval (f x) = x) -> k < 32 ->
    n < 256 ^ N.of_nat w -> (n <= 255 -> f n = U8 n) ->
    (forall b, cbor_info b = k -> forall i1, extract_cbor_value (b :: i1) = match take (N.of_nat w) i1 with Some (d, i2) => Some (f (be_int d), i2) | None => None end) ->
    exists b tl u, n2b (32 * major + k) :: be_enc w n = b :: tl /\ cbor_type b = major /\
    extract_cbor_value ((n2b (32 * major + k) :: be_enc w n) ++ r) = Some (u, r) /\ uval u = n /\ (n <= 255 -> u = U8 n)).
  { intros k w f F K L Q X. destruct (head_type major k _ A K eq_refl) as [T I].
    eexists _, _, (f n). split; [reflexivity|]. split; [exact T|]. split; [|auto].
    cbn [app]. rewrite (X _ I), take_app by (rewrite be_enc_length; reflexivity).
    rewrite be_int_enc by exact L. reflexivity. }
  destruct (n <=? 23) eqn:E1.
  { apply N.leb_le in E1. destruct (head_type major n _ A ltac:(lia) eq_refl) as [T I].
    eexists _, _, (U8 n). split; [reflexivity|]. split; [exact T|]. split; [|auto].
    unfold extract_cbor_value. cbn [app]. cbv zeta. rewrite I. apply N.leb_le in E1. rewrite E1. reflexivity. }
  apply N.leb_gt in E1.
  destruct (n <=? 255) eqn:E2.
  { apply N.leb_le in E2. apply (G 24 1%nat U8); try (simpl; lia); auto.
    intros b I i1. unfold extract_cbor_value. cbv zeta. rewrite I. reflexivity. }
  apply N.leb_gt in E2.
  destruct (n <=? 65535) eqn:E3.
  { apply N.leb_le in E3. apply (G 25 2%nat U16); try (simpl; lia); auto.
    intros b I i1. unfold extract_cbor_value. cbv zeta. rewrite I. reflexivity. }
  apply N.leb_gt in E3.
  destruct (n <=? 4294967295) eqn:E4.
  { apply N.leb_le in E4. apply (G 26 4%nat U32); try (simpl; lia); auto.
    intros b I i1. unfold extract_cbor_value. cbv zeta. rewrite I. reflexivity. }
  apply N.leb_gt in E4.
  apply (G 27 8%nat U64); try (simpl in *; lia); auto.
  intros b I i1. unfold extract_cbor_value. cbv zeta. rewrite I. reflexivity.
Qed.

Lemma extract_consumes i u r : extract_cbor_value i = Some (u, r) -> exists c, i = c ++ r /\ c <> [].
Proof.
  unfold extract_cbor_value. destruct i as [|b i1]; [discriminate|]. cbv zeta.
  assert (G : forall k (f : N -> cuint), match take k i1 with Some (d, i2) => Some (f (be_int d), i2) | None => None end = Some (u, r) ->
    exists c, b :: i1 = c ++ r /\ c <> []).
  { intros k f. destruct (take k i1) as [[d i2]|] eqn:E; [|discriminate]. intro X; injection X as _ <-.
    apply take_some in E. destruct E as [-> _]. exists (b :: d). split; [reflexivity|discriminate]. }
  destruct (cbor_info b <=? 23). { intro X; injection X as _ <-. exists [b]. split; [reflexivity|discriminate]. }
  destruct (_ =? 24); [apply G|]. destruct (_ =? 25); [apply G|]. destruct (_ =? 26); [apply G|].
  destruct (_ =? 27); [apply G|discriminate].
Qed.
Lemma extract_ext i u r e : extract_cbor_value i = Some (u, r) -> extract_cbor_value (i ++ e) = Some (u, r ++ e).
Proof.
  unfold extract_cbor_value. destruct i as [|b i1]; [discriminate|]. cbv zeta. cbn [app].
  assert (G : forall k (f : N -> cuint), match take k i1 with Some (d, i2) => Some (f (be_int d), i2) | None => None end = Some (u, r) ->
    match take k (i1 ++ e) with Some (d, i2) => Some (f (be_int d), i2) | None => None end = Some (u, r ++ e)).
  { intros k f. destruct (take k i1) as [[d i2]|] eqn:E; [|discriminate]. intro X; injection X as <- <-.
    rewrite (take_ext _ _ _ _ e E). reflexivity. }
  destruct (cbor_info b <=? 23). { intro X; injection X as <- <-. reflexivity. }
  destruct (_ =? 24); [apply G|]. destruct (_ =? 25); [apply G|]. destruct (_ =? 26); [apply G|].
  destruct (_ =? 27); [apply G|discriminate].
Qed.

Section P.
  Variables umod cap_max : N.
  Notation parser := (parser umod cap_max).
  Notation parse_cbor := (parse_cbor umod cap_max).

  Definition consumes {A} (i : bytes) (x : out (A * bytes)) : Prop :=
    match x with OOk (_, r) => exists c, i = c ++ r /\ c <> [] | OFuel => False | _ => True end.
  Definition consumes0 {A} (i : bytes) (x : out (A * bytes)) : Prop :=
    match x with OOk (_, r) => exists c, i = c ++ r | OFuel => False | _ => True end.

  Lemma count_consumes p g n : forall i, (length i < g)%nat ->
    (forall j, (length j <= length i)%nat -> consumes j (p j)) -> consumes0 i (count_loop p g n i).
  Proof.
    revert n. induction g as [|g IH]; intros n i L P; [lia|]. cbn [count_loop].
    destruct (n =? 0); [exists []; reflexivity|].
    generalize (P i (Nat.le_refl _)). destruct (p i) as [[v i1]| | |]; simpl; auto.
    intros (c & -> & D). assert (Lc : (0 < length c)%nat) by (destruct c; [contradiction|simpl; lia]).
    rewrite app_length in L.
    generalize (IH (n - 1) i1 ltac:(lia)). destruct (count_loop p g (n - 1) i1) as [[vs i2]| | |]; simpl; intro Q; auto.
    - destruct Q as [c2 ->]; [intros j Lj; apply P; rewrite app_length; lia|]. exists (c ++ c2). apply app_assoc.
    - apply Q. intros j Lj. apply P. rewrite app_length. lia.
  Qed.
  Lemma key_val_consumes p i : (forall j, (length j <= length i)%nat -> consumes j (p j)) -> consumes i (key_val p i).
  Proof.
    intro P. unfold key_val. generalize (P i (Nat.le_refl _)). destruct (p i) as [[k i1]| | |]; simpl; auto.
    intros (c & -> & D). destruct k; simpl; auto. destruct (utf8_valid b); simpl; auto.
    generalize (P i1 ltac:(rewrite app_length; lia)). destruct (p i1) as [[v i2]| | |]; simpl; auto.
    intros (c2 & -> & D2). exists (c ++ c2). split; [apply app_assoc|]. destruct c; [contradiction|discriminate].
  Qed.
  Lemma map_consumes p g n : forall acc i, (length i < g)%nat ->
    (forall j, (length j <= length i)%nat -> consumes j (p j)) -> consumes0 i (map_loop p g n acc i).
  Proof.
    revert n. induction g as [|g IH]; intros n acc i L P; [lia|]. cbn [map_loop].
    destruct (n =? 0); [exists []; reflexivity|].
    generalize (key_val_consumes p i P). destruct (key_val p i) as [[[k v] i1]| | |]; simpl; auto.
    - intros (c & -> & D). destruct (Nat.eqb _ _); [exact I|].
      assert (Lc : (0 < length c)%nat) by (destruct c; [contradiction|simpl; lia]).
      rewrite app_length in L.
      generalize (IH (n - 1) (map_set k v acc) i1 ltac:(lia)). destruct (map_loop p g (n - 1) _ i1) as [[vs i2]| | |]; simpl; intro Q; auto.
      + destruct Q as [c2 ->]; [intros j Lj; apply P; rewrite app_length; lia|]. exists (c ++ c2). apply app_assoc.
      + apply Q. intros j Lj. apply P. rewrite app_length. lia.
    - intros _. exists []; reflexivity.
  Qed.
  Lemma parser_consumes f : forall i, (length i < f)%nat -> consumes i (parser f i).
  Proof.
    induction f as [|f IH]; intros i L; [lia|]. cbn [Cbor.parser].
    destruct i as [|b i]; [exact I|].
    destruct (extract_cbor_value (b :: i)) as [[u i1]|] eqn:E; [|exact I].
    destruct (extract_consumes _ _ _ E) as (c & Q & D). rewrite Q in *. clear E.
    assert (Lc : (0 < length c)%nat) by (destruct c; [contradiction|simpl; lia]). rewrite app_length in L.
    assert (Z : forall A (x : out (A * bytes)), consumes0 i1 x -> consumes (c ++ i1) x).
    { intros A x. destruct x as [[a r]| | |]; simpl; auto. intros [c2 ->]. exists (c ++ c2).
      split; [apply app_assoc|]. destruct c; [contradiction|discriminate]. }
    assert (W : forall A B (x : out (A * bytes)) (h : A -> B), consumes0 i1 x -> consumes (c ++ i1) (ok (l, i2) <- x; OOk (h l, i2))).
    { intros A B x h X. apply Z. destruct x as [[a r]| | |]; simpl in *; auto. }
    assert (Pf : forall j, (length j <= length i1)%nat -> consumes j (parser f j)) by (intros j Lj; apply IH; lia).
    assert (HB : consumes (c ++ i1) (ok (d, i2) <- of_opt (take (to_usize umod u) i1); OOk (CBytes d, i2))).
    { apply W. destruct (take (to_usize umod u) i1) as [[d i2]|] eqn:E; simpl; auto.
      apply take_some in E. destruct E as [-> _]. exists d; reflexivity. }
    assert (HP : consumes (c ++ i1) (parser f i1)).
    { generalize (Pf i1 (Nat.le_refl _)). destruct (parser f i1) as [[a r]| | |]; simpl; auto. intros (c2 & -> & _).
      exists (c ++ c2). split; [apply app_assoc|]. destruct c; [contradiction|discriminate]. }
    destruct (cbor_type _) as [|p]; [exists c; auto|].
    do 3 (try (destruct p as [p|p|])); auto; try (exists c; auto; fail).
    - destruct (cap_max <? _); [exact I|]. apply W. apply map_consumes; [lia|exact Pf].
    - apply W. apply count_consumes; [lia|exact Pf].
  Qed.

  Lemma parse_cbor_no_fuel i : parse_cbor i <> OFuel.
  Proof.
    unfold Cbor.parse_cbor. generalize (parser_consumes (S (length i)) i (Nat.lt_succ_diag_r _)).
    destruct (parser (S (length i)) i) as [[v [|]]| | |]; simpl; intros; try discriminate. contradiction.
  Qed.

  (** ** Fuel does not matter once it exceeds the input length *)
  Lemma count_fuel p q g : forall h n i, (length i < g)%nat -> (length i < h)%nat ->
    (forall j, (length j <= length i)%nat -> p j = q j) ->
    (forall j, (length j <= length i)%nat -> consumes j (p j)) ->
    count_loop p g n i = count_loop q h n i.
  Proof.
    induction g as [|g IH]; intros h n i L M P C; [lia|]. destruct h as [|h]; [lia|]. cbn [count_loop].
    destruct (n =? 0); [reflexivity|]. rewrite <- (P i) by lia. generalize (C i (Nat.le_refl _)).
    destruct (p i) as [[v i1]| | |]; simpl; auto. intros (c & -> & D).
    assert (Lc : (0 < length c)%nat) by (destruct c; [contradiction|simpl; lia]). rewrite app_length in *.
    rewrite (IH h (n - 1) i1) by (lia || (intros; apply P || apply C; lia)). reflexivity.
  Qed.
  Lemma key_val_fuel p q i :
    (forall j, (length j <= length i)%nat -> p j = q j) ->
    (forall j, (length j <= length i)%nat -> consumes j (p j)) -> key_val p i = key_val q i.
  Proof.
    intros P C. unfold key_val. rewrite <- (P i) by lia. generalize (C i (Nat.le_refl _)).
    destruct (p i) as [[v i1]| | |]; simpl; auto. intros (c & -> & D). rewrite app_length in *.
    rewrite (P i1) by lia. reflexivity.
  Qed.
  Lemma map_fuel p q g : forall h n acc i, (length i < g)%nat -> (length i < h)%nat ->
    (forall j, (length j <= length i)%nat -> p j = q j) ->
    (forall j, (length j <= length i)%nat -> consumes j (p j)) ->
    map_loop p g n acc i = map_loop q h n acc i.
  Proof.
    induction g as [|g IH]; intros h n acc i L M P C; [lia|]. destruct h as [|h]; [lia|]. cbn [map_loop].
    destruct (n =? 0); [reflexivity|]. rewrite <- (key_val_fuel p q i P C).
    generalize (key_val_consumes p i C). destruct (key_val p i) as [[[k v] i1]| | |]; simpl; auto.
    intros (c & -> & D).
    assert (Lc : (0 < length c)%nat) by (destruct c; [contradiction|simpl; lia]). rewrite app_length in *.
    destruct (Nat.eqb _ _); [reflexivity|].
    apply IH; try lia; intros; [apply P|apply C]; lia.
  Qed.
  Lemma parser_fuel f : forall g i, (length i < f)%nat -> (length i < g)%nat -> parser f i = parser g i.
  Proof.
    induction f as [|f IH]; intros g i L M; [lia|]. destruct g as [|g]; [lia|]. cbn [Cbor.parser].
    destruct i as [|b i]; [reflexivity|].
    destruct (extract_cbor_value (b :: i)) as [[u i1]|] eqn:E; [|reflexivity].
    destruct (extract_consumes _ _ _ E) as (c & Q & D). rewrite Q in *. clear E.
    assert (Lc : (0 < length c)%nat) by (destruct c; [contradiction|simpl; lia]). rewrite app_length in *.
    assert (X : forall j, (length j <= length i1)%nat -> parser f j = parser g j) by (intros; apply IH; lia).
    assert (Y : forall j, (length j <= length i1)%nat -> consumes j (parser f j)) by (intros; apply parser_consumes; lia).
    destruct (cbor_type b) as [|p]; [reflexivity|].
    do 3 (try (destruct p as [p|p|])); auto.
    - rewrite (map_fuel (parser f) (parser g) _ (S (length i1))) by (assumption || lia). reflexivity.
    - rewrite (count_fuel (parser f) (parser g) _ (S (length i1))) by (assumption || lia). reflexivity.
  Qed.

  (** ** Stability under extension, in the absence of maps *)
  Fixpoint nomap (v : cval) : bool :=
    match v with CArray l => forallb nomap l | CMap _ => false | _ => true end.

  Lemma count_ext p g : forall h n i vs r e, (length i < g)%nat -> (length (i ++ e) < h)%nat ->
    (forall j, (length j <= length i)%nat -> consumes j (p j)) ->
    (forall j v r, (length j <= length i)%nat -> p j = OOk (v, r) -> nomap v = true -> p (j ++ e) = OOk (v, r ++ e)) ->
    count_loop p g n i = OOk (vs, r) -> forallb nomap vs = true -> count_loop p h n (i ++ e) = OOk (vs, r ++ e).
  Proof.
    induction g as [|g IH]; intros h n i vs r e L M C P E N; [lia|]. destruct h as [|h]; [lia|].
    cbn [count_loop] in *. destruct (n =? 0). { injection E as <- <-. reflexivity. }
    generalize (C i (Nat.le_refl _)). destruct (p i) as [[v i1]| | |] eqn:Ep; simpl in E; try discriminate.
    intros (c & -> & D). destruct (count_loop p g (n - 1) i1) as [[vs' i2]| | |] eqn:Ec; simpl in E; try discriminate.
    injection E as <- <-. simpl in N. apply andb_true_iff in N. destruct N as [N1 N2].
    rewrite (P _ _ _ (Nat.le_refl _) Ep N1). simpl.
    assert (Lc : (0 < length c)%nat) by (destruct c; [contradiction|simpl; lia]). rewrite !app_length in *.
    rewrite (IH h (n - 1) i1 vs' i2 e); auto; try (rewrite ?app_length; lia).
    - intros j Lj. apply C. rewrite ?app_length. lia.
    - intros j v' r' Lj. apply P. rewrite ?app_length. lia.
  Qed.
  Lemma parser_ext f : forall i v r e, (length i < f)%nat ->
    parser f i = OOk (v, r) -> nomap v = true -> parser (f + length e) (i ++ e) = OOk (v, r ++ e).
  Proof.
    induction f as [|f IH]; intros i v r e L E N; [lia|]. cbn [Nat.add Cbor.parser] in *.
    destruct i as [|b i]; [discriminate|]. cbn [app].
    destruct (extract_cbor_value (b :: i)) as [[u i1]|] eqn:X; [|discriminate].
    generalize (extract_ext _ _ _ e X). cbn [app]. intros ->.
    destruct (extract_consumes _ _ _ X) as (c & Q & D). clear X. assert (L0 := f_equal (@length byte) Q). rewrite app_length in L0.
    assert (Lc : (0 < length c)%nat) by (destruct c; [contradiction|simpl; lia]).
    destruct (cbor_type b) as [|p]; [injection E as <- <-; reflexivity|].
    assert (HB : forall v r, (ok (d, i2) <- of_opt (take (to_usize umod u) i1); OOk (CBytes d, i2)) = OOk (v, r) ->
      (ok (d, i2) <- of_opt (take (to_usize umod u) (i1 ++ e)); OOk (CBytes d, i2)) = OOk (v, r ++ e)).
    { intros v0 r0. destruct (take (to_usize umod u) i1) as [[d i2]|] eqn:T; simpl; [|discriminate].
      intro Y; injection Y as <- <-. rewrite (take_ext _ _ _ _ e T). reflexivity. }
    do 3 (try (destruct p as [p|p|])); auto; try (injection E as <- <-; reflexivity); try (apply IH; auto; lia).
    - exfalso. destruct (cap_max <? _); [discriminate|].
      destruct (map_loop _ _ _ _ _) as [[m i2]| | |]; simpl in E; try discriminate.
      injection E as <- <-. discriminate.
    - destruct (count_loop _ _ _ _) as [[l i2]| | |] eqn:Ec; simpl in E; try discriminate.
      injection E as <- <-. simpl in N.
      assert (Ec' : count_loop (parser (f + length e)) (S (length i1)) (to_usize umod u) i1 = OOk (l, i2)).
      { rewrite <- Ec. apply count_fuel; try lia; intros j Lj; [apply parser_fuel|apply parser_consumes]; lia. }
      rewrite (count_ext _ _ (S (length (i1 ++ e))) _ _ _ _ e) with (5 := Ec'); auto.
      + intros j Lj. apply parser_consumes. lia.
      + intros j v0 r0 Lj Ej Nj. 
        assert (Ej' : parser f j = OOk (v0, r0)) by (rewrite <- Ej; apply parser_fuel; lia).
        apply IH; auto. lia.
  Qed.

  (** ** Round trips *)
  Hypothesis umod64 : umod <= 2 ^ 64.
  Definition encodes (e : bytes) (v : cval) : Prop :=
    forall f r, (length (e ++ r) < f)%nat -> parser f (e ++ r) = OOk (v, r).

  Lemma encodes_nonempty e v : encodes e v -> e <> [].
  Proof. clear umod64.
    intros X ->. specialize (X 1%nat [] (Nat.lt_0_succ _)). discriminate.
  Qed.
  Lemma encodes_parse e v : encodes e v -> parse_cbor e = OOk v.
  Proof. clear umod64.
    intro X. unfold Cbor.parse_cbor. specialize (X (S (length e)) []). rewrite app_nil_r in X.
    rewrite X by lia. reflexivity.
  Qed.

  (** one parser step on a header written by [enc_head] *)
  Lemma encodes_self e v : encodes e v -> encodes (self_describe ++ e) v.
  Proof. clear umod64.
    intros X f r L. destruct f as [|f]; [lia|].
    change ((self_describe ++ e) ++ r) with (xd9 :: xd9 :: xf7 :: (e ++ r)) in *. cbn [Cbor.parser].
    change (extract_cbor_value (xd9 :: xd9 :: xf7 :: (e ++ r))) with
      (match take 2 (xd9 :: xf7 :: (e ++ r)) with Some (d, i2) => Some (U16 (be_int d), i2) | None => None end).
    change (xd9 :: xf7 :: (e ++ r)) with ([xd9; xf7] ++ (e ++ r)) at 1.
    rewrite take_app by reflexivity.
    change (cbor_type xd9) with 6. cbn iota. apply X. simpl in L. lia.
  Qed.
  Lemma encodes_tag n : n <= 4 -> encodes (enc_head 0 n)
    (CTag (match n with 0 => TEmpty | 1 => TFork | 2 => TLabelled | 3 => TLeaf | _ => TPruned end)).
  Proof.
    intros A f r L. destruct f as [|f]; [lia|].
    destruct (head_ok 0 n r ltac:(lia) ltac:(lia)) as (b & tl & u & E & T & X & _ & U).
    cbn [Cbor.parser]. rewrite X. rewrite E. cbn [app]. rewrite T, U by lia.
    assert (N : n = 0 \/ n = 1 \/ n = 2 \/ n = 3 \/ n = 4) by lia.
    destruct N as [->|[->|[->|[->| ->]]]]; reflexivity.
  Qed.
  Lemma encodes_bytes2 b : N.of_nat (length b) < umod -> encodes (enc_bytes b) (CBytes b).
  Proof.
    intros A f r L. destruct f as [|f]; [lia|]. unfold enc_bytes in *. rewrite <- app_assoc in *.
    destruct (head_ok 2 (N.of_nat (length b)) (b ++ r) ltac:(lia) ltac:(lia)) as (b0 & tl & u & E & T & X & U & _).
    cbn [Cbor.parser]. rewrite X. rewrite E. cbn [app]. rewrite T. cbn iota.
    unfold to_usize. rewrite U, N.mod_small by exact A. rewrite take_app by reflexivity. reflexivity.
  Qed.
  Lemma encodes_text b : N.of_nat (length b) < umod -> encodes (enc_text b) (CBytes b).
  Proof.
    intros A f r L. destruct f as [|f]; [lia|]. unfold enc_text in *. rewrite <- app_assoc in *.
    destruct (head_ok 3 (N.of_nat (length b)) (b ++ r) ltac:(lia) ltac:(lia)) as (b0 & tl & u & E & T & X & U & _).
    cbn [Cbor.parser]. rewrite X. rewrite E. cbn [app]. rewrite T. cbn iota.
    unfold to_usize. rewrite U, N.mod_small by exact A. rewrite take_app by reflexivity. reflexivity.
  Qed.

  Lemma count_encodes f es vs : Forall2 encodes es vs -> forall g r,
    (length (concat es ++ r) < f)%nat -> (length (concat es ++ r) < g)%nat ->
    count_loop (parser f) g (N.of_nat (length es)) (concat es ++ r) = OOk (vs, r).
  Proof.
    intro F. induction F as [|e v es vs X F IH]; intros g r L M.
    - destruct g; reflexivity.
    - destruct g as [|g]; [lia|]. cbn [count_loop length concat].
      destruct (N.eqb_spec (N.of_nat (S (length es))) 0) as [Y|_]; [lia|].
      cbn [concat] in *. rewrite <- app_assoc in *. rewrite X by exact L. cbn [out_bind].
      assert (D := encodes_nonempty e v X).
      assert (Le : (0 < length e)%nat) by (destruct e; [contradiction|simpl; lia]).
      rewrite app_length in L, M.
      replace (N.of_nat (S (length es)) - 1) with (N.of_nat (length es)) by lia.
      rewrite IH by lia. reflexivity.
  Qed.
  Lemma encodes_array es vs : Forall2 encodes es vs -> N.of_nat (length es) < umod ->
    encodes (enc_head 4 (N.of_nat (length es)) ++ concat es) (CArray vs).
  Proof.
    intros F A f r L. destruct f as [|f]; [lia|]. rewrite <- app_assoc in *.
    destruct (head_ok 4 (N.of_nat (length es)) (concat es ++ r) ltac:(lia) ltac:(lia)) as (b0 & tl & u & E & T & X & U & _).
    rewrite app_length in L. assert (Lh : (0 < length (enc_head 4 (N.of_nat (length es))))%nat) by (rewrite E; simpl; lia).
    cbn [Cbor.parser]. rewrite X. rewrite E. cbn [app]. rewrite T. cbn iota.
    unfold to_usize. rewrite U, N.mod_small by exact A. rewrite (count_encodes f es vs F) by lia. reflexivity.
  Qed.

  Definition entry_ok (e : bytes * bytes * cval * bytes) : Prop :=
    let '(ke, k, v, ve) := e in encodes ke (CBytes k) /\ utf8_valid k = true /\ encodes ve v.
  Definition entry_enc (e : bytes * bytes * cval * bytes) : bytes := let '(ke, k, v, ve) := e in ke ++ ve.
  Definition entry_set (m : list (bytes * cval)) (e : bytes * bytes * cval * bytes) : list (bytes * cval) :=
    let '(ke, k, v, ve) := e in map_set k v m.
  Lemma map_encodes f es : Forall entry_ok es -> forall g acc r,
    (length (concat (map entry_enc es) ++ r) < f)%nat -> (length (concat (map entry_enc es) ++ r) < g)%nat ->
    map_loop (parser f) g (N.of_nat (length es)) acc (concat (map entry_enc es) ++ r) = OOk (fold_left entry_set es acc, r).
  Proof.
    intro F. induction F as [|[[[ke k] v] ve] es X F IH]; intros g acc r L M.
    - destruct g; reflexivity.
    - destruct g as [|g]; [lia|]. cbn [map_loop length].
      destruct (N.eqb_spec (N.of_nat (S (length es))) 0) as [Y|_]; [lia|].
      destruct X as (Xk & Xu & Xv). cbn [map concat entry_enc fold_left entry_set] in *. rewrite <- !app_assoc in *.
      unfold key_val. rewrite Xk by exact L. cbn [out_bind]. rewrite Xu.
      rewrite app_length in L, M. rewrite Xv by lia. cbn [out_bind].
      assert (D := encodes_nonempty _ _ Xk).
      assert (Le : (0 < length ke)%nat) by (destruct ke; [contradiction|simpl; lia]).
      rewrite app_length in L, M. destruct (Nat.eqb_spec (length (concat (map entry_enc es) ++ r)) (length (ke ++ ve ++ concat (map entry_enc es) ++ r))) as [Y|_].
      { rewrite !app_length in Y. lia. }
      replace (N.of_nat (S (length es)) - 1) with (N.of_nat (length es)) by lia.
      apply IH; lia.
  Qed.
  Lemma encodes_map es : Forall entry_ok es -> N.of_nat (length es) < umod -> N.of_nat (length es) <= cap_max ->
    encodes (enc_head 5 (N.of_nat (length es)) ++ concat (map entry_enc es)) (CMap (fold_left entry_set es [])).
  Proof.
    intros F A K f r L. destruct f as [|f]; [lia|]. rewrite <- app_assoc in *.
    destruct (head_ok 5 (N.of_nat (length es)) (concat (map entry_enc es) ++ r) ltac:(lia) ltac:(lia)) as (b0 & tl & u & E & T & X & U & _).
    rewrite app_length in L. assert (Lh : (0 < length (enc_head 5 (N.of_nat (length es))))%nat) by (rewrite E; simpl; lia).
    cbn [Cbor.parser]. rewrite X. rewrite E. cbn [app]. rewrite T. cbn iota.
    unfold to_usize. rewrite U, N.mod_small by exact A.
    destruct (N.ltb_spec cap_max (N.of_nat (length es))) as [Y|_]; [lia|].
    rewrite (map_encodes f es F) by lia. reflexivity.
  Qed.

  (** hash trees *)
  Fixpoint tree_val (t : htree) : cval :=
    match t with
    | HEmpty => CArray [CTag TEmpty]
    | HFork l r => CArray [CTag TFork; tree_val l; tree_val r]
    | HLabeled k t => CArray [CTag TLabelled; CBytes k; tree_val t]
    | HLeaf v => CArray [CTag TLeaf; CBytes v]
    | HPruned h => CArray [CTag TPruned; CBytes h]
    end.
  (** all byte strings in the tree are shorter than [umod]; hashes are 32 bytes *)
  Fixpoint fits (t : htree) : Prop :=
    match t with
    | HEmpty => True
    | HFork l r => fits l /\ fits r
    | HLabeled k t => N.of_nat (length k) < umod /\ fits t
    | HLeaf v => N.of_nat (length v) < umod
    | HPruned h => length h = 32%nat
    end.
  Hypothesis umod_min : 32 < umod.
  Lemma encodes_tree t : fits t -> encodes (enc_tree t) (tree_val t).
  Proof.
    assert (A : forall es vs, Forall2 encodes es vs -> N.of_nat (length es) < 4 ->
      encodes (enc_head 4 (N.of_nat (length es)) ++ concat es) (CArray vs)) by (intros; apply encodes_array; [assumption|lia]).
    induction t as [|l IHl r IHr|k t IH|v|h]; intro F; cbn [fits enc_tree tree_val] in *.
    - apply (A [enc_head 0 0] [CTag TEmpty]); [|simpl; lia].
      constructor; [apply (encodes_tag 0); lia|constructor].
    - destruct F as [Fl Fr]. generalize (A [enc_head 0 1; enc_tree l; enc_tree r] [CTag TFork; tree_val l; tree_val r]).
      cbn [concat length]. rewrite app_nil_r. intro X; apply X; [|simpl; lia].
      constructor; [apply (encodes_tag 1); lia|]. constructor; [auto|]. constructor; [auto|constructor].
    - destruct F as [Fk Ft]. generalize (A [enc_head 0 2; enc_bytes k; enc_tree t] [CTag TLabelled; CBytes k; tree_val t]).
      cbn [concat length]. rewrite app_nil_r. intro X; apply X; [|simpl; lia].
      constructor; [apply (encodes_tag 2); lia|]. constructor; [apply encodes_bytes2; auto|]. constructor; [auto|constructor].
    - generalize (A [enc_head 0 3; enc_bytes v] [CTag TLeaf; CBytes v]).
      cbn [concat length]. rewrite app_nil_r. intro X; apply X; [|simpl; lia].
      constructor; [apply (encodes_tag 3); lia|]. constructor; [apply encodes_bytes2; auto|constructor].
    - generalize (A [enc_head 0 4; enc_bytes h] [CTag TPruned; CBytes h]).
      cbn [concat length]. rewrite app_nil_r. intro X; apply X; [|simpl; lia].
      constructor; [apply (encodes_tag 4); lia|]. constructor; [apply encodes_bytes2; rewrite F; lia|constructor].
  Qed.
  Lemma to_tree_val t : fits t -> to_tree (tree_val t) = Some t.
  Proof. clear umod64 umod_min.
    induction t as [|l IHl r IHr|k t IH|v|h]; intro F; cbn [fits tree_val to_tree] in *; auto.
    - rewrite IHl, IHr by tauto. reflexivity.
    - rewrite IH by tauto. reflexivity.
    - rewrite F. reflexivity.
  Qed.

  Lemma cert_roundtrip_enc c : fits (c_tree c) -> N.of_nat (length (c_sig c)) < umod ->
    (forall d, c_deleg c = Some d -> N.of_nat (length (d_subnet d)) < umod /\ N.of_nat (length (d_cert d)) < umod) ->
    3 <= cap_max -> exists v, encodes (enc_cert c) v /\ to_certificate v = Some c.
  Proof.
    intros Ft Fs Fd K. destruct c as [t s d]. unfold enc_cert. simpl c_tree in *. simpl c_sig in *. simpl c_deleg in *.
    assert (Tx : forall b, N.of_nat (length b) <= 32 -> encodes (enc_text b) (CBytes b)) by (intros; apply encodes_text; lia).
    set (e1 := (enc_text (bs "tree"), bs "tree", tree_val t, enc_tree t)).
    set (e2 := (enc_text (bs "signature"), bs "signature", CBytes s, enc_bytes s)).
    assert (O1 : entry_ok e1) by (split; [apply Tx; discriminate|split; [reflexivity|apply encodes_tree; exact Ft]]).
    assert (O2 : entry_ok e2) by (split; [apply Tx; discriminate|split; [reflexivity|apply encodes_bytes2; exact Fs]]).
    destruct d as [[a c]|].
    - destruct (Fd _ eq_refl) as [Fa Fc]. simpl in Fa, Fc. cbn [d_subnet d_cert].
      set (g1 := (enc_text (bs "subnet_id"), bs "subnet_id", CBytes a, enc_bytes a)).
      set (g2 := (enc_text (bs "certificate"), bs "certificate", CBytes c, enc_bytes c)).
      assert (G : encodes (enc_head 5 2 ++ concat (map entry_enc [g1; g2])) (CMap (fold_left entry_set [g1; g2] []))).
      { apply (encodes_map [g1; g2]); [|simpl; lia|simpl; lia].
        constructor; [|constructor; [|constructor]]; (split; [apply Tx; discriminate|split; [reflexivity|apply encodes_bytes2; assumption]]). }
      set (e3 := (enc_text (bs "delegation"), bs "delegation", CMap (fold_left entry_set [g1; g2] []), enc_head 5 2 ++ concat (map entry_enc [g1; g2]))).
      assert (O3 : entry_ok e3) by (split; [apply Tx; discriminate|split; [reflexivity|exact G]]).
      exists (CMap (fold_left entry_set [e1; e2; e3] [])). split.
      + generalize (encodes_map [e1; e2; e3]). cbn [map concat entry_enc e1 e2 e3 length app g1 g2].
        rewrite ?app_nil_r, <- ?app_assoc. intro X. apply X; [auto|simpl; lia|simpl; lia].
      + unfold e1, e2, e3, g1, g2. cbn [fold_left entry_set to_certificate].
        change (map_get (bs "tree") _) with (Some (tree_val t)). cbv iota beta. rewrite to_tree_val by exact Ft. reflexivity.
    - exists (CMap (fold_left entry_set [e1; e2] [])). split.
      + generalize (encodes_map [e1; e2]). cbn [map concat entry_enc e1 e2 length app].
        rewrite ?app_nil_r, <- ?app_assoc. intro X. apply X; [auto|simpl; lia|simpl; lia].
      + unfold e1, e2. cbn [fold_left entry_set to_certificate].
        change (map_get (bs "tree") _) with (Some (tree_val t)). cbv iota beta. rewrite to_tree_val by exact Ft. reflexivity.
  Qed.

  Lemma strings_roundtrip l : Forall (fun s => utf8_valid s = true /\ N.of_nat (length s) < umod) l ->
    N.of_nat (length l) < umod -> encodes (enc_strings l) (CArray (map CBytes l)) /\ to_strings (map CBytes l) = OOk l.
  Proof.
    intros F A. split.
    - unfold enc_strings. rewrite flat_map_concat_map. rewrite <- (map_length enc_text l). apply encodes_array.
      + clear A. induction F as [|s l [_ X] F IH]; constructor; auto. apply encodes_text. exact X.
      + rewrite map_length. exact A.
    - clear A. induction F as [|s l [X _] F IH]; [reflexivity|]. cbn [map to_strings]. rewrite X, IH. reflexivity.
  Qed.
End P.
