(** For C156: what a reader with 64-bit lengths accepts, one with narrower lengths reads alike. *)
From Coq Require Import List Arith NArith Lia Bool.
From Verif Require Import Bytes Utf8 HashTree Cbor CborProofs.
Import ListNotations.
Local Open Scope N_scope.

Lemma be_int_bound l : forall n, fold_left (fun a b => a * 256 + b2n b) l n < (n + 1) * 256 ^ N.of_nat (length l).
Proof.
  induction l as [|b l IH]; intro n; [cbn; lia|]. cbn [fold_left length]. rewrite Nat2N.inj_succ, N.pow_succ_r'.
  assert (B := b2n_lt b). specialize (IH (n * 256 + b2n b)).
  eapply N.lt_le_trans; [exact IH|]. rewrite N.mul_assoc. apply N.mul_le_mono_r. lia.
Qed.
Lemma extract_below i u r : extract_cbor_value i = Some (u, r) -> uval u < 2 ^ 64.
Proof.
  unfold extract_cbor_value. destruct i as [|b i1]; [discriminate|]. cbv zeta.
  assert (G : forall k (f : N -> cuint), k <= 8 -> (forall n, uval (f n) = n) ->
    match take k i1 with Some (d, i2) => Some (f (be_int d), i2) | None => None end = Some (u, r) -> uval u < 2 ^ 64).
  { intros k f K F. destruct (take k i1) as [[d i2]|] eqn:E; [|discriminate]. intro X; injection X as <- _. rewrite F.
    apply take_some in E. destruct E as [_ E]. unfold be_int. eapply N.lt_le_trans; [apply be_int_bound|]. rewrite E. change (2 ^ 64) with (256 ^ 8).
    rewrite N.mul_1_l. apply N.pow_le_mono_r; [discriminate|exact K]. }
  destruct (N.leb_spec (cbor_info b) 23) as [L|_]. { intro X; injection X as <- _. cbn [uval]. eapply N.le_lt_trans; [exact L|reflexivity]. }
  destruct (_ =? 24); [apply G; [discriminate|reflexivity]|]. destruct (_ =? 25); [apply G; [discriminate|reflexivity]|].
  destruct (_ =? 26); [apply G; [discriminate|reflexivity]|]. destruct (_ =? 27); [apply G; [discriminate|reflexivity]|discriminate].
Qed.

Section Width.
  Variables (narrow cap_max : N).
  Notation W := (parser (2 ^ 64) cap_max).
  Notation P := (parser narrow cap_max).
  Hypothesis CM : cap_max < narrow.

  (** [i] is a sequence of items, for the reader with 64-bit lengths *)
  Inductive items : bytes -> Prop :=
  | INil : items []
  | ICons f i v r : (length i < f)%nat -> W f i = OOk (v, r) -> items r -> items i.
  Lemma item_at f i v r : (length i < f)%nat -> W f i = OOk (v, r) -> (length r < length i)%nat.
  Proof. intros L E. generalize (parser_consumes (2 ^ 64) cap_max f i L). rewrite E. intros (c & -> & D). rewrite app_length. destruct c; [contradiction|cbn; lia]. Qed.
  Lemma items_inv f i : items i -> (length i < f)%nat -> i = [] \/ exists v r, W f i = OOk (v, r) /\ items r.
  Proof. intros [|g j v r L E I] M; [left; reflexivity|]. right. exists v, r. split; [|exact I]. rewrite <- E. apply parser_fuel; assumption. Qed.
  Lemma nothing f : W f [] = OErr \/ W f [] = OFuel. Proof. destruct f; [right|left]; reflexivity. Qed.

  Lemma count_items f g : forall n i l r, (length i < f)%nat -> count_loop (W f) g n i = OOk (l, r) -> items r -> items i.
  Proof.
    induction g as [|g IH]; intros n i l r L E I; cbn [count_loop] in E.
    - destruct (n =? 0); [|discriminate]. injection E as _ <-. exact I.
    - destruct (n =? 0); [injection E as _ <-; exact I|]. destruct (W f i) as [[v i1]| | |] eqn:E1; try discriminate. cbn [out_bind] in E.
      destruct (count_loop (W f) g (n - 1) i1) as [[vs i2]| | |] eqn:E2; try discriminate. cbn [out_bind] in E. injection E as _ <-.
      assert (L1 := item_at _ _ _ _ L E1). apply (ICons f i v i1 L E1). apply (IH (n - 1) i1 vs i2 ltac:(lia) E2 I).
  Qed.
  Lemma count_number f g : forall n i l r, count_loop (W f) g n i = OOk (l, r) -> n <= N.of_nat g.
  Proof.
    induction g as [|g IH]; intros n i l r E; cbn [count_loop] in E; destruct (N.eqb_spec n 0) as [->|N]; try lia; [discriminate|].
    destruct (W f i) as [[v i1]| | |]; try discriminate. cbn [out_bind] in E.
    destruct (count_loop (W f) g (n - 1) i1) as [[vs i2]| | |] eqn:E2; try discriminate. apply IH in E2. lia.
  Qed.
  Lemma key_val_ok f i k v r : key_val (W f) i = OOk (k, v, r) -> exists i1, W f i = OOk (CBytes k, i1) /\ utf8_valid k = true /\ W f i1 = OOk (v, r).
  Proof.
    unfold key_val. destruct (W f i) as [[x i1]| | |]; try discriminate. cbn [out_bind]. destruct x as [| |s| | |]; try discriminate.
    destruct (utf8_valid s) eqn:U; [|discriminate]. destruct (W f i1) as [[v' i2]| | |] eqn:E2; try discriminate. cbn [out_bind]. intro X. injection X as <- <- <-. eauto.
  Qed.
  Lemma map_items f g : forall n acc i m r, (length i < f)%nat -> map_loop (W f) g n acc i = OOk (m, r) -> items r -> items i.
  Proof.
    induction g as [|g IH]; intros n acc i m r L E I; cbn [map_loop] in E.
    - destruct (n =? 0); [|discriminate]. injection E as _ <-. exact I.
    - destruct (n =? 0); [injection E as _ <-; exact I|]. destruct (key_val (W f) i) as [[[k v] i2]| | |] eqn:E1; try discriminate.
      + destruct (Nat.eqb _ _); [discriminate|]. apply key_val_ok in E1. destruct E1 as (i1 & A & _ & B).
        assert (L1 := item_at _ _ _ _ L A). assert (L2 := item_at f i1 _ _ ltac:(lia) B).
        apply (ICons f i _ i1 L A). apply (ICons f i1 v i2 ltac:(lia) B). apply (IH (n - 1) (map_set k v acc) i2 m r ltac:(lia) E I).
      + injection E as _ <-. exact I.
  Qed.

  Section Same.
    Variable f : nat.
    Hypothesis SAME : forall i v r, (length i < f)%nat -> N.of_nat (length i) < narrow -> W f i = OOk (v, r) -> items r -> P f i = OOk (v, r).
    Lemma count_same g : forall n i l r, (length i < f)%nat -> N.of_nat (length i) < narrow -> count_loop (W f) g n i = OOk (l, r) -> items r -> count_loop (P f) g n i = OOk (l, r).
    Proof.
      induction g as [|g IH]; intros n i l r L M E I; cbn [count_loop] in *; [exact E|].
      destruct (n =? 0); [exact E|]. destruct (W f i) as [[v i1]| | |] eqn:E1; try discriminate. cbn [out_bind] in E.
      destruct (count_loop (W f) g (n - 1) i1) as [[vs i2]| | |] eqn:E2; try discriminate. cbn [out_bind] in E. injection E as <- <-.
      assert (L1 := item_at _ _ _ _ L E1). assert (I1 : items i1) by exact (count_items f g (n - 1) i1 vs i2 ltac:(lia) E2 I).
      rewrite (SAME i v i1 L M E1 I1). cbn [out_bind]. rewrite (IH (n - 1) i1 vs i2 ltac:(lia) ltac:(lia) E2 I). reflexivity.
    Qed.
    Lemma key_val_same i : (0 < f)%nat -> (length i < f)%nat -> N.of_nat (length i) < narrow ->
      (forall k v r, key_val (W f) i = OOk (k, v, r) -> items r -> key_val (P f) i = OOk (k, v, r)) /\
      (key_val (W f) i = OErr -> items i -> key_val (P f) i = OErr).
    Proof.
      intros F0 L M. split.
      - intros k v r E I. apply key_val_ok in E. destruct E as (i1 & A & U & B). assert (L1 := item_at _ _ _ _ L A).
        assert (I1 : items i1) by exact (ICons f i1 v r ltac:(lia) B I). unfold key_val. rewrite (SAME _ _ _ L M A I1). cbn [out_bind]. rewrite U.
        rewrite (SAME i1 v r ltac:(lia) ltac:(lia) B I). reflexivity.
      - intros E I. assert (PN : P f [] = OErr) by (destruct f; [lia|reflexivity]).
        destruct (items_inv f i I L) as [->|(x & i1 & A & I1)]; [unfold key_val; rewrite PN; reflexivity|].
        unfold key_val in *. rewrite A in E. rewrite (SAME _ _ _ L M A I1). cbn [out_bind] in *. destruct x as [| |s| | |]; try reflexivity.
        destruct (utf8_valid s); [|reflexivity]. assert (L1 := item_at _ _ _ _ L A).
        destruct (items_inv f i1 I1 ltac:(lia)) as [->|(v & i2 & B & _)]; [rewrite PN; reflexivity|]. rewrite B in E. discriminate E.
    Qed.
    Lemma map_same g : forall n acc i m r, (0 < f)%nat -> (length i < f)%nat -> N.of_nat (length i) < narrow -> map_loop (W f) g n acc i = OOk (m, r) -> items r -> map_loop (P f) g n acc i = OOk (m, r).
    Proof.
      induction g as [|g IH]; intros n acc i m r F0 L M E I; cbn [map_loop] in *; [exact E|].
      destruct (n =? 0); [exact E|]. destruct (key_val_same i F0 L M) as [A B].
      destruct (key_val (W f) i) as [[[k v] i2]| | |] eqn:E1; try discriminate.
      - destruct (Nat.eqb (length i2) (length i)) eqn:Q; [discriminate|]. assert (K := key_val_ok _ _ _ _ _ E1). destruct K as (i1 & K1 & _ & K2).
        assert (L1 := item_at _ _ _ _ L K1). assert (L2 := item_at f i1 _ _ ltac:(lia) K2).
        assert (I2 : items i2) by exact (map_items f g (n - 1) (map_set k v acc) i2 m r ltac:(lia) E I).
        rewrite (A k v i2 eq_refl I2), Q. apply IH; try assumption; lia.
      - injection E as <- <-. rewrite (B eq_refl I). reflexivity.
    Qed.
  End Same.

  Lemma usize_wide i u r : extract_cbor_value i = Some (u, r) -> to_usize (2 ^ 64) u = uval u.
  Proof. intro E. apply N.mod_small. exact (extract_below _ _ _ E). Qed.
  Theorem parser_same f : forall i v r, (length i < f)%nat -> N.of_nat (length i) < narrow -> W f i = OOk (v, r) -> items r -> P f i = OOk (v, r).
  Proof.
    induction f as [|f IH]; intros i v r L M E I; [lia|]. cbn [Cbor.parser] in *. destruct i as [|b i]; [discriminate|].
    destruct (extract_cbor_value (b :: i)) as [[u i1]|] eqn:X; [|discriminate].
    assert (LI : (length i1 < length (b :: i))%nat). { destruct (extract_consumes _ _ _ X) as (c & -> & D). rewrite app_length. destruct c; [contradiction|cbn; lia]. }
    rewrite (usize_wide _ _ _ X) in E.
    assert (T : uval u <= N.of_nat (length i1) + 1 -> to_usize narrow u = uval u) by (intro Z; apply N.mod_small; lia).
    assert (HB : (ok (d, i2) <- of_opt (take (uval u) i1); OOk (CBytes d, i2)) = OOk (v, r) -> (ok (d, i2) <- of_opt (take (to_usize narrow u) i1); OOk (CBytes d, i2)) = OOk (v, r)).
    { intro Y. rewrite T; [exact Y|]. unfold take in Y. destruct (N.leb_spec (uval u) (N.of_nat (length i1))); [lia|discriminate Y]. }
    assert (HP : W f i1 = OOk (v, r) -> P f i1 = OOk (v, r)) by (intro Y; apply IH; try assumption; lia).
    assert (HA : (ok (l, i2) <- count_loop (W f) (S (length i1)) (uval u) i1; OOk (CArray l, i2)) = OOk (v, r) ->
                 (ok (l, i2) <- count_loop (P f) (S (length i1)) (to_usize narrow u) i1; OOk (CArray l, i2)) = OOk (v, r)).
    { intro Y. destruct (count_loop (W f) (S (length i1)) (uval u) i1) as [[l i2]| | |] eqn:C; try discriminate. cbn [out_bind] in Y. injection Y as <- <-.
      rewrite T by (generalize (count_number _ _ _ _ _ _ C); lia). rewrite (count_same f IH (S (length i1)) (uval u) i1 l i2 ltac:(lia) ltac:(lia) C I). reflexivity. }
    assert (HM : (if cap_max <? uval u then OPanic else ok (m, i2) <- map_loop (W f) (S (length i1)) (uval u) [] i1; OOk (CMap m, i2)) = OOk (v, r) ->
                 (if cap_max <? to_usize narrow u then OPanic else ok (m, i2) <- map_loop (P f) (S (length i1)) (to_usize narrow u) [] i1; OOk (CMap m, i2)) = OOk (v, r)).
    { intro Y. destruct (N.ltb_spec cap_max (uval u)) as [|Z]; [discriminate|]. assert (T' : to_usize narrow u = uval u) by (apply N.mod_small; lia). rewrite T'.
      destruct (N.ltb_spec cap_max (uval u)) as [|_]; [lia|].
      destruct (map_loop (W f) (S (length i1)) (uval u) [] i1) as [[m i2]| | |] eqn:C; try discriminate. cbn [out_bind] in Y. injection Y as <- <-.
      assert (F0 : (0 < f)%nat) by (cbn [length] in *; lia).
      rewrite (map_same f IH (S (length i1)) (uval u) [] i1 m i2 F0 ltac:(lia) ltac:(lia) C I). reflexivity. }
    destruct (cbor_type b) as [|p]; [exact E|].
    do 3 (try (destruct p as [p|p|])); auto.
  Qed.
  Theorem parse_same i v : N.of_nat (length i) < narrow -> parse_cbor (2 ^ 64) cap_max i = OOk v -> parse_cbor narrow cap_max i = OOk v.
  Proof.
    unfold parse_cbor. intros M E. destruct (W (S (length i)) i) as [[x rest]| | |] eqn:C; try discriminate. cbn [out_bind] in E.
    destruct rest; [|discriminate]. rewrite (parser_same _ _ _ _ (Nat.lt_succ_diag_r _) M C INil). exact E.
  Qed.
End Width.
