(** What "valid UTF-8" means in the other theorems. *)
From Coq Require Import List Arith NArith ZArith Lia Bool.
From Verif Require Import Bytes Utf8 Utf8Spec.
Import ListNotations.
Local Open Scope N_scope.

Lemma in_range_iff lo hi b : in_range lo hi b = true <-> lo <= b2n b <= hi.
Proof. unfold in_range. rewrite andb_true_iff, !N.leb_le. tauto. Qed.
Ltac ranges := repeat (rewrite ?andb_true_iff, ?orb_true_iff, ?in_range_iff in * ).
Ltac dm := zify; Z.to_euclidean_division_equations; lia.

Lemma enc2 a b : ok2 a b = true -> scalar (cp2 a b) /\ utf8_of (cp2 a b) = [a; b].
Proof.
  unfold ok2, cont, cp2, scalar, utf8_of, tail6. ranges. intros [A B].
  assert (L1 : (b2n a - 192) * 64 + (b2n b - 128) <? 128 = false) by (apply N.ltb_ge; lia).
  assert (L2 : (b2n a - 192) * 64 + (b2n b - 128) <? 2048 = true) by (apply N.ltb_lt; lia). rewrite L1, L2.
  split; [lia|]. set (x := (b2n a - 192) * 64 + (b2n b - 128)).
  assert (X1 : 192 + x / 64 = b2n a) by (unfold x; dm). assert (X2 : 128 + x mod 64 = b2n b) by (unfold x; dm). rewrite X1, X2, !n2b_b2n. reflexivity.
Qed.
Lemma enc3 a b c : ok3 a b c = true -> scalar (cp3 a b c) /\ utf8_of (cp3 a b c) = [a; b; c].
Proof.
  unfold ok3, cont, cp3, scalar, utf8_of, tail6. ranges. intros [A C].
  set (x := (b2n a - 224) * 4096 + (b2n b - 128) * 64 + (b2n c - 128)).
  assert (R : 224 <= b2n a <= 239 /\ 128 <= b2n b <= 191) by lia.
  assert (L1 : x <? 128 = false) by (apply N.ltb_ge; unfold x; lia).
  assert (L2 : x <? 2048 = false) by (apply N.ltb_ge; unfold x; lia).
  assert (L3 : x <? 65536 = true) by (apply N.ltb_lt; unfold x; lia). rewrite L1, L2, L3.
  split; [unfold x; lia|].
  assert (X1 : 224 + x / 4096 = b2n a) by (unfold x; dm). assert (X2 : 128 + (x / 64) mod 64 = b2n b) by (unfold x; dm). assert (X3 : 128 + x mod 64 = b2n c) by (unfold x; dm).
  rewrite X1, X2, X3, !n2b_b2n. reflexivity.
Qed.
Lemma enc4 a b c d : ok4 a b c d = true -> scalar (cp4 a b c d) /\ utf8_of (cp4 a b c d) = [a; b; c; d].
Proof.
  unfold ok4, cont, cp4, scalar, utf8_of, tail6. ranges. intros [[A C] D].
  set (x := (b2n a - 240) * 262144 + (b2n b - 128) * 4096 + (b2n c - 128) * 64 + (b2n d - 128)).
  assert (R : 240 <= b2n a <= 244 /\ 128 <= b2n b <= 191) by lia.
  assert (L1 : x <? 128 = false) by (apply N.ltb_ge; unfold x; lia).
  assert (L2 : x <? 2048 = false) by (apply N.ltb_ge; unfold x; lia).
  assert (L3 : x <? 65536 = false) by (apply N.ltb_ge; unfold x; lia). rewrite L1, L2, L3.
  split; [unfold x; lia|].
  assert (X1 : 240 + x / 262144 = b2n a) by (unfold x; dm). assert (X2 : 128 + (x / 4096) mod 64 = b2n b) by (unfold x; dm).
  assert (X3 : 128 + (x / 64) mod 64 = b2n c) by (unfold x; dm). assert (X4 : 128 + x mod 64 = b2n d) by (unfold x; dm).
  rewrite X1, X2, X3, X4, !n2b_b2n. reflexivity.
Qed.
Lemma small_b n : n < 256 -> b2n (n2b n) = n.
Proof. apply b2n_n2b_small. Qed.
Lemma decode_of c s : scalar c -> utf8_decode (utf8_of c ++ s) = option_map (cons c) (utf8_decode s).
Proof.
  intros [M S]. unfold utf8_of, tail6.
  destruct (N.ltb_spec c 128) as [L1|L1]; [cbn [app utf8_decode]; rewrite small_b by lia; destruct (N.ltb_spec c 128); [reflexivity|lia]|].
  destruct (N.ltb_spec c 2048) as [L2|L2].
  { cbn [app utf8_decode]. assert (A : b2n (n2b (192 + c / 64)) = 192 + c / 64) by (apply small_b; dm). assert (B : b2n (n2b (128 + c mod 64)) = 128 + c mod 64) by (apply small_b; dm).
    rewrite A. destruct (N.ltb_spec (192 + c / 64) 128); [dm|].
    assert (O : ok2 (n2b (192 + c / 64)) (n2b (128 + c mod 64)) = true) by (unfold ok2, cont; ranges; rewrite A, B; dm). rewrite O.
    unfold cp2. rewrite A, B. f_equal. f_equal. dm. }
  destruct (N.ltb_spec c 65536) as [L3|L3].
  { cbn [app utf8_decode]. assert (A : b2n (n2b (224 + c / 4096)) = 224 + c / 4096) by (apply small_b; dm). assert (B : b2n (n2b (128 + (c / 64) mod 64)) = 128 + (c / 64) mod 64) by (apply small_b; dm).
    assert (C : b2n (n2b (128 + c mod 64)) = 128 + c mod 64) by (apply small_b; dm).
    rewrite A. destruct (N.ltb_spec (224 + c / 4096) 128); [dm|].
    assert (O2 : ok2 (n2b (224 + c / 4096)) (n2b (128 + (c / 64) mod 64)) = false) by (unfold ok2, in_range; rewrite A; destruct (N.leb_spec (224 + c / 4096) 223); [dm|rewrite andb_false_r; reflexivity]). rewrite O2.
    assert (O : ok3 (n2b (224 + c / 4096)) (n2b (128 + (c / 64) mod 64)) (n2b (128 + c mod 64)) = true) by (unfold ok3, cont; ranges; rewrite A, B, C; dm). rewrite O.
    unfold cp3. rewrite A, B, C. f_equal. f_equal. dm. }
  cbn [app utf8_decode]. assert (A : b2n (n2b (240 + c / 262144)) = 240 + c / 262144) by (apply small_b; dm). assert (B : b2n (n2b (128 + (c / 4096) mod 64)) = 128 + (c / 4096) mod 64) by (apply small_b; dm).
  assert (C : b2n (n2b (128 + (c / 64) mod 64)) = 128 + (c / 64) mod 64) by (apply small_b; dm). assert (D : b2n (n2b (128 + c mod 64)) = 128 + c mod 64) by (apply small_b; dm).
  rewrite A. destruct (N.ltb_spec (240 + c / 262144) 128); [dm|].
  assert (O2 : forall y, ok2 (n2b (240 + c / 262144)) y = false) by (intro y; unfold ok2, in_range; rewrite A; destruct (N.leb_spec (240 + c / 262144) 223); [dm|rewrite andb_false_r; reflexivity]). rewrite O2.
  assert (O3 : forall y z, ok3 (n2b (240 + c / 262144)) y z = false).
  { intros y z. unfold ok3, in_range. rewrite A. destruct (N.leb_spec (240 + c / 262144) 224); [dm|]. destruct (N.leb_spec (240 + c / 262144) 236); [dm|]. destruct (N.leb_spec (240 + c / 262144) 237); [dm|]. destruct (N.leb_spec (240 + c / 262144) 239); [dm|].
    rewrite !andb_false_r. reflexivity. }
  rewrite O3.
  assert (O : ok4 (n2b (240 + c / 262144)) (n2b (128 + (c / 4096) mod 64)) (n2b (128 + (c / 64) mod 64)) (n2b (128 + c mod 64)) = true) by (unfold ok4, cont; ranges; rewrite A, B, C, D; dm). rewrite O.
  unfold cp4. rewrite A, B, C, D. f_equal. f_equal. dm.
Qed.

(** The strings that the model decodes as UTF-8 are exactly the encodings of Unicode text. *)
Theorem C63_text_is_unicode : forall (s : bytes) (cs : list N), utf8_decode s = Some cs <-> utf8_text cs s.
Proof.
  intros s cs. split.
  - revert cs. remember (length s) as n eqn:L. revert s L. induction n as [n IH] using lt_wf_ind. intros s -> cs.
    assert (K : forall c pre r, s = pre ++ r -> pre <> [] -> scalar c -> utf8_of c = pre -> option_map (cons c) (utf8_decode r) = Some cs -> utf8_text cs s).
    { intros c pre r E N S U D. destruct (utf8_decode r) as [cs'|] eqn:R; [|discriminate]. injection D as <-.
      assert (LT : (length r < length s)%nat) by (rewrite E, app_length; destruct pre; [contradiction|simpl; lia]).
      destruct (IH _ LT r eq_refl cs' R) as [F ->]. split; [constructor; assumption|]. cbn [map concat]. rewrite U. exact E. }
    destruct s as [|a s]; [intro E; injection E as <-; split; [constructor|reflexivity]|]. cbn [utf8_decode].
    destruct (N.ltb_spec (b2n a) 128) as [A|A].
    + apply (K (b2n a) [a] s); [reflexivity|discriminate|split; lia|]. unfold utf8_of. apply N.ltb_lt in A. rewrite A, n2b_b2n. reflexivity.
    + destruct s as [|b s]; [discriminate|]. destruct (ok2 a b) eqn:O2; [destruct (enc2 _ _ O2); apply (K (cp2 a b) [a; b] s); auto; discriminate|].
      destruct s as [|c s]; [discriminate|]. destruct (ok3 a b c) eqn:O3; [destruct (enc3 _ _ _ O3); apply (K (cp3 a b c) [a; b; c] s); auto; discriminate|].
      destruct s as [|d s]; [discriminate|]. destruct (ok4 a b c d) eqn:O4; [destruct (enc4 _ _ _ _ O4); apply (K (cp4 a b c d) [a; b; c; d] s); auto; discriminate|discriminate].
  - intros [F ->]. induction F as [|c cs S F IH]; [reflexivity|]. cbn [map concat]. rewrite decode_of by exact S. rewrite IH. reflexivity.
Qed.
Print Assumptions C63_text_is_unicode.
Example u_ex : utf8_text [233; 8364; 128512] (unhex "c3a9e282acf09f9880").
Proof. apply C63_text_is_unicode. reflexivity. Qed.
