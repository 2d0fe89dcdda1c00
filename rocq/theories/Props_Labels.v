(** C107: texts of labels and hashes. *)
From Coq Require Import List NArith ZArith Bool Lia.
From Verif Require Import Bytes Utf8 HashTree Serde SerdeSpec Labels.
Import ListNotations.
Local Open Scope N_scope.

Lemma from_label_hex k : from_hex (label_hex k) = Some k.
Proof. induction k as [|x k IH]; [reflexivity|]. cbn [label_hex flat_map app from_hex]. unfold label_hex in IH. rewrite IH. destruct x; reflexivity. Qed.
Lemma label_hex_inj a b : label_hex a = label_hex b -> a = b.
Proof. intro E. assert (X := from_label_hex a). rewrite E, from_label_hex in X. congruence. Qed.

(** a printable character other than a space *)
Definition graphic (c : byte) : Prop := 33 <= b2n c <= 126.
Lemma graphic_iff k : forallb ascii_graphic k = true <-> Forall graphic k.
Proof.
  rewrite forallb_forall, Forall_forall. unfold graphic, ascii_graphic. split; intros F x I; specialize (F x I).
  - apply andb_true_iff in F. rewrite !N.leb_le in F. exact F.
  - apply andb_true_iff. rewrite !N.leb_le. exact F.
Qed.
Lemma graphic_utf8 k : Forall graphic k -> utf8_valid k = true.
Proof.
  assert (A : forall c, graphic c -> b2n c < 128) by (unfold graphic; intros; lia). intro F.
  apply ascii_utf8. unfold is_ascii. apply forallb_forall. intros c I. apply N.ltb_lt. apply A. rewrite Forall_forall in F. exact (F c I).
Qed.
(** C107: a label of printable characters is shown in quotes, any other in hexadecimal, and the text
    tells labels apart. *)
Theorem C107_label_texts :
  (forall k, Forall graphic k -> label_display k = bs """" ++ k ++ bs """") /\
  (forall k, ~ Forall graphic k -> exists h, label_display k = bs "0x" ++ h /\ from_hex h = Some k /\ label_debug k = h) /\
  (forall k k', label_display k = label_display k' -> k = k') /\
  (forall k k', label_debug k = label_debug k' -> k = k').
Proof.
  assert (A : forall k, Forall graphic k -> label_display k = bs """" ++ k ++ bs """").
  { intros k F. unfold label_display. rewrite (graphic_utf8 k F). apply graphic_iff in F. rewrite F. reflexivity. }
  assert (B : forall k, ~ Forall graphic k -> label_display k = bs "0x" ++ label_hex k).
  { intros k N. unfold label_display. destruct (forallb ascii_graphic k) eqn:E; [exfalso; apply N; apply graphic_iff; exact E|]. rewrite andb_false_r. reflexivity. }
  assert (D : forall k, Forall graphic k \/ ~ Forall graphic k).
  { intro k. destruct (forallb ascii_graphic k) eqn:E; [left; apply graphic_iff; exact E|right; intro F; apply graphic_iff in F; congruence]. }
  split; [exact A|]. split; [intros k N; exists (label_hex k); split; [exact (B k N)|]; split; [apply from_label_hex|reflexivity]|]. split; [|exact label_hex_inj].
  intros k k' E. destruct (D k) as [F|F]; [rewrite (A k F) in E|rewrite (B k F) in E]; (destruct (D k') as [F'|F']; [rewrite (A k' F') in E|rewrite (B k' F') in E]); try (exfalso; discriminate E).
  - apply app_inv_head in E. apply app_inv_tail in E. exact E.
  - apply app_inv_head in E. apply label_hex_inj. exact E.
Qed.
Print Assumptions C107_label_texts.

(** [c] is a hexadecimal digit of either case, for [n] *)
Definition digit_of (c : byte) (n : N) : Prop :=
  In (c, n) (combine (bs "0123456789abcdefABCDEF") [0; 1; 2; 3; 4; 5; 6; 7; 8; 9; 10; 11; 12; 13; 14; 15; 10; 11; 12; 13; 14; 15]).
(** [s] writes the bytes [h], two digits each *)
Inductive writes_hex : bytes -> bytes -> Prop :=
| WNil : writes_hex [] []
| WByte a b x y z s h : digit_of a x -> digit_of b y -> b2n z = 16 * x + y -> writes_hex s h -> writes_hex (a :: b :: s) (z :: h).
Lemma hex_val_iff c n : hex_val c = Some n <-> digit_of c n.
Proof.
  split.
  - destruct c; intro E; try discriminate E; vm_compute in E; injection E as <-; vm_compute; repeat (first [left; reflexivity|right]).
  - intro I. unfold digit_of in I. vm_compute in I. repeat (destruct I as [I|I]; [injection I as <- <-; reflexivity|]). destruct I.
Qed.
Lemma digit_small c n : digit_of c n -> n < 16.
Proof. intro I. unfold digit_of in I. vm_compute in I. repeat (destruct I as [I|I]; [injection I as <- <-; reflexivity|]). destruct I. Qed.
Lemma hex_byte x y : x < 16 -> y < 16 -> b2n (n2b (N.lor (N.shiftl x 4) y)) = 16 * x + y.
Proof.
  intros X Y. assert (C : forallb (fun x => forallb (fun y => b2n (n2b (N.lor (N.shiftl x 4) y)) =? 16 * x + y) (map N.of_nat (List.seq 0 16))) (map N.of_nat (List.seq 0 16)) = true) by (vm_compute; reflexivity).
  assert (I : forall z, z < 16 -> In z (map N.of_nat (List.seq 0 16))) by (intros z Z; apply in_map_iff; exists (N.to_nat z); split; [lia|apply in_seq; lia]).
  rewrite forallb_forall in C. specialize (C x (I x X)). rewrite forallb_forall in C. specialize (C y (I y Y)). apply N.eqb_eq. exact C.
Qed.
Lemma hex_pairs_iff s : forall h, hex_pairs s = Some h <-> writes_hex s h.
Proof.
  assert (K : forall n s h, (length s <= n)%nat -> hex_pairs s = Some h <-> writes_hex s h).
  { induction n as [|n IH]; intros t h L.
    - destruct t; [|cbn in L; lia]. split; [intro E; injection E as <-; constructor|inversion 1; reflexivity].
    - destruct t as [|a [|b r]].
      + split; [intro E; injection E as <-; constructor|inversion 1; reflexivity].
      + split; [intro E; discriminate E|inversion 1].
      + cbn [hex_pairs]. split.
        * destruct (hex_val a) as [x|] eqn:A; [|intro Z; discriminate Z]. destruct (hex_val b) as [y|] eqn:B; [|intro Z; discriminate Z].
          destruct (hex_pairs r) as [u|] eqn:R; [|intro Z; discriminate Z]. intro E; injection E as <-.
          apply hex_val_iff in A, B. econstructor; [exact A|exact B|apply hex_byte; eapply digit_small; eassumption|]. apply IH; [cbn in L; lia|exact R].
        * inversion 1 as [|a0 b0 x y z s0 h0 A B Z W]; subst. assert (A' := digit_small _ _ A). assert (B' := digit_small _ _ B).
          apply hex_val_iff in A, B. apply IH in W; [|cbn in L; lia]. rewrite A, B, W. f_equal. f_equal. apply b2n_inj. rewrite hex_byte by assumption. symmetry; exact Z. }
  intro h. exact (K (length s) s h (le_n _)).
Qed.
Lemma writes_length s h : writes_hex s h -> length s = (2 * length h)%nat.
Proof. induction 1; cbn [length]; lia. Qed.
(** C107: a pruned node is made from exactly the texts of 64 hexadecimal digits, and has the hash they spell. *)
Theorem C107_pruned_from_hex :
  forall (s : bytes) (t : htree), pruned_from_hex s = Some t <-> exists h, length h = 32%nat /\ writes_hex s h /\ t = HPruned h.
Proof.
  intros s t. unfold pruned_from_hex. split.
  - destruct (N.even (N.of_nat (length s))) eqn:E; cbn [negb]; [|intro Z; discriminate Z].
    destruct (N.eqb_spec (N.of_nat (length s) / 2) 32) as [L|L]; cbn [negb]; [|intro Z; discriminate Z].
    destruct (hex_pairs s) as [h|] eqn:P; [|intro Z; discriminate Z]. intro X; injection X as <-. apply hex_pairs_iff in P. exists h. split; [|auto].
    apply writes_length in P. rewrite P in L. replace (N.of_nat (2 * length h)) with (N.of_nat (length h) * 2) in L by lia. rewrite N.div_mul in L by discriminate. lia.
  - intros (h & L & W & ->). assert (X := writes_length _ _ W). rewrite L in X. rewrite X. change (N.of_nat (2 * 32)) with 64. change (negb (N.even 64)) with false. change (negb (64 / 2 =? 32)) with false. cbv iota.
    apply hex_pairs_iff in W. rewrite W. reflexivity.
Qed.
Print Assumptions C107_pruned_from_hex.
Example C107_texts :
  label_display (bs "http_expr") = bs """http_expr""" /\ label_display (bs "a b") = bs "0x612062" /\
  label_display [xff; x0a] = bs "0xFF0A" /\ label_display (bs "0x61") = bs """0x61""" /\ label_display [] = bs """""" /\
  pruned_from_hex (bs "0123456789abcdefABCDEF00000000000000000000000000000000000000000f") <> None /\
  pruned_from_hex (bs "0123") = None /\ pruned_from_hex (bs "0123456789abcdefABCDEF00000000000000000000000000000000000000000g") = None.
Proof. repeat split; vm_compute; try reflexivity; intro Z; discriminate Z. Qed.
