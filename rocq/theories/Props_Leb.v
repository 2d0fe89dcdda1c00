(** C123: the time of a certificate, byte for byte. *)
From Coq Require Import List Arith NArith Lia Bool.
From Verif Require Import Bytes HashTree Cbor Leb128 CertVerify Props_Cert.
Import ListNotations.
Local Open Scope N_scope.

(** [leb128 i n]: the bytes [i] write the number [n] in base 128, least
    significant digit first, with bit 7 set on all bytes but the last. *)
Inductive leb128 : bytes -> N -> Prop :=
| leb_last b : b2n b < 128 -> leb128 [b] (b2n b)
| leb_more b i n : 128 <= b2n b -> leb128 i n -> leb128 (b :: i) (b2n b - 128 + 128 * n).

Lemma leb128_iff i : forall n, leb128 i n <-> leb_wf i /\ leb_val i = n.
Proof.
  induction i as [|b i IH]; intro n.
  - split; [intro X; inversion X|intros [[] _]].
  - destruct i as [|b' i].
    + cbn [leb_wf leb_val]. split.
      * intro X. inversion X as [? L|? ? ? ? Y]; subst; [|inversion Y]. rewrite N.mod_small by assumption. split; [assumption|lia].
      * intros [L <-]. rewrite N.mod_small by exact L. replace (b2n b + 128 * 0) with (b2n b) by lia. constructor. exact L.
    + change (leb_wf (b :: b' :: i)) with (128 <= b2n b /\ leb_wf (b' :: i)).
      change (leb_val (b :: b' :: i)) with (b2n b mod 128 + 128 * leb_val (b' :: i)). assert (B := b2n_lt b).
      assert (M : 128 <= b2n b -> b2n b mod 128 = b2n b - 128).
      { intro G. symmetry. apply (N.mod_unique _ _ 1); lia. }
      split.
      * intro X. inversion X as [|? ? m G Y]; subst. apply IH in Y. destruct Y as [W <-]. rewrite (M G). auto.
      * intros [[G W] <-]. rewrite (M G). constructor; [exact G|]. apply IH. auto.
Qed.
Lemma leb_read_split i : forall k acc n r, leb_read_f i (7 * k) acc = Some (n, r) -> k <= 9 ->
  exists p, i = p ++ r /\ leb_wf p /\ n = acc + leb_val p * 2 ^ (7 * k) /\ k + N.of_nat (length p) <= 10.
Proof.
  induction i as [|b i IH]; intros k acc n r E K; [discriminate|]. cbn [leb_read_f] in E.
  assert (B := b2n_lt b).
  destruct ((7 * k =? 63) && negb (b2n b =? 0) && negb (b2n b =? 1)) eqn:G; [discriminate|].
  destruct (N.ltb_spec (b2n b) 128) as [L|L].
  - injection E as <- <-. exists [b]. split; [reflexivity|]. split; [exact L|]. cbn [leb_val length]. split; [|lia].
    rewrite N.mod_small by exact L. rewrite N.mul_0_r, N.add_0_r. reflexivity.
  - assert (K9 : k < 9).
    { destruct (N.eqb_spec (7 * k) 63) as [Q|Q]; [|lia]. destruct (N.eqb_spec (b2n b) 0); [lia|]. destruct (N.eqb_spec (b2n b) 1); [lia|discriminate]. }
    replace (7 * k + 7) with (7 * (k + 1)) in E by lia. destruct (IH _ _ _ _ E ltac:(lia)) as (p & -> & W & -> & LP).
    exists (b :: p). split; [reflexivity|]. destruct p as [|b' p]; [destruct W|]. split; [split; assumption|].
    change (leb_val (b :: b' :: p)) with (b2n b mod 128 + 128 * leb_val (b' :: p)). split; [|cbn [length] in *; lia].
    replace (7 * (k + 1)) with (7 + 7 * k) by lia. rewrite N.pow_add_r. change (2 ^ 7) with 128. ring.
Qed.
(** The reader accepts exactly the bytes beginning with at most ten bytes that
    write a number below 2^64; leading zero digits and further bytes are allowed. *)
Theorem C123_number_read_exactly :
  forall (enc rest : bytes) (t : N),
  leb_read enc = Some (t, rest) <->
  exists i, enc = i ++ rest /\ leb128 i t /\ (length i <= 10)%nat /\ t < 2 ^ 64.
Proof.
  intros enc rest t. split.
  - intro E. assert (B := leb_read_bound _ _ _ E). unfold leb_read in E. change 0 with (7 * 0) in E at 1.
    destruct (leb_read_split _ _ _ _ _ E ltac:(lia)) as (p & -> & W & V & L). exists p. split; [reflexivity|]. split; [|split; [lia|exact B]].
    apply leb128_iff. split; [exact W|]. change (2 ^ (7 * 0)) with 1 in V. lia.
  - intros (i & -> & X & L & B). apply leb128_iff in X. destruct X as [W <-]. unfold leb_read. rewrite leb_read_f_ok.
    + f_equal. f_equal. change (2 ^ 0) with 1. lia.
    + exact W.
    + change (2 ^ 0) with 1. lia.
    + reflexivity.
    + lia.
Qed.
Print Assumptions C123_number_read_exactly.
(** So a certificate is current exactly if its tree shows a time written like
    this that is within the offset. *)
Theorem C123_time_accepted_exactly :
  forall (checked : bool) (c : certificate) (now offset : N),
  now + offset < 2 ^ 128 -> offset <= now ->
  (verify_certificate_time checked c now offset = OOk tt <->
   exists i rest t, lookup_path [bs "time"] (c_tree c) = Found (i ++ rest) /\ leb128 i t /\ (length i <= 10)%nat /\ t < 2 ^ 64 /\
     now - offset <= t <= now + offset).
Proof.
  intros ck c now off A B. split.
  - intro E. destruct (lookup_path [bs "time"] (c_tree c)) as [| |enc|] eqn:L; try (unfold verify_certificate_time in E; rewrite L in E; discriminate).
    destruct (leb_read enc) as [[t rest]|] eqn:R; [|unfold verify_certificate_time in E; rewrite L, R in E; discriminate].
    apply (C38_time_window_exact ck c now off enc t rest A B L R) in E.
    apply C123_number_read_exactly in R. destruct R as (i & -> & X & Y & Z). exists i, rest, t. auto.
  - intros (i & rest & t & L & X & Y & Z & W). assert (R : leb_read (i ++ rest) = Some (t, rest)) by (apply C123_number_read_exactly; exists i; auto).
    apply (C38_time_window_exact ck c now off _ t rest A B L R). exact W.
Qed.
Print Assumptions C123_time_accepted_exactly.
(** [e5 8e 26] is 624485; [80 00] is a longer way to write 0; [02] after nine
    continuation bytes does not fit 64 bits. *)
Example ex_leb : leb128 [xe5; x8e; x26] 624485 /\ leb_read [x80; x00; x07] = Some (0, [x07]) /\
  leb_read (repeat x80 9 ++ [x02]) = None /\ leb_read (repeat x80 9 ++ [x01]) = Some (2 ^ 63, []).
Proof. split; [|vm_compute; auto]. apply leb128_iff. vm_compute. repeat split; discriminate. Qed.
