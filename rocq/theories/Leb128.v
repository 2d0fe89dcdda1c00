(** Unsigned LEB128 as used by the [leb128] crate 0.2.5.
    The crate's source is not in /repo; the model follows its published source:
    write::unsigned emits the low seven bits first and sets bit 7 while a
    non-zero rest remains; read::unsigned accumulates [low_bits << shift] in a
    u64 and reports Overflow when [shift == 63] and the byte is not 0x00 or 0x01.
    Used at /repo/packages/ic-representation-independent-hash/src/representation_independent_hash.rs:43-47
    and /repo/packages/ic-certificate-verification/src/certificate_verification.rs ([parse_certificate_time]). *)
From Coq Require Import List Arith NArith Lia Bool.
From Verif Require Import Bytes.
Import ListNotations.
Local Open Scope N_scope.

(** leb128::write::unsigned; the loop runs at most once per significant bit,
    [S (N.size_nat n)] steps of fuel are never exhausted ([leb_enc_fuel]). *)
Fixpoint leb_enc_f (f : nat) (n : N) : bytes :=
  match f with
  | O => []
  | S f' => if n / 128 =? 0 then [n2b (n mod 128)]
            else n2b (n mod 128 + 128) :: leb_enc_f f' (n / 128)
  end.
Definition leb_enc (n : N) : bytes := leb_enc_f (S (N.size_nat n)) n.

(** leb128::read::unsigned: [None] is the Err result (end of input or overflow);
    trailing bytes are left unread. *)
Fixpoint leb_read_f (i : bytes) (shift acc : N) : option (N * bytes) :=
  match i with
  | [] => None
  | b :: r =>
      if (shift =? 63) && negb (b2n b =? 0) && negb (b2n b =? 1) then None
      else
        let acc' := acc + (b2n b mod 128) * 2 ^ shift in
        if b2n b <? 128 then Some (acc', r) else leb_read_f r (shift + 7) acc'
  end.
Definition leb_read (i : bytes) : option (N * bytes) := leb_read_f i 0 0.

(** ** The number a LEB128 string denotes (independent of the reader). *)
Fixpoint leb_val (i : bytes) : N :=
  match i with [] => 0 | b :: r => b2n b mod 128 + 128 * leb_val r end.
(** a LEB128 string: continuation bit on all bytes but the last *)
Fixpoint leb_wf (i : bytes) : Prop :=
  match i with
  | [] => False
  | [b] => b2n b < 128
  | b :: r => 128 <= b2n b /\ leb_wf r
  end.

Lemma size_nat_div n : n / 128 <> 0 -> (N.size_nat (n / 128) < N.size_nat n)%nat.
Proof.
  intro Z. destruct n as [|p]; [exfalso; apply Z; reflexivity|].
  do 7 (destruct p as [p|p|]; [| |exfalso; apply Z; reflexivity]);
  match goal with |- context [N.pos ?q / 128] =>
    replace (N.pos q / 128) with (N.pos p) by
      (apply (N.div_unique _ 128 _ (N.pos q mod 128)); [apply N.mod_lt; lia|];
       rewrite (N.div_mod' (N.pos q) 128) at 1; f_equal; f_equal;
       symmetry; apply (N.div_unique _ 128 _ (N.pos q - 128 * N.pos p)); lia)
  end; cbn [N.size_nat Pos.size_nat]; lia.
Qed.
Lemma leb_enc_f_ok f : forall n, (N.size_nat n < f)%nat -> leb_wf (leb_enc_f f n) /\ leb_val (leb_enc_f f n) = n.
Proof.
  induction f as [|f IH]; intros n L; [lia|]. cbn [leb_enc_f].
  assert (M : n mod 128 < 128) by (apply N.mod_lt; lia).
  destruct (N.eqb_spec (n / 128) 0) as [Z|Z].
  - cbn [leb_wf leb_val]. rewrite b2n_n2b_small by lia. split; [exact M|].
    rewrite N.mod_mod by lia. rewrite (N.div_mod' n 128) at 2. rewrite Z. lia.
  - assert (Q := size_nat_div n Z). destruct (IH (n / 128) ltac:(lia)) as [A B].
    destruct (leb_enc_f f (n / 128)) as [|b r] eqn:E; [destruct A|].
    change (leb_wf (n2b (n mod 128 + 128) :: b :: r)) with (128 <= b2n (n2b (n mod 128 + 128)) /\ leb_wf (b :: r)).
    change (leb_val (n2b (n mod 128 + 128) :: b :: r)) with (b2n (n2b (n mod 128 + 128)) mod 128 + 128 * leb_val (b :: r)).
    rewrite b2n_n2b_small by lia. split; [split; [lia|exact A]|]. rewrite B.
    replace (n mod 128 + 128) with (n mod 128 + 1 * 128) by lia. rewrite N.mod_add by lia.
    rewrite N.mod_mod by lia. rewrite (N.div_mod' n 128) at 3. lia.
Qed.
Lemma leb_enc_ok n : leb_wf (leb_enc n) /\ leb_val (leb_enc n) = n.
Proof. apply leb_enc_f_ok. lia. Qed.
Lemma leb_enc_inj a b : leb_enc a = leb_enc b -> a = b.
Proof. intro E. destruct (leb_enc_ok a), (leb_enc_ok b). rewrite E in *. congruence. Qed.

(** The reader computes the denoted number of a well-formed prefix of at most
    ten bytes whose value fits 64 bits. *)
Lemma leb_read_f_ok i : forall shift acc r, leb_wf i -> leb_val i * 2 ^ shift < 2 ^ 64 ->
  shift mod 7 = 0 -> shift + 7 * N.of_nat (length i) <= 70 ->
  leb_read_f (i ++ r) shift acc = Some (acc + leb_val i * 2 ^ shift, r).
Proof.
  induction i as [|b i IH]; intros shift acc r W V M L; [destruct W|].
  cbn [app leb_read_f].
  assert (O : (shift =? 63) && negb (b2n b =? 0) && negb (b2n b =? 1) = false).
  { destruct (N.eqb_spec shift 63) as [->|]; [|reflexivity]. cbn [length] in L.
    destruct i as [|b' i]; [|cbn [length] in L; lia]. cbn [leb_wf leb_val] in *.
    rewrite N.mod_small in V by exact W.
    assert (b2n b < 2).
    { apply (N.mul_lt_mono_pos_r (2 ^ 63)); [reflexivity|]. replace (2 * 2 ^ 63) with (2 ^ 64) by reflexivity.
      replace (b2n b) with (b2n b + 128 * 0) by lia. exact V. }
    destruct (N.eqb_spec (b2n b) 0); [reflexivity|]. destruct (N.eqb_spec (b2n b) 1); [reflexivity|lia]. }
  rewrite O. clear O. destruct i as [|b' i].
  - cbn [leb_wf leb_val app] in *. destruct (N.ltb_spec (b2n b) 128); [|lia]. f_equal. f_equal. lia.
  - destruct W as [G W]. destruct (N.ltb_spec (b2n b) 128); [lia|].
    assert (P : 2 ^ (shift + 7) = 128 * 2 ^ shift) by (rewrite N.pow_add_r; change (2 ^ 7) with 128; lia).
    change (leb_val (b :: b' :: i)) with (b2n b mod 128 + 128 * leb_val (b' :: i)) in *.
    rewrite IH; [|exact W| | |].
    + f_equal. f_equal. rewrite P. lia.
    + rewrite P. eapply N.le_lt_trans; [|exact V]. rewrite N.mul_assoc. apply N.mul_le_mono_r. lia.
    + replace (shift + 7) with (shift + 1 * 7) by lia. rewrite N.mod_add by lia. exact M.
    + cbn [length] in *. lia.
Qed.
Lemma leb_enc_f_length k : forall f n, (N.size_nat n < f)%nat -> n < 128 ^ N.of_nat (S k) -> (length (leb_enc_f f n) <= S k)%nat.
Proof.
  induction k as [|k IH]; intros f n L B; destruct f as [|f]; try lia; cbn [leb_enc_f].
  - change (128 ^ N.of_nat 1) with 128 in B. rewrite (N.div_small _ _ B). simpl. lia.
  - destruct (N.eqb_spec (n / 128) 0) as [Z|Z]; [simpl; lia|].
    assert (Q := size_nat_div n Z). simpl. apply le_n_S. apply IH; [lia|].
    apply N.div_lt_upper_bound; [lia|]. replace (N.of_nat (S (S k))) with (N.succ (N.of_nat (S k))) in B by lia.
    rewrite N.pow_succ_r' in B. exact B.
Qed.
(** Reading what was written, for every u64. *)
Lemma leb_read_enc n r : n < 2 ^ 64 -> leb_read (leb_enc n ++ r) = Some (n, r).
Proof.
  intro B. destruct (leb_enc_ok n) as [W V]. unfold leb_read. rewrite leb_read_f_ok.
  - rewrite V. f_equal. f_equal. change (2 ^ 0) with 1. lia.
  - exact W.
  - rewrite V. change (2 ^ 0) with 1. lia.
  - reflexivity.
  - assert (length (leb_enc n) <= 10)%nat; [|lia]. apply leb_enc_f_length; [lia|].
    eapply N.lt_le_trans; [exact B|]. vm_compute. discriminate.
Qed.
(** [leb_read] never returns a number of 2^64 or more. *)
Lemma leb_read_f_bound i : forall k acc n r, leb_read_f i (7 * k) acc = Some (n, r) -> k <= 9 -> acc < 2 ^ (7 * k) -> n < 2 ^ 64.
Proof.
  induction i as [|b i IH]; intros k acc n r E K A; [discriminate|]. cbn [leb_read_f] in E.
  assert (M : b2n b mod 128 < 128) by (apply N.mod_lt; lia).
  assert (P : 2 ^ (7 * (k + 1)) = 128 * 2 ^ (7 * k)) by (replace (7 * (k + 1)) with (7 + 7 * k) by lia; rewrite N.pow_add_r; reflexivity).
  assert (A' : acc + b2n b mod 128 * 2 ^ (7 * k) < 2 ^ (7 * (k + 1))) by (rewrite P; nia).
  destruct (N.eqb_spec (7 * k) 63) as [Q|Q]; cbn [andb] in E.
  - assert (k = 9) as -> by lia. change (7 * 9) with 63 in *.
    destruct (N.eqb_spec (b2n b) 0) as [Z|Z]; [|destruct (N.eqb_spec (b2n b) 1) as [Z'|Z']]; cbn [andb negb] in E; try discriminate.
    + assert (T : b2n b mod 128 * 2 ^ 63 = 0) by (rewrite Z; reflexivity). rewrite T in E.
      destruct (N.ltb_spec (b2n b) 128); [|lia]. injection E as <- <-.
      eapply N.lt_trans; [|apply (N.pow_lt_mono_r 2 63 64); lia]. lia.
    + assert (T : b2n b mod 128 * 2 ^ 63 = 2 ^ 63) by (rewrite Z'; reflexivity). rewrite T in E.
      destruct (N.ltb_spec (b2n b) 128); [|lia]. injection E as <- <-.
      assert (2 ^ 64 = 2 * 2 ^ 63) by reflexivity. lia.
  - destruct (b2n b <? 128).
    + injection E as <- <-. eapply N.lt_le_trans; [exact A'|]. apply N.pow_le_mono_r; lia.
    + replace (7 * k + 7) with (7 * (k + 1)) in E by lia. apply IH in E; [exact E|lia|exact A'].
Qed.
Lemma leb_read_bound i n r : leb_read i = Some (n, r) -> n < 2 ^ 64.
Proof. intro E. apply (leb_read_f_bound i 0 0 n r); [exact E|lia|]. reflexivity. Qed.
