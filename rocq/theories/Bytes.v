(** Bytes, byte strings and their lexicographic order.

    Rust's [Vec<u8>], [&[u8]], [String] and [&str] are all modelled as
    [list byte] (strings by their UTF-8 bytes).  The derived/standard [Ord] of
    Rust on byte slices is lexicographic; it is [bcmp] below. *)
From Coq Require Import List Arith NArith Lia Bool.
From Coq Require Export Init.Byte.
From Coq Require Strings.String.
Export String.StringSyntax.
From Coq Require Import ZifyBool ZifyNat ZifyN.
Import ListNotations.

Notation bytes := (list byte).

(** Byte string literals. *)
Definition bs (s : String.string) : bytes := String.list_byte_of_string s.
Arguments bs s%string_scope.

Definition b2n (b : byte) : N := Byte.to_N b.

(** [n as u8]: the byte with value [n mod 256]. *)
Definition n2b (n : N) : byte :=
  match Byte.of_N (n mod 256) with Some b => b | None => x00 end.

Lemma b2n_lt b : (b2n b < 256)%N.
Proof. unfold b2n. generalize (Byte.to_N_bounded b). lia. Qed.

Lemma n2b_b2n b : n2b (b2n b) = b.
Proof.
  unfold n2b, b2n. rewrite N.mod_small by (apply b2n_lt).
  rewrite Byte.of_to_N. reflexivity.
Qed.

Lemma b2n_n2b n : b2n (n2b n) = (n mod 256)%N.
Proof.
  unfold n2b, b2n.
  destruct (Byte.of_N (n mod 256)) as [b|] eqn:E.
  - apply Byte.to_of_N in E. exact E.
  - apply Byte.of_N_None_iff in E.
    assert (n mod 256 < 256)%N by (apply N.mod_lt; lia). lia.
Qed.

Lemma b2n_n2b_small n : (n < 256)%N -> b2n (n2b n) = n.
Proof. intro L. rewrite b2n_n2b. apply N.mod_small. exact L. Qed.

Lemma b2n_inj a b : b2n a = b2n b -> a = b.
Proof. intro E. rewrite <- (n2b_b2n a), <- (n2b_b2n b), E. reflexivity. Qed.

Definition byte_eqb (a b : byte) : bool := N.eqb (b2n a) (b2n b).
Lemma byte_eqb_eq a b : byte_eqb a b = true <-> a = b.
Proof.
  unfold byte_eqb. rewrite N.eqb_eq. split; [apply b2n_inj|congruence].
Qed.
Lemma byte_eqb_spec a b : reflect (a = b) (byte_eqb a b).
Proof.
  destruct (byte_eqb a b) eqn:E; constructor.
  - apply byte_eqb_eq; exact E.
  - intro C. apply byte_eqb_eq in C. congruence.
Qed.
Lemma byte_eqb_refl a : byte_eqb a a = true.
Proof. apply byte_eqb_eq; reflexivity. Qed.

Definition byte_eq_dec (a b : byte) : {a = b} + {a <> b}.
Proof. destruct (byte_eqb_spec a b); [left|right]; assumption. Defined.
Definition bytes_eq_dec (a b : bytes) : {a = b} + {a <> b} := list_eq_dec byte_eq_dec a b.

(** Rust's [Ord] on byte slices. *)
Fixpoint bcmp (a b : bytes) : comparison :=
  match a, b with
  | [], [] => Eq
  | [], _ :: _ => Lt
  | _ :: _, [] => Gt
  | x :: a', y :: b' =>
      match N.compare (b2n x) (b2n y) with
      | Eq => bcmp a' b'
      | c => c
      end
  end.

Definition blt (a b : bytes) : Prop := bcmp a b = Lt.
Definition ble (a b : bytes) : Prop := bcmp a b <> Gt.

Lemma bcmp_refl a : bcmp a a = Eq.
Proof. induction a as [|x a IH]; simpl; [reflexivity|]. rewrite N.compare_refl. exact IH. Qed.

Lemma bcmp_eq a b : bcmp a b = Eq <-> a = b.
Proof.
  split; [|intros ->; apply bcmp_refl].
  revert b; induction a as [|x a IH]; intros [|y b]; simpl; try congruence.
  destruct (N.compare_spec (b2n x) (b2n y)) as [E|E|E]; try congruence.
  intro H. apply IH in H. apply b2n_inj in E. congruence.
Qed.

Lemma bcmp_antisym a b : bcmp a b = CompOpp (bcmp b a).
Proof.
  revert b; induction a as [|x a IH]; intros [|y b]; simpl; try reflexivity.
  rewrite N.compare_antisym.
  destruct (N.compare (b2n y) (b2n x)); simpl; try reflexivity. apply IH.
Qed.

Lemma bcmp_gt_lt a b : bcmp a b = Gt <-> bcmp b a = Lt.
Proof. rewrite (bcmp_antisym a b). destruct (bcmp b a); simpl; split; congruence. Qed.
Lemma bcmp_lt_gt a b : bcmp a b = Lt <-> bcmp b a = Gt.
Proof. rewrite (bcmp_antisym a b). destruct (bcmp b a); simpl; split; congruence. Qed.

Lemma blt_trans a b c : blt a b -> blt b c -> blt a c.
Proof.
  unfold blt. revert b c; induction a as [|x a IH]; intros [|y b] [|z c]; simpl; try congruence.
  destruct (N.compare_spec (b2n x) (b2n y)) as [E|E|E];
  destruct (N.compare_spec (b2n y) (b2n z)) as [F|F|F]; try congruence;
  destruct (N.compare_spec (b2n x) (b2n z)) as [G|G|G]; try congruence; try lia.
  apply IH.
Qed.

Lemma blt_irrefl a : ~ blt a a.
Proof. unfold blt. rewrite bcmp_refl. congruence. Qed.
Lemma blt_neq a b : blt a b -> a <> b.
Proof. intros H ->. exact (blt_irrefl _ H). Qed.
Lemma blt_asym a b : blt a b -> ~ blt b a.
Proof. intros H G. exact (blt_irrefl _ (blt_trans _ _ _ H G)). Qed.
Lemma ble_lt_eq a b : ble a b <-> blt a b \/ a = b.
Proof.
  unfold ble, blt. split.
  - destruct (bcmp a b) eqn:E; intro H; [right; apply bcmp_eq; exact E|left; reflexivity|congruence].
  - intros [E|E]; [congruence|]. subst. rewrite bcmp_refl. congruence.
Qed.
Lemma ble_refl a : ble a a.
Proof. apply ble_lt_eq. right; reflexivity. Qed.
Lemma blt_ble a b : blt a b -> ble a b.
Proof. intro; apply ble_lt_eq; left; assumption. Qed.
Lemma ble_trans a b c : ble a b -> ble b c -> ble a c.
Proof.
  rewrite !ble_lt_eq. intros [H|H] [G|G]; subst; auto. left; eapply blt_trans; eauto.
Qed.
Lemma blt_ble_trans a b c : blt a b -> ble b c -> blt a c.
Proof. rewrite ble_lt_eq. intros H [G|G]; subst; auto. eapply blt_trans; eauto. Qed.
Lemma ble_blt_trans a b c : ble a b -> blt b c -> blt a c.
Proof. rewrite ble_lt_eq. intros [H|H] G; subst; auto. eapply blt_trans; eauto. Qed.
Lemma ble_antisym a b : ble a b -> ble b a -> a = b.
Proof.
  rewrite !ble_lt_eq. intros [H|H] [G|G]; subst; auto.
  exfalso. exact (blt_asym _ _ H G).
Qed.
Lemma nblt_ble a b : ~ blt a b -> ble b a.
Proof.
  unfold blt, ble. rewrite (bcmp_antisym b a). destruct (bcmp a b); simpl; congruence.
Qed.
Lemma ble_nblt a b : ble a b -> ~ blt b a.
Proof. intros H G. unfold ble in H. apply H. apply bcmp_gt_lt. exact G. Qed.
Lemma blt_total a b : blt a b \/ a = b \/ blt b a.
Proof.
  unfold blt. destruct (bcmp a b) eqn:E.
  - right; left; apply bcmp_eq; exact E.
  - left; reflexivity.
  - right; right; apply bcmp_gt_lt; exact E.
Qed.

Inductive bcmp_reflect (a b : bytes) : comparison -> Prop :=
| BcEq : a = b -> bcmp_reflect a b Eq
| BcLt : blt a b -> bcmp_reflect a b Lt
| BcGt : blt b a -> bcmp_reflect a b Gt.
Lemma bcmp_spec a b : bcmp_reflect a b (bcmp a b).
Proof.
  destruct (bcmp a b) eqn:E; constructor.
  - apply bcmp_eq; exact E.
  - exact E.
  - apply bcmp_gt_lt; exact E.
Qed.

Definition bytes_eqb (a b : bytes) : bool :=
  match bcmp a b with Eq => true | _ => false end.
Lemma bytes_eqb_eq a b : bytes_eqb a b = true <-> a = b.
Proof.
  unfold bytes_eqb. rewrite <- bcmp_eq. destruct (bcmp a b); split; congruence.
Qed.
Lemma bytes_eqb_refl a : bytes_eqb a a = true.
Proof. apply bytes_eqb_eq; reflexivity. Qed.
Lemma bytes_eqb_neq a b : bytes_eqb a b = false <-> a <> b.
Proof.
  rewrite <- bytes_eqb_eq. destruct (bytes_eqb a b); split; congruence.
Qed.
Lemma bytes_eqb_spec a b : reflect (a = b) (bytes_eqb a b).
Proof.
  destruct (bytes_eqb a b) eqn:E; constructor.
  - apply bytes_eqb_eq; exact E.
  - apply bytes_eqb_neq; exact E.
Qed.
Lemma bytes_eqb_sym a b : bytes_eqb a b = bytes_eqb b a.
Proof.
  destruct (bytes_eqb_spec a b), (bytes_eqb_spec b a); congruence.
Qed.

(** [a] is a prefix of [b] (Rust [starts_with]). *)
Fixpoint bprefix (a b : bytes) : bool :=
  match a, b with
  | [], _ => true
  | x :: a', y :: b' => byte_eqb x y && bprefix a' b'
  | _ :: _, [] => false
  end.
Lemma bprefix_spec a b : bprefix a b = true <-> exists c, b = a ++ c.
Proof.
  revert b; induction a as [|x a IH]; intros b; simpl.
  - split; eauto.
  - destruct b as [|y b].
    + split; [congruence|]. intros [c E]. discriminate.
    + rewrite andb_true_iff, byte_eqb_eq, IH. split.
      * intros [-> [c ->]]. exists c; reflexivity.
      * intros [c E]. injection E as -> ->. eauto.
Qed.

(** Hexadecimal literals (for examples only). *)
Definition hexval (b : byte) : N :=
  let n := b2n b in
  if (n <? 58)%N then (n - 48)%N else if (n <? 97)%N then (n - 55)%N else (n - 87)%N.
Fixpoint unhex_b (l : bytes) : bytes :=
  match l with
  | a :: b :: r => n2b (hexval a * 16 + hexval b) :: unhex_b r
  | _ => []
  end.
Definition unhex (s : String.string) : bytes := unhex_b (bs s).
Arguments unhex s%string_scope.

(** A general append-injectivity helper. *)
Lemma app_inj_len {A} (a b c d : list A) :
  length a = length c -> a ++ b = c ++ d -> a = c /\ b = d.
Proof.
  revert c; induction a as [|x a IH]; intros [|y c]; simpl; try congruence; auto.
  intros L E. injection E as -> E. injection L as L.
  destruct (IH c L E) as [-> ->]. auto.
Qed.
Lemma app_inj_len_r {A} (a b c d : list A) :
  length b = length d -> a ++ b = c ++ d -> a = c /\ b = d.
Proof.
  intros L E. apply app_inj_len; [|exact E].
  assert (length (a ++ b) = length (c ++ d)) by (rewrite E; reflexivity).
  rewrite !app_length in H. lia.
Qed.
