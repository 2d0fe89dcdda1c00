(** Rust [str] helpers on byte strings: ASCII case, [split(char)], [join], [trim] of ASCII. *)
From Coq Require Import List Arith NArith Lia Bool.
From Verif Require Import Bytes.
Import ListNotations.

(** u8::to_ascii_lowercase, str::to_ascii_lowercase *)
Definition lower_byte (b : byte) : byte :=
  let n := b2n b in if ((65 <=? n) && (n <=? 90))%N then n2b (n + 32) else b.
Definition lower (s : bytes) : bytes := map lower_byte s.
(** str::eq_ignore_ascii_case *)
Definition eq_nocase (a b : bytes) : bool := bytes_eqb (lower a) (lower b).

(** str::split(c) for an ASCII [c]: always at least one piece *)
Fixpoint split_on (c : byte) (s : bytes) : list bytes :=
  match s with
  | [] => [[]]
  | b :: r =>
      if byte_eqb b c then [] :: split_on c r
      else match split_on c r with
           | [] => [[b]]
           | p :: ps => (b :: p) :: ps
           end
  end.
(** [T]::join(sep) *)
Fixpoint join (c : bytes) (l : list bytes) : bytes :=
  match l with
  | [] => []
  | [p] => p
  | p :: ps => p ++ c ++ join c ps
  end.

Lemma lower_idem s : lower (lower s) = lower s.
Proof.
  unfold lower. rewrite map_map. apply map_ext. intro b. unfold lower_byte.
  destruct (((65 <=? b2n b) && (b2n b <=? 90))%N) eqn:E; [|rewrite E; reflexivity].
  apply andb_prop in E. destruct E as [E1 E2]. apply N.leb_le in E1, E2.
  rewrite b2n_n2b_small by lia.
  replace ((65 <=? b2n b + 32) && (b2n b + 32 <=? 90))%N with false; [reflexivity|].
  symmetry. apply andb_false_iff. right. apply N.leb_gt. lia.
Qed.
Lemma lower_app a b : lower (a ++ b) = lower a ++ lower b.
Proof. apply map_app. Qed.
Lemma lower_length a : length (lower a) = length a.
Proof. apply map_length. Qed.
Lemma eq_nocase_eq a b : eq_nocase a b = true <-> lower a = lower b.
Proof. apply bytes_eqb_eq. Qed.

Lemma split_on_ne c s : split_on c s <> [].
Proof. destruct s as [|b s]; simpl; [discriminate|]. destruct (byte_eqb b c); [discriminate|]. destruct (split_on c s); discriminate. Qed.
Lemma split_on_free c s : ~ In c s -> split_on c s = [s].
Proof.
  induction s as [|b s IH]; intro F; simpl; [reflexivity|].
  destruct (byte_eqb_spec b c) as [->|N]; [exfalso; apply F; left; reflexivity|].
  rewrite IH; [reflexivity|]. intro I. apply F. right. exact I.
Qed.
Lemma split_on_pieces c s : Forall (fun p => ~ In c p) (split_on c s).
Proof.
  induction s as [|b s IH]; simpl; [repeat constructor; auto|].
  destruct (byte_eqb_spec b c) as [->|N]; [constructor; auto|].
  destruct (split_on c s) as [|p ps]; inversion IH; subst; constructor; auto.
  - intros [->|[]]. apply N. reflexivity.
  - intros [->|I]; [apply N; reflexivity|auto].
Qed.
Lemma split_on_app c p s : ~ In c p -> split_on c (p ++ c :: s) = p :: split_on c s.
Proof.
  induction p as [|b p IH]; intro F; simpl.
  - destruct (byte_eqb_spec c c); [reflexivity|congruence].
  - destruct (byte_eqb_spec b c) as [->|N]; [exfalso; apply F; left; reflexivity|].
    rewrite IH; [reflexivity|]. intro I. apply F. right. exact I.
Qed.
Lemma join_split c s : join [c] (split_on c s) = s.
Proof.
  induction s as [|b s IH]; simpl; [reflexivity|].
  destruct (byte_eqb_spec b c) as [->|N].
  - assert (X := split_on_ne c s). destruct (split_on c s) as [|p ps]; [congruence|].
    change (c :: join [c] (p :: ps) = c :: s). rewrite IH. reflexivity.
  - assert (X := split_on_ne c s). destruct (split_on c s) as [|p ps]; [congruence|].
    destruct ps as [|q ps]; [simpl in *; congruence|].
    change (b :: join [c] (p :: q :: ps) = b :: s). rewrite IH. reflexivity.
Qed.
Lemma split_join c l : l <> [] -> Forall (fun p => ~ In c p) l -> split_on c (join [c] l) = l.
Proof.
  induction l as [|p l IH]; intros N F; [congruence|]. inversion F; subst.
  destruct l as [|q l]; [apply split_on_free; assumption|].
  change (split_on c (p ++ c :: join [c] (q :: l)) = p :: q :: l).
  rewrite split_on_app by assumption. rewrite IH; [reflexivity|discriminate|assumption].
Qed.
Lemma split_on_inj c s t : split_on c s = split_on c t -> s = t.
Proof. intro E. rewrite <- (join_split c s), <- (join_split c t), E. reflexivity. Qed.
