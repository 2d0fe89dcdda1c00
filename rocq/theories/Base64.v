(** Base64 as configured at /repo/packages/ic-response-verification/src/base64.rs:1-12
    (standard alphabet, decode_padding_mode Indifferent, trailing bits allowed)
    and used for encoding at /repo/packages/ic-http-certification/src/utils/response_header.rs:2,84-86.
    The [base64] crate's source is not in /repo; the decoder follows its
    published behaviour: '=' only as the third/fourth character of the last
    group, nothing after it, padding optional, a single left-over character is
    an error. *)
From Coq Require Import List Arith NArith Lia Bool.
From Verif Require Import Bytes.
Import ListNotations.
Local Open Scope N_scope.

(** RFC 4648 table 1 *)
Definition alphabet : bytes := bs "ABCDEFGHIJKLMNOPQRSTUVWXYZabcdefghijklmnopqrstuvwxyz0123456789+/".
Definition chr (i : N) : byte := nth (N.to_nat i) alphabet "="%byte.
Fixpoint index_of (c : byte) (l : bytes) (i : N) : option N :=
  match l with [] => None | a :: r => if byte_eqb a c then Some i else index_of c r (i + 1) end.
Definition val (c : byte) : option N := index_of c alphabet 0.

Definition b64_group (pad : bool) (g : bytes) : bytes :=
  match g with
  | [a; b; c] => let n := b2n a * 65536 + b2n b * 256 + b2n c in
      [chr (n / 262144); chr (n / 4096 mod 64); chr (n / 64 mod 64); chr (n mod 64)]
  | [a; b] => let n := b2n a * 65536 + b2n b * 256 in
      [chr (n / 262144); chr (n / 4096 mod 64); chr (n / 64 mod 64)] ++ (if pad then bs "=" else [])
  | [a] => let n := b2n a * 65536 in
      [chr (n / 262144); chr (n / 4096 mod 64)] ++ (if pad then bs "==" else [])
  | _ => []
  end.
(** Engine::encode; [pad] tells STANDARD from STANDARD_NO_PAD *)
Fixpoint b64_enc (pad : bool) (s : bytes) : bytes :=
  match s with
  | a :: b :: c :: r => b64_group pad [a; b; c] ++ b64_enc pad r
  | g => b64_group pad g
  end.

(** value of up to four characters, missing ones as zero *)
Definition quad (a b : byte) (c d : option byte) : option N :=
  match val a, val b, match c with Some x => val x | None => Some 0 end, match d with Some x => val x | None => Some 0 end with
  | Some x, Some y, Some z, Some w => Some (x * 262144 + y * 4096 + z * 64 + w)
  | _, _, _, _ => None
  end.
Definition byte1 (n : N) : byte := n2b (n / 65536).
Definition byte2 (n : N) : byte := n2b (n / 256 mod 256).
Definition byte3 (n : N) : byte := n2b (n mod 256).
Definition is_pad (c : byte) : bool := byte_eqb c "=".
(** the last group *)
Definition b64_last (g : bytes) : option bytes :=
  match g with
  | [] => Some []
  | [a; b] => option_map (fun n => [byte1 n]) (quad a b None None)
  | [a; b; c] =>
      if is_pad c then option_map (fun n => [byte1 n]) (quad a b None None)
      else option_map (fun n => [byte1 n; byte2 n]) (quad a b (Some c) None)
  | [a; b; c; d] =>
      if is_pad d then
        if is_pad c then option_map (fun n => [byte1 n]) (quad a b None None)
        else option_map (fun n => [byte1 n; byte2 n]) (quad a b (Some c) None)
      else option_map (fun n => [byte1 n; byte2 n; byte3 n]) (quad a b (Some c) (Some d))
  | _ => None
  end.
(** Engine::decode *)
Fixpoint b64_dec (s : bytes) : option bytes :=
  match s with
  | a :: b :: c :: d :: ((_ :: _) as r) =>
      match quad a b (Some c) (Some d), b64_dec r with
      | Some n, Some o => Some (byte1 n :: byte2 n :: byte3 n :: o)
      | _, _ => None
      end
  | g => b64_last g
  end.

(** RFC 4648 section 10 *)
Example b64_vectors :
  b64_enc true (bs "foobar") = bs "Zm9vYmFy" /\ b64_enc true (bs "fooba") = bs "Zm9vYmE=" /\
  b64_enc true (bs "foob") = bs "Zm9vYg==" /\ b64_enc false (bs "foob") = bs "Zm9vYg" /\
  b64_dec (bs "Zm9vYg=") = Some (bs "foob") /\ b64_dec (bs "Zm9vY===") = None /\ b64_dec (bs "Zm9=Ymfy") = None.
Proof. vm_compute. repeat split. Qed.

Lemma val_chr i : i < 64 -> val (chr i) = Some i /\ is_pad (chr i) = false.
Proof.
  assert (A : forallb (fun k => match val (chr (N.of_nat k)) with Some j => j =? N.of_nat k | None => false end && negb (is_pad (chr (N.of_nat k)))) (seq 0 64) = true) by (vm_compute; reflexivity).
  intro L. rewrite forallb_forall in A. specialize (A (N.to_nat i)). rewrite N2Nat.id in A.
  specialize (A ltac:(apply in_seq; lia)). apply andb_prop in A. destruct A as [A B]. destruct (val (chr i)); [|discriminate].
  apply N.eqb_eq in A. subst. split; [reflexivity|]. destruct (is_pad (chr i)); [discriminate|reflexivity].
Qed.
Ltac bound := match goal with |- ?x < 64 =>
  first [ apply N.mod_lt; lia | apply N.div_lt_upper_bound; lia ] end.
Lemma digits n : n < 16777216 ->
  n / 262144 * 262144 + (n / 4096 mod 64) * 4096 + (n / 64 mod 64) * 64 + n mod 64 = n.
Proof.
  intros _. assert (A := N.div_mod' n 64). assert (B := N.div_mod' (n / 64) 64). assert (C := N.div_mod' (n / 4096) 64).
  rewrite N.div_div in B by lia. change (64 * 64) with 4096 in B. rewrite N.div_div in C by lia. change (4096 * 64) with 262144 in C. lia.
Qed.
Lemma quad4 n : n < 16777216 ->
  quad (chr (n / 262144)) (chr (n / 4096 mod 64)) (Some (chr (n / 64 mod 64))) (Some (chr (n mod 64))) = Some n.
Proof.
  intro L. unfold quad. rewrite !(fun i Hi => proj1 (val_chr i Hi)) by bound. rewrite digits by exact L. reflexivity.
Qed.
Lemma bytes_of a b c : let n := b2n a * 65536 + b2n b * 256 + b2n c in
  n < 16777216 /\ byte1 n = a /\ byte2 n = b /\ byte3 n = c.
Proof.
  assert (A := b2n_lt a). assert (B := b2n_lt b). assert (C := b2n_lt c). cbv zeta.
  set (n := b2n a * 65536 + b2n b * 256 + b2n c).
  assert (N1 : n / 65536 = b2n a) by (symmetry; apply (N.div_unique _ _ _ (b2n b * 256 + b2n c)); unfold n; lia).
  assert (N2 : n / 256 = b2n a * 256 + b2n b) by (symmetry; apply (N.div_unique _ _ _ (b2n c)); unfold n; lia).
  assert (N3 : n mod 256 = b2n c) by (symmetry; apply (N.mod_unique _ _ (b2n a * 256 + b2n b)); unfold n; lia).
  assert (N4 : (b2n a * 256 + b2n b) mod 256 = b2n b) by (symmetry; apply (N.mod_unique _ _ (b2n a)); lia).
  split; [unfold n; lia|]. unfold byte1, byte2, byte3. rewrite N1, N2, N3, N4. rewrite !n2b_b2n. auto.
Qed.
Lemma quad3 a b : let n := b2n a * 65536 + b2n b * 256 in
  quad (chr (n / 262144)) (chr (n / 4096 mod 64)) (Some (chr (n / 64 mod 64))) None = Some n.
Proof.
  cbv zeta. set (n := b2n a * 65536 + b2n b * 256). assert (A := b2n_lt a). assert (B := b2n_lt b).
  assert (L : n < 16777216) by (unfold n; lia).
  unfold quad. rewrite !(fun i Hi => proj1 (val_chr i Hi)) by bound.
  assert (Z : n mod 64 = 0) by (unfold n; replace (b2n a * 65536 + b2n b * 256) with ((b2n a * 1024 + b2n b * 4) * 64) by lia; apply N.mod_mul; lia).
  assert (D := digits n L). rewrite Z in D. rewrite D. reflexivity.
Qed.
Lemma quad2 a : let n := b2n a * 65536 in
  quad (chr (n / 262144)) (chr (n / 4096 mod 64)) None None = Some n.
Proof.
  cbv zeta. set (n := b2n a * 65536). assert (A := b2n_lt a). assert (L : n < 16777216) by (unfold n; lia).
  unfold quad. rewrite !(fun i Hi => proj1 (val_chr i Hi)) by bound.
  assert (Z : n mod 64 = 0) by (unfold n; replace (b2n a * 65536) with ((b2n a * 1024) * 64) by lia; apply N.mod_mul; lia).
  assert (Z2 : n / 64 mod 64 = 0).
  { unfold n. replace (b2n a * 65536) with ((b2n a * 16 * 64) * 64) by lia. rewrite N.div_mul by lia. apply N.mod_mul; lia. }
  assert (D := digits n L). rewrite Z, Z2 in D. rewrite D. reflexivity.
Qed.
Lemma b64_last_ok pad g : (length g < 3)%nat -> b64_last (b64_group pad g) = Some g.
Proof.
  destruct g as [|a [|b [|c g]]]; intro L; [reflexivity| | |simpl in L; lia].
  - destruct (bytes_of a x00 x00) as (_ & B1 & _). change (b2n x00) with 0 in B1. rewrite N.mul_0_l, !N.add_0_r in B1.
    unfold b64_group. assert (Q := quad2 a). cbv zeta in *. destruct pad; cbn [app b64_last bs];
    (rewrite Q; cbn [option_map]; rewrite B1; reflexivity).
  - destruct (bytes_of a b x00) as (_ & B1 & B2 & _). change (b2n x00) with 0 in B1, B2. rewrite N.add_0_r in B1, B2.
    unfold b64_group. assert (Q := quad3 a b). cbv zeta in *.
    assert (P := val_chr ((b2n a * 65536 + b2n b * 256) / 64 mod 64) ltac:(bound)). destruct P as [_ P].
    destruct pad; cbn [app b64_last bs]; rewrite ?P; change (is_pad "=") with true; cbn iota;
    (rewrite Q; cbn [option_map]; rewrite B1, B2; reflexivity).
Qed.
Lemma b64_enc_ne pad s : s <> [] -> b64_enc pad s <> [].
Proof. destruct s as [|a [|b [|c r]]]; [congruence|discriminate..]. Qed.
Lemma b64_dec_group a b c d r : r <> [] -> b64_dec (a :: b :: c :: d :: r) =
  match quad a b (Some c) (Some d), b64_dec r with
  | Some n, Some o => Some (byte1 n :: byte2 n :: byte3 n :: o)
  | _, _ => None
  end.
Proof. destruct r; [congruence|reflexivity]. Qed.
Lemma b64_dec_last g : (length g <= 4)%nat -> b64_dec g = b64_last g.
Proof. destruct g as [|a [|b [|c [|d [|e g]]]]]; try reflexivity. simpl. lia. Qed.

Lemma b64_round_trip pad : forall n s, (length s <= n)%nat -> b64_dec (b64_enc pad s) = Some s.
Proof.
  induction n as [|n IH]; intros s L.
  - destruct s; [reflexivity|simpl in L; lia].
  - destruct s as [|a [|b [|c r]]].
    + reflexivity.
    + rewrite b64_dec_last by (destruct pad; simpl; lia). apply b64_last_ok. simpl; lia.
    + rewrite b64_dec_last by (destruct pad; simpl; lia). apply b64_last_ok. simpl; lia.
    + change (b64_enc pad (a :: b :: c :: r)) with (b64_group pad [a; b; c] ++ b64_enc pad r).
      destruct (bytes_of a b c) as (Ln & B1 & B2 & B3). unfold b64_group. cbv zeta in *.
      set (m := b2n a * 65536 + b2n b * 256 + b2n c) in *. cbn [app].
      destruct r as [|x r].
      * cbn [b64_enc b64_group]. rewrite b64_dec_last by (simpl; lia). cbn [b64_last].
        assert (P := val_chr (m mod 64) ltac:(bound)). destruct P as [_ P]. rewrite P, quad4 by exact Ln. cbn [option_map]. rewrite B1, B2, B3. reflexivity.
      * rewrite b64_dec_group by (apply b64_enc_ne; discriminate). rewrite quad4 by exact Ln.
        rewrite IH by (simpl in *; lia). rewrite B1, B2, B3. reflexivity.
Qed.
(** the characters an encoding consists of *)
Definition b64_char (c : byte) : bool := match val c with Some _ => true | None => is_pad c end.
Lemma chr_char i : i < 64 -> b64_char (chr i) = true.
Proof. intro L. unfold b64_char. rewrite (proj1 (val_chr i L)). reflexivity. Qed.
Lemma b64_enc_chars pad : forall n s, (length s <= n)%nat -> Forall (fun c => b64_char c = true) (b64_enc pad s).
Proof.
  assert (G : forall g, (length g <= 3)%nat -> Forall (fun c => b64_char c = true) (b64_group pad g)).
  { intros g L. destruct g as [|a [|b [|c [|d g]]]]; try (simpl in L; lia); unfold b64_group; cbv zeta.
    - constructor.
    - assert (A := b2n_lt a). destruct pad; cbn [app bs]; repeat (apply Forall_cons || apply Forall_nil); try (apply chr_char; bound); reflexivity.
    - assert (A := b2n_lt a). assert (B := b2n_lt b). destruct pad; cbn [app bs]; repeat (apply Forall_cons || apply Forall_nil); try (apply chr_char; bound); reflexivity.
    - assert (A := b2n_lt a). assert (B := b2n_lt b). assert (C := b2n_lt c). repeat (apply Forall_cons || apply Forall_nil); apply chr_char; bound. }
  induction n as [|n IH]; intros s L.
  - destruct s; [constructor|simpl in L; lia].
  - destruct s as [|a [|b [|c r]]]; try (apply G; simpl; lia).
    change (b64_enc pad (a :: b :: c :: r)) with (b64_group pad [a; b; c] ++ b64_enc pad r). apply Forall_app. split; [apply G; simpl; lia|apply IH; simpl in *; lia].
Qed.
