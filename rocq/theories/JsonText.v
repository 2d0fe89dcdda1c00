(** The body of the list response determines the list. *)
From Coq Require Import List Arith NArith Lia Bool.
From Verif Require Import Bytes Text AssetRouter HeaderSpec RangeSpec Props_Range JsonApi.
Import ListNotations.
Local Open Scope N_scope.

Definition all_bytes : list byte := map n2b (map N.of_nat (List.seq 0%nat 256%nat)).
Lemma all_bytes_in b : In b all_bytes.
Proof. unfold all_bytes. rewrite <- (n2b_b2n b). apply in_map. rewrite <- (N2Nat.id (b2n b)). apply in_map. apply in_seq. assert (L := Byte.to_N_bounded b). change (Byte.to_N b) with (b2n b) in L. lia. Qed.
Fixpoint starts (p s : bytes) : bool := match p, s with [] , _ => true | x :: p', y :: s' => byte_eqb x y && starts p' s' | _ :: _, [] => false end.
Lemma starts_app p : forall r s, p ++ r = s -> starts p s = true.
Proof. induction p as [|x p IH]; intros r s <-; [reflexivity|]. cbn [app starts]. rewrite (proj2 (byte_eqb_eq x x) eq_refl). apply (IH r). reflexivity. Qed.
Lemma escape_table :
  forallb (fun b => match json_escape b with [] => false | c :: _ => negb (byte_eqb c x22) end) all_bytes = true /\
  forallb (fun b => forallb (fun b' => byte_eqb b b' || negb (starts (json_escape b) (json_escape b'))) all_bytes) all_bytes = true.
Proof. split; vm_compute; reflexivity. Qed.
Lemma starts_cases p : forall q r r', p ++ r = q ++ r' -> starts p q = true \/ starts q p = true.
Proof.
  induction p as [|x p IH]; intros [|y q] r r' E; auto. cbn [app starts] in *. injection E as -> E. rewrite (proj2 (byte_eqb_eq y y) eq_refl). exact (IH _ _ _ E).
Qed.
Lemma escape_prefix_free b b' r r' : json_escape b ++ r = json_escape b' ++ r' -> b = b' /\ r = r'.
Proof.
  intro E. destruct escape_table as [_ T]. rewrite forallb_forall in T. assert (T1 := T b (all_bytes_in b)). assert (T2 := T b' (all_bytes_in b')). rewrite forallb_forall in T1, T2.
  specialize (T1 b' (all_bytes_in b')). specialize (T2 b (all_bytes_in b)). destruct (byte_eqb b b') eqn:EB.
  - apply byte_eqb_eq in EB. subst b'. split; [reflexivity|]. apply app_inv_head in E. exact E.
  - assert (EB' : byte_eqb b' b = false). { destruct (byte_eqb b' b) eqn:Z; [|reflexivity]. apply byte_eqb_eq in Z. subst b'. rewrite (proj2 (byte_eqb_eq b b) eq_refl) in EB. discriminate EB. }
    rewrite EB' in T2. cbn [orb] in T1, T2. apply negb_true_iff in T1, T2. destruct (starts_cases _ _ _ _ E); congruence.
Qed.
Lemma escape_head b : exists c l, json_escape b = c :: l /\ c <> x22.
Proof.
  destruct escape_table as [T _]. rewrite forallb_forall in T. specialize (T b (all_bytes_in b)). destruct (json_escape b) as [|c l]; [discriminate T|]. exists c, l. split; [reflexivity|].
  intros ->. discriminate T.
Qed.
Lemma string_prefix_free s : forall s' r r', json_string s ++ r = json_string s' ++ r' -> s = s' /\ r = r'.
Proof.
  unfold json_string. cbn [app]. intros s' r r' E. injection E as E. revert s' E. induction s as [|b s IH]; intros [|b' s'] E; cbn [flat_map app] in E.
  - injection E as E. auto.
  - exfalso. destruct (escape_head b') as (c & l & Ec & N). rewrite Ec in E. injection E as E _. congruence.
  - exfalso. destruct (escape_head b) as (c & l & Ec & N). rewrite Ec in E. injection E as E _. congruence.
  - rewrite <- !app_assoc in E. apply escape_prefix_free in E. destruct E as [-> E]. rewrite !app_assoc in E. destruct (IH s' E) as [-> ->]. auto.
Qed.
Lemma dec_digits n : Forall (fun b => 48 <= b2n b <= 57) (dec n).
Proof. assert (X := dec_decimal n). destruct X as (_ & F & _). exact F. Qed.
Lemma dec_prefix_free n m c r r' : b2n c < 48 -> dec n ++ c :: r = dec m ++ c :: r' -> n = m /\ r = r'.
Proof.
  intros C E. assert (X : forall a b, Forall (fun b => 48 <= b2n b <= 57) a -> Forall (fun b => 48 <= b2n b <= 57) b -> a ++ c :: r = b ++ c :: r' -> a = b /\ r = r').
  { induction a as [|x a IH]; intros [|y b] Fa Fb Z; cbn [app] in Z.
    - injection Z as Z. auto.
    - exfalso. injection Z as <- _. inversion Fb; subst. lia.
    - exfalso. injection Z as -> _. inversion Fa; subst. lia.
    - injection Z as -> Z. inversion Fa; subst. inversion Fb; subst. destruct (IH b) as [-> ->]; auto. }
  destruct (X _ _ (dec_digits n) (dec_digits m) E) as [A B]. split; [apply dec_inj, A|exact B].
Qed.
Lemma todo_prefix_free t t' r r' : json_todo t ++ r = json_todo t' ++ r' -> t = t' /\ r = r'.
Proof.
  destruct t as [i ti co], t' as [i' ti' co']. unfold json_todo. cbn [td_id td_title td_completed]. rewrite <- !app_assoc. intro E.
  apply app_inv_head in E. apply app_inv_head in E. apply app_inv_head in E. apply dec_prefix_free in E; [|vm_compute; reflexivity]. destruct E as [-> E]. cbn [app] in E.
  apply app_inv_head in E. apply app_inv_head in E. apply string_prefix_free in E. destruct E as [-> E]. apply app_inv_head in E. apply app_inv_head in E. apply app_inv_head in E.
  destruct co, co'; cbn [app] in E; try discriminate E; injection E as ->; auto.
Qed.
Lemma join_todos l : match l with [] => join (bs ",") (map json_todo l) = [] | t :: r => join (bs ",") (map json_todo l) = json_todo t ++ flat_map (fun x => bs "," ++ json_todo x) r end.
Proof.
  destruct l as [|t r]; [reflexivity|]. revert t. induction r as [|t' r IH]; intro t; [cbn [map join flat_map]; rewrite app_nil_r; reflexivity|].
  specialize (IH t'). cbn [map flat_map] in *. rewrite <- app_assoc. rewrite <- IH. reflexivity.
Qed.
Theorem C87_body_determines_list : forall l l', list_body l = list_body l' -> l = l'.
Proof.
  intros l l' E. unfold list_body, json_ok in E. do 5 apply app_inv_head in E. apply app_inv_tail in E. unfold json_list in E. apply app_inv_head in E.
  assert (X : forall r r', flat_map (fun x => bs "," ++ json_todo x) r ++ bs "]" = flat_map (fun x => bs "," ++ json_todo x) r' ++ bs "]" -> r = r').
  { induction r as [|t r IH]; intros [|t' r'] Z; [reflexivity|discriminate Z|discriminate Z|]. cbn [flat_map] in Z. rewrite <- !app_assoc in Z. apply app_inv_head in Z. apply todo_prefix_free in Z. destruct Z as [-> Z]. f_equal. apply IH, Z. }
  assert (A := join_todos l). assert (A' := join_todos l'). destruct l as [|t r], l' as [|t' r']; [reflexivity| | |]; rewrite A, A' in E; try discriminate E.
  rewrite <- !app_assoc in E. apply todo_prefix_free in E. destruct E as [-> E]. f_equal. apply X, E.
Qed.
Print Assumptions C87_body_determines_list.
