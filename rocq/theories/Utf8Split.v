(** Splitting a UTF-8 string at an ASCII character gives UTF-8 strings: the
    pieces of [str::split] are strings. *)
From Coq Require Import List Arith NArith Lia Bool.
From Verif Require Import Bytes Utf8 Text.
Import ListNotations.
Local Open Scope N_scope.

Lemma utf8_step a s : utf8_valid (a :: s) = 
  if b2n a <? 128 then utf8_valid s else
  match s with
  | b :: s2 => if ok2 a b then utf8_valid s2 else
    match s2 with
    | c :: s3 => if ok3 a b c then utf8_valid s3 else
      match s3 with
      | d :: s4 => if ok4 a b c d then utf8_valid s4 else false
      | [] => false
      end
    | [] => false
    end
  | [] => false
  end.
Proof.
  unfold utf8_valid. cbn [utf8_decode]. destruct (b2n a <? 128).
  { destruct (utf8_decode s); reflexivity. }
  destruct s as [|b s]; [reflexivity|]. destruct (ok2 a b). { cbn [option_map]. destruct (utf8_decode s); reflexivity. }
  destruct s as [|c s]; [reflexivity|]. destruct (ok3 a b c). { destruct (utf8_decode s); reflexivity. }
  destruct s as [|d s]; [reflexivity|]. destruct (ok4 a b c d); [|reflexivity]. destruct (utf8_decode s); reflexivity.
Qed.
Lemma range_high lo hi b : 128 <= lo -> in_range lo hi b = true -> 128 <= b2n b.
Proof. unfold in_range. intros L E. apply andb_prop in E. destruct E as [E _]. apply N.leb_le in E. lia. Qed.
Ltac high E := repeat (apply orb_true_iff in E; destruct E as [E|E]); apply andb_prop in E; destruct E as [?E ?E].
Lemma ok2_high a b : ok2 a b = true -> 128 <= b2n b.
Proof. intro E. unfold ok2 in E. apply andb_prop in E. destruct E as [_ E]. eapply range_high; [|exact E]. lia. Qed.
Lemma ok3_high a b c : ok3 a b c = true -> 128 <= b2n b /\ 128 <= b2n c.
Proof.
  intro E. unfold ok3 in E. apply andb_prop in E. destruct E as [E C]. split; [|eapply range_high; [|exact C]; lia].
  high E; (eapply range_high; [|eassumption]; lia).
Qed.
Lemma ok4_high a b c d : ok4 a b c d = true -> 128 <= b2n b /\ 128 <= b2n c /\ 128 <= b2n d.
Proof.
  intro E. unfold ok4 in E. apply andb_prop in E. destruct E as [E D]. apply andb_prop in E. destruct E as [E C].
  split; [|split; [eapply range_high; [|exact C]; lia|eapply range_high; [|exact D]; lia]].
  high E; (eapply range_high; [|eassumption]; lia).
Qed.
Lemma split_high c b s : b2n c < 128 -> 128 <= b2n b ->
  exists p ps, split_on c s = p :: ps /\ split_on c (b :: s) = (b :: p) :: ps.
Proof.
  intros C B. simpl. destruct (byte_eqb_spec b c) as [->|_]; [lia|].
  assert (N := split_on_ne c s). destruct (split_on c s) as [|p ps]; [congruence|]. eauto.
Qed.
Lemma utf8_split_n c n : b2n c < 128 -> forall s, (length s <= n)%nat -> utf8_valid s = true -> Forall (fun p => utf8_valid p = true) (split_on c s).
Proof.
  intro C. induction n as [|n IH]; intros s L V.
  { destruct s; [|simpl in L; lia]. simpl. constructor; [reflexivity|constructor]. }
  destruct s as [|a s]. { simpl. constructor; [reflexivity|constructor]. }
  cbn [length] in L. rewrite utf8_step in V. destruct (b2n a <? 128) eqn:A.
  - assert (F := IH s ltac:(lia) V). simpl. destruct (byte_eqb a c); [constructor; [reflexivity|exact F]|].
    assert (N := split_on_ne c s). destruct (split_on c s) as [|p ps]; [congruence|]. inversion F; subst; constructor; auto. rewrite utf8_step, A. assumption.
  - apply N.ltb_ge in A. assert (A' : b2n a <? 128 = false) by (apply N.ltb_ge; exact A).
    destruct s as [|b s]; [discriminate|]. cbn [length] in L. destruct (ok2 a b) eqn:O2.
    { assert (F := IH s ltac:(lia) V). apply ok2_high in O2 as B.
      destruct (split_high c b s C B) as (p & ps & E1 & E2). destruct (split_high c a (b :: s) C A) as (p' & ps' & E3 & E4).
      rewrite E4. rewrite E2 in E3. injection E3 as <- <-. rewrite E1 in F. inversion F; subst. constructor; [|assumption].
      rewrite utf8_step, A', O2. assumption. }
    destruct s as [|d s]; [discriminate|]. cbn [length] in L. destruct (ok3 a b d) eqn:O3.
    { assert (F := IH s ltac:(lia) V). destruct (ok3_high _ _ _ O3) as [B D].
      destruct (split_high c d s C D) as (p & ps & E1 & E2). destruct (split_high c b (d :: s) C B) as (p' & ps' & E3 & E4).
      destruct (split_high c a (b :: d :: s) C A) as (p2 & ps2 & E5 & E6).
      rewrite E6. rewrite E4 in E5. injection E5 as <- <-. rewrite E2 in E3. injection E3 as <- <-. rewrite E1 in F. inversion F; subst.
      constructor; [|assumption]. rewrite utf8_step, A', O2, O3. assumption. }
    destruct s as [|e s]; [discriminate|]. cbn [length] in L. destruct (ok4 a b d e) eqn:O4; [|discriminate].
    assert (F := IH s ltac:(lia) V). destruct (ok4_high _ _ _ _ O4) as (B & D & G).
    destruct (split_high c e s C G) as (p0 & ps0 & E7 & E8).
    destruct (split_high c d (e :: s) C D) as (p & ps & E1 & E2). destruct (split_high c b (d :: e :: s) C B) as (p' & ps' & E3 & E4).
    destruct (split_high c a (b :: d :: e :: s) C A) as (p2 & ps2 & E5 & E6).
    rewrite E6. rewrite E4 in E5. injection E5 as <- <-. rewrite E2 in E3. injection E3 as <- <-. rewrite E8 in E1. injection E1 as <- <-.
    rewrite E7 in F. inversion F; subst.
    constructor; [|assumption]. rewrite utf8_step, A', O2, O3, O4. assumption.
Qed.
Lemma utf8_split c s : b2n c < 128 -> utf8_valid s = true -> Forall (fun p => utf8_valid p = true) (split_on c s).
Proof. intros C V. apply (utf8_split_n c (length s) C s); auto. Qed.
