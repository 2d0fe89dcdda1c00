(** C121: exactly which strings the verifier's base64 engine decodes, and to what. *)
From Coq Require Import List Arith NArith Lia Bool.
From Verif Require Import Bytes Base64.
Import ListNotations.
Local Open Scope N_scope.

(** the number written by some digits *)
Definition written (base : N) (ds : list N) : N := fold_left (fun a d => a * base + d) ds 0.
(** RFC 4648 table 1: A-Z are 0-25, a-z are 26-51, 0-9 are 52-61, "+" is 62 and "/" is 63 *)
Definition rfc4648_digit (c : byte) (v : N) : Prop :=
  (65 <= b2n c <= 90 /\ v = b2n c - 65) \/ (97 <= b2n c <= 122 /\ v = b2n c - 97 + 26) \/ (48 <= b2n c <= 57 /\ v = b2n c - 48 + 52) \/
  (c = "+"%byte /\ v = 62) \/ (c = "/"%byte /\ v = 63).
(** the digits of a string of characters of that table *)
Definition digits_of (cs : bytes) (ds : list N) : Prop := Forall2 rfc4648_digit cs ds.
(** how many "=" may follow: at most what fills the last group of four *)
Definition padding (n : nat) : nat := match (n mod 4)%nat with 2%nat => 2%nat | 3%nat => 1%nat | _ => 0%nat end.
(** The bytes are the number the characters write, without its last 0, 2 or 4 bits, whatever those are. *)
Definition is_base64 (s d : bytes) : Prop :=
  exists cs ds k rest,
    s = cs ++ repeat "="%byte k /\ digits_of cs ds /\ (length cs mod 4 <> 1)%nat /\ (k <= padding (length cs))%nat /\
    length d = (6 * length cs / 8)%nat /\
    let bits := N.of_nat (6 * length cs - 8 * length d) in
    written 64 ds = written 256 (map b2n d) * 2 ^ bits + rest /\ rest < 2 ^ bits.

Lemma fold_written base ds : forall a, fold_left (fun a d => a * base + d) ds a = a * base ^ N.of_nat (length ds) + written base ds.
Proof.
  unfold written. induction ds as [|d ds IH]; intro a; cbn [fold_left length]; [change (N.of_nat 0) with 0; rewrite N.pow_0_r; lia|].
  rewrite (IH (a * base + d)), (IH (0 * base + d)). rewrite Nat2N.inj_succ, N.pow_succ_r'. lia.
Qed.
Lemma written_app base a b : written base (a ++ b) = written base a * base ^ N.of_nat (length b) + written base b.
Proof. unfold written at 1. rewrite fold_left_app. apply fold_written. Qed.
Lemma pow64 n : 64 ^ n = 2 ^ (6 * n).
Proof. change 64 with (2 ^ 6). rewrite <- N.pow_mul_r. reflexivity. Qed.
Lemma pow256 n : 256 ^ n = 2 ^ (8 * n).
Proof. change 256 with (2 ^ 8). rewrite <- N.pow_mul_r. reflexivity. Qed.

Lemma index_of_spec c l i v : index_of c l i = Some v -> i <= v /\ nth_error l (N.to_nat (v - i)) = Some c.
Proof.
  revert i. induction l as [|a l IH]; intros i E; cbn [index_of] in E; [discriminate E|].
  destruct (byte_eqb a c) eqn:B.
  - injection E as <-. rewrite N.sub_diag. apply byte_eqb_eq in B. subst a. split; [lia|reflexivity].
  - apply IH in E. destruct E as [L E]. split; [lia|]. replace (N.to_nat (v - i)) with (S (N.to_nat (v - (i + 1)))) by lia. exact E.
Qed.
Lemma val_spec c v : val c = Some v <-> nth_error alphabet (N.to_nat v) = Some c.
Proof.
  split.
  - intro E. apply index_of_spec in E. rewrite N.sub_0_r in E. tauto.
  - intro E. assert (L : (N.to_nat v < length alphabet)%nat) by (apply nth_error_Some; rewrite E; intro Z; discriminate Z).
    assert (C : c = chr v) by (unfold chr; symmetry; apply nth_error_nth; exact E). subst c. apply val_chr. change (length alphabet) with 64%nat in L. lia.
Qed.
Definition rfc_val (c : byte) : option N :=
  let n := b2n c in
  if (65 <=? n) && (n <=? 90) then Some (n - 65) else if (97 <=? n) && (n <=? 122) then Some (n - 97 + 26)
  else if (48 <=? n) && (n <=? 57) then Some (n - 48 + 52) else if n =? 43 then Some 62 else if n =? 47 then Some 63 else None.
Lemma val_rfc c : val c = rfc_val c.
Proof. destruct c; reflexivity. Qed.
Lemma val_digit c v : val c = Some v <-> rfc4648_digit c v.
Proof.
  rewrite val_rfc. unfold rfc_val, rfc4648_digit. cbv zeta.
  assert (P : c = "+"%byte <-> b2n c = 43). { split; [intros ->; reflexivity|]. intro E. rewrite <- (n2b_b2n c), E. reflexivity. }
  assert (Q : c = "/"%byte <-> b2n c = 47). { split; [intros ->; reflexivity|]. intro E. rewrite <- (n2b_b2n c), E. reflexivity. }
  rewrite P, Q. clear P Q. generalize (b2n c). intro n. clear c.
  destruct (N.leb_spec 65 n), (N.leb_spec n 90), (N.leb_spec 97 n), (N.leb_spec n 122), (N.leb_spec 48 n), (N.leb_spec n 57), (N.eqb_spec n 43), (N.eqb_spec n 47);
    cbn [andb]; split; intro E; try (exfalso; lia); try (injection E as <-); try (discriminate E); try lia; try (f_equal; lia).
Qed.
Lemma val_small c v : val c = Some v -> v < 64.
Proof. intro E. apply val_spec in E. assert (L : (N.to_nat v < length alphabet)%nat) by (apply nth_error_Some; rewrite E; intro Z; discriminate Z). change (length alphabet) with 64%nat in L. lia. Qed.
Lemma pad_not : forall v, ~ rfc4648_digit "="%byte v.
Proof. intros v E. apply val_digit in E. assert (Z : val "=" = None) by reflexivity. rewrite Z in E. discriminate E. Qed.
Lemma b2n_n2b_small n : n < 256 -> b2n (n2b n) = n.
Proof. intro L. rewrite b2n_n2b. apply N.mod_small. exact L. Qed.
Lemma three_bytes n : n < 16777216 -> written 256 (map b2n [byte1 n; byte2 n; byte3 n]) = n.
Proof.
  intro L. unfold byte1, byte2, byte3. cbn [map written fold_left]. unfold written. cbn [fold_left].
  rewrite (b2n_n2b_small (n / 65536)) by (apply N.div_lt_upper_bound; lia). rewrite !b2n_n2b_small by (apply N.mod_lt; lia).
  assert (A := N.div_mod' n 256). assert (B := N.div_mod' (n / 256) 256). rewrite N.div_div in B by lia. change (256 * 256) with 65536 in B. lia.
Qed.
Lemma two_bytes n : n < 16777216 -> written 256 (map b2n [byte1 n; byte2 n]) = n / 256.
Proof.
  intro L. unfold byte1, byte2. unfold written. cbn [map fold_left].
  rewrite (b2n_n2b_small (n / 65536)) by (apply N.div_lt_upper_bound; lia). rewrite !b2n_n2b_small by (apply N.mod_lt; lia).
  assert (B := N.div_mod' (n / 256) 256). rewrite N.div_div in B by lia. change (256 * 256) with 65536 in B. lia.
Qed.
Lemma one_byte n : n < 16777216 -> written 256 (map b2n [byte1 n]) = n / 65536.
Proof. intro L. unfold byte1. unfold written. cbn [map fold_left]. rewrite b2n_n2b_small by (apply N.div_lt_upper_bound; lia). lia. Qed.
Lemma quad_some a b c d n : quad a b c d = Some n -> exists x y z w, val a = Some x /\ val b = Some y /\
  match c with Some c => val c = Some z | None => z = 0 end /\ match d with Some d => val d = Some w | None => w = 0 end /\
  n = x * 262144 + y * 4096 + z * 64 + w /\ n < 16777216.
Proof.
  unfold quad. destruct (val a) as [x|] eqn:A; [|discriminate]. destruct (val b) as [y|] eqn:B; [|discriminate].
  destruct (match c with Some c => val c | None => Some 0 end) as [z|] eqn:C; [|discriminate]. destruct (match d with Some c => val c | None => Some 0 end) as [w|] eqn:D; [|discriminate].
  intro E. injection E as <-. exists x, y, z, w. apply val_small in A, B.
  assert (z < 64 /\ match c with Some c => val c = Some z | None => z = 0 end) as [Z1 Z2] by (destruct c; [split; [eapply val_small; exact C|exact C]|injection C as <-; split; [lia|reflexivity]]).
  assert (w < 64 /\ match d with Some c => val c = Some w | None => w = 0 end) as [W1 W2] by (destruct d; [split; [eapply val_small; exact D|exact D]|injection D as <-; split; [lia|reflexivity]]).
  repeat split; try assumption. lia.
Qed.
Ltac digs := repeat (apply Forall2_cons || apply Forall2_nil); apply val_digit; assumption.
Lemma two_chars a b n k : quad a b None None = Some n -> (k <= 2)%nat -> is_base64 ([a; b] ++ repeat "="%byte k) [byte1 n].
Proof.
  intros Q K. destruct (quad_some _ _ _ _ _ Q) as (x & y & z & w & A & B & -> & -> & N & L).
  exists [a; b], [x; y], k, (n / 4096 mod 16). split; [reflexivity|]. split; [digs|]. split; [cbn; lia|]. split; [exact K|]. split; [reflexivity|]. cbv zeta. rewrite one_byte by exact L.
  change (N.of_nat (6 * length [a; b] - 8 * length [byte1 n])) with 4. change (2 ^ 4) with 16. split; [|apply N.mod_lt; lia].
  unfold written. cbn [fold_left]. assert (E : n / 4096 = (0 * 64 + x) * 64 + y) by (symmetry; apply N.div_unique with (r := 0); lia). rewrite <- E.
  assert (D := N.div_mod' (n / 4096) 16). rewrite N.div_div in D by lia. change (4096 * 16) with 65536 in D. lia.
Qed.
Lemma three_chars a b c n k : quad a b (Some c) None = Some n -> (k <= 1)%nat -> is_base64 ([a; b; c] ++ repeat "="%byte k) [byte1 n; byte2 n].
Proof.
  intros Q K. destruct (quad_some _ _ _ _ _ Q) as (x & y & z & w & A & B & C & -> & N & L).
  exists [a; b; c], [x; y; z], k, (n / 64 mod 4). split; [reflexivity|]. split; [digs|]. split; [cbn; lia|]. split; [exact K|]. split; [reflexivity|]. cbv zeta. rewrite two_bytes by exact L.
  change (N.of_nat (6 * length [a; b; c] - 8 * length [byte1 n; byte2 n])) with 2. change (2 ^ 2) with 4. split; [|apply N.mod_lt; lia].
  unfold written. cbn [fold_left]. assert (E : n / 64 = ((0 * 64 + x) * 64 + y) * 64 + z) by (symmetry; apply N.div_unique with (r := 0); lia). rewrite <- E.
  assert (D := N.div_mod' (n / 64) 4). rewrite N.div_div in D by lia. change (64 * 4) with 256 in D. lia.
Qed.
Lemma mod4 n : ((4 + n) mod 4 = n mod 4)%nat.
Proof. replace (4 + n)%nat with (n + 1 * 4)%nat by lia. apply Nat.mod_add. lia. Qed.
Lemma div34 n : (6 * (4 + n) / 8 = 3 + 6 * n / 8)%nat.
Proof. replace (6 * (4 + n))%nat with (3 * 8 + 6 * n)%nat by lia. apply Nat.div_add_l. lia. Qed.
Lemma four_chars a b c d n s o : quad a b (Some c) (Some d) = Some n -> is_base64 s o -> is_base64 (a :: b :: c :: d :: s) (byte1 n :: byte2 n :: byte3 n :: o).
Proof.
  intros Q (cs & ds & k & rest & -> & D & M & K & LO & W). destruct (quad_some _ _ _ _ _ Q) as (x & y & z & w & A & B & C & E & N & L).
  exists (a :: b :: c :: d :: cs), (x :: y :: z :: w :: ds), k, rest. split; [reflexivity|].
  split; [repeat apply Forall2_cons; try (apply val_digit; assumption); exact D|].
  change (length (a :: b :: c :: d :: cs)) with (4 + length cs)%nat. unfold padding. rewrite mod4. split; [exact M|]. split; [exact K|].
  change (length (byte1 n :: byte2 n :: byte3 n :: o)) with (3 + length o)%nat. rewrite div34. split; [lia|].
  cbv zeta in W |- *. replace (6 * (4 + length cs) - 8 * (3 + length o))%nat with (6 * length cs - 8 * length o)%nat by lia. destruct W as [W R]. split; [|exact R].
  assert (LD : length ds = length cs) by (clear - D; induction D; cbn; congruence).
  assert (Y : (8 * length o <= 6 * length cs)%nat) by (rewrite LO; apply Nat.mul_div_le; lia).
  change (x :: y :: z :: w :: ds) with ([x; y; z; w] ++ ds). change (map b2n (byte1 n :: byte2 n :: byte3 n :: o)) with (map b2n [byte1 n; byte2 n; byte3 n] ++ map b2n o).
  rewrite !written_app, W, three_bytes by exact L. rewrite map_length, LD, pow64, pow256.
  assert (E4 : written 64 [x; y; z; w] = n) by (unfold written; cbn [fold_left]; lia). rewrite E4.
  replace (6 * N.of_nat (length cs)) with (8 * N.of_nat (length o) + N.of_nat (6 * length cs - 8 * length o)) by lia. rewrite N.pow_add_r. lia.
Qed.
Lemma is_base64_nil : is_base64 [] [].
Proof. exists [], [], 0%nat, 0. cbn. repeat split; try constructor; lia. Qed.
Lemma pad_eq c : is_pad c = true -> c = "="%byte.
Proof. apply byte_eqb_eq. Qed.
Lemma dec_sound : forall n s d, (length s <= n)%nat -> b64_dec s = Some d -> is_base64 s d.
Proof.
  induction n as [|n IH]; intros s d L E.
  - destruct s; [|cbn in L; lia]. injection E as <-. apply is_base64_nil.
  - destruct s as [|a [|b [|c [|x r]]]].
    + injection E as <-. apply is_base64_nil.
    + discriminate E.
    + cbn [b64_dec b64_last] in E. destruct (quad a b None None) as [m|] eqn:Q; [|discriminate E]. injection E as <-. apply (two_chars a b m 0 Q). lia.
    + cbn [b64_dec b64_last] in E. destruct (is_pad c) eqn:P.
      * apply pad_eq in P. subst c. destruct (quad a b None None) as [m|] eqn:Q; [|discriminate E]. injection E as <-. apply (two_chars a b m 1 Q). lia.
      * destruct (quad a b (Some c) None) as [m|] eqn:Q; [|discriminate E]. injection E as <-. apply (three_chars a b c m 0 Q). lia.
    + destruct r as [|y r].
      * cbn [b64_dec b64_last] in E. destruct (is_pad x) eqn:P; [apply pad_eq in P; subst x; destruct (is_pad c) eqn:P'|].
        -- apply pad_eq in P'. subst c. destruct (quad a b None None) as [m|] eqn:Q; [|discriminate E]. injection E as <-. apply (two_chars a b m 2 Q). lia.
        -- destruct (quad a b (Some c) None) as [m|] eqn:Q; [|discriminate E]. injection E as <-. apply (three_chars a b c m 1 Q). lia.
        -- destruct (quad a b (Some c) (Some x)) as [m|] eqn:Q; [|discriminate E]. injection E as <-. apply four_chars; [exact Q|apply is_base64_nil].
      * rewrite b64_dec_group in E by discriminate. destruct (quad a b (Some c) (Some x)) as [m|] eqn:Q; [|discriminate E]. destruct (b64_dec (y :: r)) as [o|] eqn:R; [|discriminate E]. injection E as <-.
        apply four_chars; [exact Q|]. apply IH; [cbn in *; lia|exact R].
Qed.
Lemma dec_total : forall n cs ds k, (length cs <= n)%nat -> digits_of cs ds -> (length cs mod 4 <> 1)%nat -> (k <= padding (length cs))%nat -> exists d, b64_dec (cs ++ repeat "="%byte k) = Some d.
Proof.
  assert (NP : forall c v, rfc4648_digit c v -> val c = Some v /\ is_pad c = false).
  { intros c v E. split; [apply val_digit; exact E|]. destruct (is_pad c) eqn:P; [|reflexivity]. apply pad_eq in P. subst c. destruct (pad_not v E). }
  induction n as [|n IH]; intros cs ds k L D M K.
  - destruct cs; [|cbn in L; lia]. cbn in K. assert (k = 0%nat) as -> by lia. exists []. reflexivity.
  - destruct cs as [|a [|b [|c [|x r]]]].
    + cbn in K. assert (k = 0%nat) as -> by lia. exists []. reflexivity.
    + cbn in M. lia.
    + inversion D as [|? va ? ? A D1]; subst. inversion D1 as [|? vb ? ? B D2]; subst. apply NP in A, B. destruct A as [A PA]. destruct B as [B PB]. change (padding (length [a; b])) with 2%nat in K.
      destruct k as [|[|[|k]]]; try lia; cbn [repeat app b64_dec b64_last]; change (is_pad "=") with true; cbn iota; unfold quad; rewrite A, B; cbn [option_map]; eauto.
    + inversion D as [|? va ? ? A D1]; subst. inversion D1 as [|? vb ? ? B D2]; subst. inversion D2 as [|? vc ? ? C D3]; subst. apply NP in A, B, C. destruct A as [A PA]. destruct B as [B PB]. destruct C as [C PC]. change (padding (length [a; b; c])) with 1%nat in K.
      destruct k as [|[|k]]; try lia; cbn [repeat app b64_dec b64_last]; change (is_pad "=") with true; rewrite PC; cbn iota; unfold quad; rewrite A, B, C; cbn [option_map]; eauto.
    + inversion D as [|? va ? ? A D1]; subst. inversion D1 as [|? vb ? ? B D2]; subst. inversion D2 as [|? vc ? ? C D3]; subst. inversion D3 as [|? vx ? ? X D4]; subst. apply NP in A, B, C, X. destruct A as [A PA]. destruct B as [B PB]. destruct C as [C PC]. destruct X as [X PX].
      change (length (a :: b :: c :: x :: r)) with (4 + length r)%nat in *. unfold padding in K. rewrite mod4 in M, K. fold (padding (length r)) in K.
      destruct (IH r _ k ltac:(lia) D4 M K) as (o & O). cbn [app].
      destruct (r ++ repeat "="%byte k) as [|y t] eqn:RT.
      * cbn [b64_dec b64_last]. rewrite PX. unfold quad. rewrite A, B, C, X. cbn [option_map]. eauto.
      * rewrite b64_dec_group by discriminate. rewrite O. unfold quad. rewrite A, B, C, X. eauto.
Qed.
Lemma written_inj d d' : length d = length d' -> written 256 (map b2n d) = written 256 (map b2n d') -> d = d'.
Proof.
  revert d'. induction d as [|a d IH] using rev_ind; intros d' L E.
  - destruct d'; [reflexivity|discriminate L].
  - destruct d' as [|a' d' _] using rev_ind; [rewrite app_length in L; cbn in L; lia|]. rewrite !app_length in L. cbn [length] in L.
    rewrite !map_app, !written_app in E. cbn [map length] in E. change (256 ^ N.of_nat 1) with 256 in E.
    assert (W : forall x, written 256 [x] = x) by (intro; unfold written; cbn [fold_left]; lia). rewrite !W in E.
    assert (A := b2n_lt a). assert (A' := b2n_lt a'). assert (b2n a = b2n a' /\ written 256 (map b2n d) = written 256 (map b2n d')) as [E1 E2] by lia.
    rewrite (IH d') by (try assumption; lia). f_equal. f_equal. rewrite <- (n2b_b2n a), <- (n2b_b2n a'), E1. reflexivity.
Qed.
Lemma split_pads cs ds k cs' ds' k' : digits_of cs ds -> digits_of cs' ds' -> cs ++ repeat "="%byte k = cs' ++ repeat "="%byte k' -> cs = cs' /\ ds = ds'.
Proof.
  revert ds cs' ds'. induction cs as [|c cs IH]; intros ds cs' ds' D D' E.
  - inversion D; subst. destruct cs' as [|c' cs']; [inversion D'; auto|]. inversion D' as [|? v ? ? C' _]; subst. destruct k; [discriminate E|]. injection E as <- _. destruct (pad_not v C').
  - inversion D as [|? v ? ? C D1]; subst. destruct cs' as [|c' cs'].
    + destruct k'; [discriminate E|]. injection E as -> _. destruct (pad_not v C).
    + inversion D' as [|? v' ? ? C' D1']; subst. injection E as <- E. destruct (IH _ _ _ D1 D1' E) as [-> ->]. split; [reflexivity|]. f_equal. apply val_digit in C, C'. congruence.
Qed.
Theorem C121_base64_exactly :
  forall s d : bytes, b64_dec s = Some d <-> is_base64 s d.
Proof.
  intros s d. split; [apply (dec_sound (length s)); lia|].
  intros (cs & ds & k & rest & -> & D & M & K & LO & W). destruct (dec_total (length cs) cs ds k (le_n _) D M K) as (d' & E). rewrite E. f_equal.
  apply (dec_sound _ _ _ (le_n _)) in E. destruct E as (cs' & ds' & k' & rest' & E & D' & M' & K' & LO' & W'). destruct (split_pads _ _ _ _ _ _ D D' E) as [<- <-].
  apply written_inj; [congruence|]. rewrite <- LO in LO'. cbv zeta in W, W'. rewrite LO' in W'. destruct W as [W R]. destruct W' as [W' R']. rewrite W in W'.
  revert R R' W'. generalize (2 ^ N.of_nat (6 * length cs - 8 * length d)). intros p R R' Q.
  rewrite (N.mul_comm _ p), (N.mul_comm (written 256 (map b2n d')) p) in Q. destruct (N.div_mod_unique p _ _ _ _ R R' Q). congruence.
Qed.
Print Assumptions C121_base64_exactly.
(** the last bits may be anything: two texts for the same byte *)
Example ex_trailing_bits : b64_dec (bs "YQ==") = Some (bs "a") /\ b64_dec (bs "YR") = Some (bs "a") /\ b64_dec (bs "YQ===") = None /\ b64_dec (bs "Y") = None.
Proof. vm_compute. repeat split. Qed.
