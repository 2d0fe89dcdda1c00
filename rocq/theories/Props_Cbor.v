(** Properties C20-C24: CBOR.  [umod] is usize::MAX+1 (2^64 or 2^32); [cap_max]
    is the largest capacity HashMap::with_capacity can be asked for. *)
From Coq Require Import List Arith NArith ZArith Lia Bool.
From Verif Require Import Bytes HashTree HashTreeSpec Utf8 Cbor CborSpec CborProofs.
Import ListNotations.
Local Open Scope N_scope.

Lemma fits_spec umod t : hashes32 t -> Forall (short umod) (strings_of t) -> fits umod t.
Proof.
  induction t as [|l IHl r IHr|k t IH|v|h]; intros A B; simpl in *; auto.
  - apply Forall_app in B. destruct A, B. auto.
  - inversion B; subst. auto.
  - inversion B; subst. auto.
Qed.

(** C20 *)
Theorem C20_hash_tree_cbor_round_trip :
  forall (umod cap_max : N) (t : htree),
  32 < umod <= 2 ^ 64 -> hashes32 t -> Forall (short umod) (strings_of t) ->
  tree_from_cbor umod cap_max (enc_tree t) = OOk t /\
  tree_from_cbor umod cap_max (self_describe ++ enc_tree t) = OOk t.
Proof.
  intros umod cap t [U1 U2] A B. assert (F := fits_spec umod t A B).
  assert (X := encodes_tree umod cap U2 U1 t F). unfold tree_from_cbor.
  split.
  - rewrite (encodes_parse umod cap _ _ X). simpl. rewrite (to_tree_val umod t F). reflexivity.
  - rewrite (encodes_parse umod cap _ _ (encodes_self umod cap _ _ X)). simpl. rewrite (to_tree_val umod t F). reflexivity.
Qed.
Print Assumptions C20_hash_tree_cbor_round_trip.

(** Two trees with the same encoding are the same tree. *)
Corollary C20_encoding_injective :
  forall (t t' : htree), hashes32 t -> hashes32 t' ->
  Forall (short (2 ^ 64)) (strings_of t) -> Forall (short (2 ^ 64)) (strings_of t') ->
  enc_tree t = enc_tree t' -> t = t'.
Proof.
  intros t t' A A' B B' E.
  assert (U : 32 < 2 ^ 64 <= 2 ^ 64) by lia.
  destruct (C20_hash_tree_cbor_round_trip (2 ^ 64) 3 t U A B) as [X _].
  destruct (C20_hash_tree_cbor_round_trip (2 ^ 64) 3 t' U A' B') as [X' _].
  rewrite E in X. congruence.
Qed.
Print Assumptions C20_encoding_injective.

(** C21 *)
Theorem C21_certificate_cbor_round_trip :
  forall (umod cap_max : N) (c : certificate),
  32 < umod <= 2 ^ 64 -> 3 <= cap_max ->
  hashes32 (c_tree c) -> Forall (short umod) (strings_of (c_tree c)) -> short umod (c_sig c) ->
  (forall d, c_deleg c = Some d -> short umod (d_subnet d) /\ short umod (d_cert d)) ->
  cert_from_cbor umod cap_max (enc_cert c) = OOk c /\
  cert_from_cbor umod cap_max (self_describe ++ enc_cert c) = OOk c.
Proof.
  intros umod cap c [U1 U2] K A B S D.
  destruct (cert_roundtrip_enc umod cap U2 U1 c (fits_spec umod _ A B) S D K) as (v & X & T).
  unfold cert_from_cbor. split.
  - rewrite (encodes_parse umod cap _ _ X). simpl. rewrite T. reflexivity.
  - rewrite (encodes_parse umod cap _ _ (encodes_self umod cap _ _ X)). simpl. rewrite T. reflexivity.
Qed.
Print Assumptions C21_certificate_cbor_round_trip.

(** Trees read from CBOR have 32-byte hashes. *)
Lemma to_tree_hashes32 : forall v t, to_tree v = Some t -> hashes32 t.
Proof.
  fix IH 1. intros v t. destruct v as [u|s|b|l|m|g]; try discriminate.
  destruct l as [|[ | | | | |[]] l]; try discriminate.
  - intro X; injection X as <-. exact I.
  - destruct l as [|a [|b l]]; try discriminate. cbn [to_tree].
    destruct (to_tree a) as [ta|] eqn:Ea; [|discriminate]. destruct (to_tree b) as [tb|] eqn:Eb; [|discriminate].
    intro X; injection X as <-. split; [exact (IH a ta Ea)|exact (IH b tb Eb)].
  - destruct l as [|[ | |d| | |] [|b l]]; try discriminate. cbn [to_tree].
    destruct (to_tree b) as [tb|] eqn:Eb; [|discriminate].
    intro X; injection X as <-. exact (IH b tb Eb).
  - destruct l as [|[ | |d| | |] l]; try discriminate. intro X; injection X as <-. exact I.
  - destruct l as [|[ | |d| | |] l]; try discriminate. cbn [to_tree].
    destruct (Nat.eqb (length d) 32) eqn:E; [|discriminate]. intro X; injection X as <-. apply Nat.eqb_eq. exact E.
Qed.
Theorem C20_decoded_hashes_are_32_bytes :
  forall (umod cap_max : N) (i : bytes) (t : htree), tree_from_cbor umod cap_max i = OOk t -> hashes32 t.
Proof.
  intros umod cap i t. unfold tree_from_cbor. destruct (parse_cbor umod cap i) as [v| | |]; try discriminate.
  simpl. destruct (to_tree v) as [t'|] eqn:E; [|discriminate]. intro X; injection X as <-.
  exact (to_tree_hashes32 _ _ E).
Qed.
Print Assumptions C20_decoded_hashes_are_32_bytes.

(** C22 (partial): every input is decided without running on (the recursion
    bound is never the reason to stop); what is accepted is consumed to the last
    byte; what was accepted without maps is not accepted with bytes appended;
    the only panic is the capacity request of a map header.  Missing: absence of
    panics, which is false (below); stack depth is not modelled. *)
Lemma count_panic p g n : forall i, count_loop p g n i = OPanic ->
  (forall j, consumes j (p j) \/ p j = OFuel) ->
  exists a j, i = a ++ j /\ p j = OPanic.
Proof.
  revert n. induction g as [|g IH]; intros n i; cbn [count_loop]; destruct (n =? 0); try discriminate.
  intros E C. destruct (p i) as [[v i1]| | |] eqn:Ep; simpl in E; try discriminate.
  - destruct (count_loop p g (n - 1) i1) as [[vs i2]| | |] eqn:Ec; simpl in E; try discriminate.
    destruct (IH _ _ Ec C) as (a & j & -> & Pj). destruct (C i) as [X|X]; [|congruence]. rewrite Ep in X.
    destruct X as (c & -> & _). exists (c ++ a), j. split; [apply app_assoc|exact Pj].
  - exists [], i. auto.
Qed.
Lemma map_panic p g n : forall acc i, map_loop p g n acc i = OPanic ->
  (forall j, consumes j (p j) \/ p j = OFuel) ->
  exists a j, i = a ++ j /\ p j = OPanic.
Proof.
  revert n. induction g as [|g IH]; intros n acc i; cbn [map_loop]; destruct (n =? 0); try discriminate.
  intros E C.
  assert (K : match key_val p i with OOk (_, _, i1) => exists c, i = c ++ i1 | OPanic => exists a j, i = a ++ j /\ p j = OPanic | _ => True end).
  { unfold key_val. destruct (C i) as [X|X]; [|rewrite X; exact I]. destruct (p i) as [[k i1]| | |] eqn:Ep; simpl; auto.
    - destruct X as (c & -> & _). destruct k; simpl; auto. destruct (utf8_valid b); simpl; auto.
      destruct (C i1) as [X|X]; [|rewrite X; exact I]. destruct (p i1) as [[v i2]| | |] eqn:Ep2; simpl; auto.
      + destruct X as (c2 & -> & _). exists (c ++ c2). apply app_assoc.
      + exists c, i1. auto.
    - exists [], i. auto. }
  destruct (key_val p i) as [[[k v] i1]| | |]; try discriminate; auto.
  destruct (Nat.eqb _ _); [discriminate|]. destruct K as [c ->].
  destruct (IH _ _ _ E C) as (a & j & -> & Pj). exists (c ++ a), j. split; [apply app_assoc|exact Pj].
Qed.
Lemma parser_cases umod cap f j : consumes j (parser umod cap f j) \/ parser umod cap f j = OFuel.
Proof.
  revert j. induction f as [|f IH]; intro j; [right; reflexivity|].
  destruct (Nat.le_gt_cases (S f) (length j)) as [L|L].
  2:{ left. apply parser_consumes. exact L. }
  (* too little fuel: consumption still holds, fuel exhaustion may show *)
  cbn [Cbor.parser]. destruct j as [|b i]; [left; exact I|].
  destruct (extract_cbor_value (b :: i)) as [[u i1]|] eqn:E; [|left; exact I].
  destruct (extract_consumes _ _ _ E) as (c & Q & D). rewrite Q. clear E Q L.
  assert (W : forall A B (x : out (A * bytes)) (h : A -> B), consumes0 i1 x \/ x = OFuel ->
     consumes (c ++ i1) (ok (l, i2) <- x; OOk (h l, i2)) \/ (ok (l, i2) <- x; OOk (h l, i2)) = OFuel).
  { intros A B x h [X| ->]; [left|right; reflexivity]. destruct x as [[a r]| | |]; simpl in *; auto.
    destruct X as [c2 ->]. exists (c ++ c2). split; [apply app_assoc|]. destruct c; [contradiction|discriminate]. }
  assert (HB : consumes (c ++ i1) (ok (d, i2) <- of_opt (take (to_usize umod u) i1); OOk (CBytes d, i2)) \/
     (ok (d, i2) <- of_opt (take (to_usize umod u) i1); OOk (CBytes d, i2)) = OFuel).
  { apply W. left. destruct (take (to_usize umod u) i1) as [[d i2]|] eqn:T; simpl; auto.
    apply take_some in T. destruct T as [-> _]. exists d; reflexivity. }
  assert (HP : consumes (c ++ i1) (parser umod cap f i1) \/ parser umod cap f i1 = OFuel).
  { destruct (IH i1) as [X|X]; [left|auto]. destruct (parser umod cap f i1) as [[a r]| | |]; simpl in *; auto.
    destruct X as (c2 & -> & _). exists (c ++ c2). split; [apply app_assoc|]. destruct c; [contradiction|discriminate]. }
  assert (HC : forall g n i, consumes0 i (count_loop (parser umod cap f) g n i) \/ count_loop (parser umod cap f) g n i = OFuel).
  { induction g as [|g IHg]; intros n i0; cbn [count_loop]; destruct (n =? 0); auto; try (left; exists []; reflexivity).
    destruct (IH i0) as [X|X]; [|rewrite X; auto]. destruct (parser umod cap f i0) as [[v i2]| | |]; simpl; auto.
    destruct X as (c2 & -> & _). destruct (IHg (n - 1) i2) as [Y|Y]; [|rewrite Y; auto].
    destruct (count_loop _ g _ i2) as [[vs i3]| | |]; simpl in *; auto. destruct Y as [c3 ->]. left. exists (c2 ++ c3). apply app_assoc. }
  assert (HK : forall i, consumes i (key_val (parser umod cap f) i) \/ key_val (parser umod cap f) i = OFuel).
  { intro i0. unfold key_val. destruct (IH i0) as [X|X]; [|rewrite X; auto]. destruct (parser umod cap f i0) as [[k i2]| | |]; simpl; auto.
    destruct X as (c2 & -> & D2). destruct k; simpl; auto. destruct (utf8_valid b0); simpl; auto.
    destruct (IH i2) as [X|X]; [|rewrite X; auto]. destruct (parser umod cap f i2) as [[v i3]| | |]; simpl; auto.
    destruct X as (c3 & -> & _). left. exists (c2 ++ c3). split; [apply app_assoc|]. destruct c2; [contradiction|discriminate]. }
  assert (HM : forall g n acc i, consumes0 i (map_loop (parser umod cap f) g n acc i) \/ map_loop (parser umod cap f) g n acc i = OFuel).
  { induction g as [|g IHg]; intros n acc i0; cbn [map_loop]; destruct (n =? 0); auto; try (left; exists []; reflexivity).
    destruct (HK i0) as [X|X]; [|rewrite X; auto]. destruct (key_val (parser umod cap f) i0) as [[[k v] i2]| | |]; simpl; auto.
    2:{ left. exists []; reflexivity. }
    destruct X as (c2 & -> & _). destruct (Nat.eqb _ _); [left; exact I|]. destruct (IHg (n - 1) (map_set k v acc) i2) as [Y|Y]; [|rewrite Y; auto].
    destruct (map_loop _ g _ _ i2) as [[vs i3]| | |]; simpl in *; auto. destruct Y as [c3 ->]. left. exists (c2 ++ c3). apply app_assoc. }
  destruct (cbor_type b) as [|p]; [left; exists c; auto|].
  do 3 (try (destruct p as [p|p|])); auto; try (left; exists c; auto; fail).
  destruct (cap <? _); [left; exact I|]. apply W. apply HM.
Qed.
Lemma parser_panic umod cap f : forall i, parser umod cap f i = OPanic ->
  exists a b tl u r, i = a ++ b :: tl /\ cbor_type b = 5 /\
    extract_cbor_value (b :: tl) = Some (u, r) /\ cap < to_usize umod u.
Proof.
  induction f as [|f IH]; intros i E; [discriminate|]. cbn [Cbor.parser] in E.
  destruct i as [|b i]; [discriminate|].
  destruct (extract_cbor_value (b :: i)) as [[u i1]|] eqn:X; [|discriminate].
  destruct (extract_consumes _ _ _ X) as (c & Q & D).
  assert (Sub : forall j, (exists a, i1 = a ++ j) -> parser umod cap f j = OPanic ->
    exists a b' tl u r, b :: i = a ++ b' :: tl /\ cbor_type b' = 5 /\ extract_cbor_value (b' :: tl) = Some (u, r) /\ cap < to_usize umod u).
  { intros j (a & ->) P. destruct (IH j P) as (a' & b' & tl & u' & r & -> & T & X' & K).
    exists (c ++ a ++ a'), b', tl, u', r. split; [rewrite Q, <- !app_assoc; reflexivity|auto]. }
  assert (Bx : (ok (d, i2) <- of_opt (take (to_usize umod u) i1); OOk (CBytes d, i2)) <> OPanic).
  { destruct (take (to_usize umod u) i1) as [[d i2]|]; discriminate. }
  destruct (cbor_type b) as [|p] eqn:Tb; [discriminate|].
  do 3 (try (destruct p as [p|p|])); try discriminate; try contradiction;
    try (apply (Sub i1); [exists []; reflexivity|exact E]).
  - destruct (N.ltb_spec cap (to_usize umod u)) as [K|K].
    + exists [], b, i, u, i1. auto.
    + destruct (map_loop _ _ _ _ _) as [[m i2]| | |] eqn:M; try discriminate.
      destruct (map_panic _ _ _ _ _ M (parser_cases umod cap f)) as (a & j & -> & P). apply (Sub j); eauto.
  - destruct (count_loop _ _ _ _) as [[m i2]| | |] eqn:M; try discriminate.
    destruct (count_panic _ _ _ _ M (parser_cases umod cap f)) as (a & j & -> & P). apply (Sub j); eauto.
Qed.

Theorem C22_cbor_total_and_exact_partial :
  forall (umod cap_max : N) (i : bytes),
  parse_cbor umod cap_max i <> OFuel /\
  (forall v, parse_cbor umod cap_max i = OOk v -> nomap v = true ->
     forall e, e <> [] -> parse_cbor umod cap_max (i ++ e) = OErr) /\
  (parse_cbor umod cap_max i = OPanic ->
     exists a b tl u r, i = a ++ b :: tl /\ cbor_type b = 5 /\
       extract_cbor_value (b :: tl) = Some (u, r) /\ cap_max < to_usize umod u).
Proof.
  intros umod cap i. split; [apply parse_cbor_no_fuel|]. split.
  - intros v E N e D. unfold parse_cbor in *.
    destruct (parser umod cap (S (length i)) i) as [[w [|x r]]| | |] eqn:P; simpl in E; try discriminate.
    injection E as <-. assert (X := parser_ext umod cap _ _ _ _ e (Nat.lt_succ_diag_r _) P N).
    rewrite app_length. change (S (length i + length e)) with (S (length i) + length e)%nat.
    rewrite X. simpl. destruct e; [contradiction|reflexivity].
  - unfold parse_cbor. destruct (parser umod cap (S (length i)) i) as [[w [|x r]]| | |] eqn:P; simpl; try discriminate.
    intros _. eapply parser_panic. exact P.
Qed.
Print Assumptions C22_cbor_total_and_exact_partial.
(** Nine bytes panic, whatever the largest possible capacity (on a 64-bit
    target; [umod - 1] in general). *)
Theorem C22_cbor_total_refuted :
  forall (cap_max : N), cap_max < 2 ^ 64 - 1 ->
  parse_cbor (2 ^ 64) cap_max (unhex "bbffffffffffffffff") = OPanic.
Proof.
  intros cap L.
  assert (G : forall f b tl u r, cbor_type b = 5 -> extract_cbor_value (b :: tl) = Some (u, r) ->
    cap < to_usize (2 ^ 64) u -> parser (2 ^ 64) cap (S f) (b :: tl) = OPanic).
  { intros f b tl u r T X K. cbn [Cbor.parser]. rewrite X, T.
    destruct (N.ltb_spec cap (to_usize (2 ^ 64) u)); [reflexivity|]. exfalso; lia. }
  unfold parse_cbor.
  assert (E : unhex "bbffffffffffffffff" = xbb :: repeat xff 8) by reflexivity. rewrite E.
  rewrite (G _ xbb (repeat xff 8) (U64 18446744073709551615) []); [reflexivity|reflexivity|vm_compute; reflexivity|].
  change (to_usize (2 ^ 64) (U64 18446744073709551615)) with (2 ^ 64 - 1). exact L.
Qed.
Print Assumptions C22_cbor_total_refuted.

(** C23 *)
Lemma be_eq k n : n < 256 ^ N.of_nat k -> big_endian k n = be_enc k n.
Proof.
  revert n. assert (G : forall j n, big_endian (S j) n = big_endian j (n / 256) ++ [n2b n]).
  { induction j as [|k' IH]; intro n.
    - change (big_endian 1 n) with ([n2b (n / 1)]). rewrite N.div_1_r. reflexivity.
    - change (big_endian (S (S k')) n) with (n2b (n / 256 ^ N.of_nat (S k')) :: big_endian (S k') n).
      rewrite IH. cbn [big_endian app]. f_equal. f_equal.
      rewrite Nat2N.inj_succ, N.pow_succ_r', N.div_div; [reflexivity|discriminate|].
      apply N.pow_nonzero. discriminate. }
  induction k as [|k IH]; intros n L; [reflexivity|]. rewrite G. cbn [be_enc]. f_equal. apply IH.
  apply N.div_lt_upper_bound; [lia|]. rewrite Nat2N.inj_succ, N.pow_succ_r' in L. exact L.
Qed.
Lemma rfc_extract major a : major < 8 -> arg_valid a ->
  exists b tl, rfc_head major a = b :: tl /\ cbor_type b = major /\
  extract_cbor_value (rfc_head major a) =
  Some (match a with Imm n | Arg1 n => U8 n | Arg2 n => U16 n | Arg4 n => U32 n | Arg8 n => U64 n end, []).
Proof.
  intros M V.
  assert (G : forall k w n (f : N -> cuint), k < 32 -> n < 256 ^ N.of_nat w ->
    (forall b, cbor_info b = k -> forall i1, extract_cbor_value (b :: i1) = match take (N.of_nat w) i1 with Some (d, i2) => Some (f (be_int d), i2) | None => None end) ->
    exists b tl, n2b (32 * major + k) :: big_endian w n = b :: tl /\ cbor_type b = major /\
    extract_cbor_value (n2b (32 * major + k) :: big_endian w n) = Some (f n, [])).
  { intros k w n f K L X. destruct (head_type major k _ M K eq_refl) as [T I].
    eexists _, _. split; [reflexivity|]. split; [exact T|].
    rewrite (X _ I). rewrite be_eq by exact L. rewrite <- (app_nil_r (be_enc w n)) at 1.
    rewrite take_app by (rewrite be_enc_length; reflexivity). rewrite be_int_enc by exact L. reflexivity. }
  destruct a as [n|n|n|n|n]; cbn [arg_valid rfc_head] in *.
  - destruct (head_type major n _ M ltac:(lia) eq_refl) as [T I].
    eexists _, _. split; [reflexivity|]. split; [exact T|].
    unfold extract_cbor_value. cbv zeta. rewrite I. apply N.leb_le in V. rewrite V. reflexivity.
  - apply (G 24 1%nat); [lia|exact V|]. intros b I i1. unfold extract_cbor_value. cbv zeta. rewrite I. reflexivity.
  - apply (G 25 2%nat); [lia|exact V|]. intros b I i1. unfold extract_cbor_value. cbv zeta. rewrite I. reflexivity.
  - apply (G 26 4%nat); [lia|exact V|]. intros b I i1. unfold extract_cbor_value. cbv zeta. rewrite I. reflexivity.
  - apply (G 27 8%nat); [lia|exact V|]. intros b I i1. unfold extract_cbor_value. cbv zeta. rewrite I. reflexivity.
Qed.
(** Unsigned integers are exact; negative integers exactly when the argument is
    below half the range of its width (the full claim is refuted below). *)
Theorem C23_cbor_integers_partial :
  forall (umod cap_max : N) (a : rfc_arg), arg_valid a ->
  (exists v, parse_cbor umod cap_max (rfc_head 0 a) = OOk v /\ number v = Some (Z.of_N (arg_value a))) /\
  (exists v, parse_cbor umod cap_max (rfc_head 1 a) = OOk v /\
     (number v = Some (-1 - Z.of_N (arg_value a))%Z <-> arg_value a < 2 ^ (arg_bits a - 1))).
Proof.
  intros umod cap a V. split.
  - destruct (rfc_extract 0 a ltac:(lia) V) as (b & tl & E & T & X).
    unfold parse_cbor. cbn [Cbor.parser]. rewrite X. rewrite E. rewrite T. cbn [out_bind].
    eexists. split; [reflexivity|].
    destruct a as [n|n|n|n|n]; cbn [arg_value]; try reflexivity;
      (destruct n as [|p]; [reflexivity|]; do 3 (try (destruct p as [p|p|])); reflexivity).
  - destruct (rfc_extract 1 a ltac:(lia) V) as (b & tl & E & T & X).
    unfold parse_cbor. cbn [Cbor.parser]. rewrite X. rewrite E. rewrite T. cbn [out_bind].
    eexists. split; [reflexivity|].
    assert (S : forall w n, 0 < w -> (-1 - as_signed w n = -1 - Z.of_N n)%Z <-> n < 2 ^ (w - 1)).
    { intros w n Hw. unfold as_signed. destruct (N.ltb_spec n (2 ^ (w - 1))) as [L|L]; [tauto|].
      assert (P : (0 < 2 ^ Z.of_N w)%Z) by (apply Z.pow_pos_nonneg; lia). split; intro Q; lia. }
    destruct a as [n|n|n|n|n]; cbn [arg_value arg_bits to_negative number sval];
      rewrite <- S by lia; (split; [intro Q; injection Q; auto|intro Q; f_equal; exact Q]).
Qed.
Print Assumptions C23_cbor_integers_partial.
(** 0x38 0x80 is -129 in RFC 8949; the code reads +127. *)
Theorem C23_cbor_negative_refuted :
  exists a, arg_valid a /\ rfc_head 1 a = unhex "3880" /\
  parse_cbor (2 ^ 64) (2 ^ 32) (unhex "3880") = OOk (CSigned (I8 127)) /\ (-1 - Z.of_N (arg_value a) = -129)%Z.
Proof. exists (Arg1 128). repeat split; reflexivity. Qed.
Print Assumptions C23_cbor_negative_refuted.

(** C24 (refuted): a map header announcing one entry, followed by nothing, is
    accepted, as is one announcing three entries and followed by one. *)
Theorem C24_map_length_refuted :
  parse_cbor (2 ^ 64) (2 ^ 32) (rfc_head 5 (Imm 1)) = OOk (CMap []) /\
  parse_cbor (2 ^ 64) (2 ^ 32) (rfc_head 5 (Imm 3) ++ enc_text (bs "a") ++ enc_bytes (bs "b")) = OOk (CMap [(bs "a", CBytes (bs "b"))]).
Proof. split; vm_compute; reflexivity. Qed.
Print Assumptions C24_map_length_refuted.
(** What does hold: never more entries than announced, and if as many well-formed
    entries follow as announced then all are read. *)
Lemma map_set_length {A} k (v : A) m : (length (map_set k v m) <= S (length m))%nat.
Proof. induction m as [|[k' v'] m IH]; simpl; [lia|]. destruct (bytes_eqb k k'); simpl; lia. Qed.
Lemma map_loop_length p g n : forall acc i m r, map_loop p g n acc i = OOk (m, r) ->
  N.of_nat (length m) <= N.of_nat (length acc) + n.
Proof.
  revert n. induction g as [|g IH]; intros n acc i m r; cbn [map_loop]; destruct (N.eqb_spec n 0) as [->|Z];
    try (intro X; injection X as <- <-; lia); try discriminate.
  destruct (key_val p i) as [[[k v] i1]| | |]; try discriminate.
  - destruct (Nat.eqb _ _); [discriminate|]. intro X. apply IH in X. assert (L := map_set_length k v acc). lia.
  - intro X; injection X as <- <-. lia.
Qed.
Theorem C24_map_length_partial :
  forall (umod cap_max : N) (a : rfc_arg) (body : bytes) (v : cval),
  arg_valid a -> parse_cbor umod cap_max (rfc_head 5 a ++ body) = OOk v ->
  exists m, v = CMap m /\ N.of_nat (length m) <= arg_value a mod umod.
Proof.
  intros umod cap a body v V E. destruct (rfc_extract 5 a ltac:(lia) V) as (b & tl & Q & T & X).
  assert (Y := extract_ext _ _ _ body X). unfold parse_cbor in E. rewrite Q in *. cbn [app Cbor.parser] in *.
  rewrite Y in E. rewrite T in E. cbn [app] in E. destruct (cap <? _); [discriminate|].
  match type of E with context [map_loop ?p ?g ?n ?acc ?i] => destruct (map_loop p g n acc i) as [[m r]| | |] eqn:M end; try discriminate.
  simpl in E. destruct r; [|discriminate]. injection E as <-. exists m. split; [reflexivity|].
  apply map_loop_length in M. simpl in M. unfold to_usize in M. destruct a; exact M.
Qed.
Print Assumptions C24_map_length_partial.

(** ** Concrete cases *)
Definition ex_tree : htree :=
  HFork (HLabeled (bs "a") (HLeaf (bs "x"))) (HFork (HPruned (repeat x00 32)) HEmpty).
Example ex_tree_ok : hashes32 ex_tree /\ Forall (short (2 ^ 32)) (strings_of ex_tree).
Proof. split; [simpl; auto|repeat constructor]. Qed.
Example ex_tree_enc : enc_tree ex_tree =
  unhex "830183024161820341788301820458200000000000000000000000000000000000000000000000000000000000000000" ++ unhex "8100".
Proof. vm_compute. reflexivity. Qed.
Example ex_tree_rt : tree_from_cbor (2 ^ 64) (2 ^ 32) (enc_tree ex_tree) = OOk ex_tree.
Proof. vm_compute. reflexivity. Qed.
Example ex_cert : certificate := mk_cert ex_tree (bs "sig") (Some (mk_deleg (bs "subnet") (bs "cert"))).
Example ex_cert_rt : cert_from_cbor (2 ^ 64) (2 ^ 32) (self_describe ++ enc_cert ex_cert) = OOk ex_cert.
Proof. vm_compute. reflexivity. Qed.
Example ex_nomap : exists v, parse_cbor (2 ^ 64) (2 ^ 32) (unhex "8307820809820a0b") = OOk v /\ nomap v = true.
Proof. eexists. split; vm_compute; reflexivity. Qed.
