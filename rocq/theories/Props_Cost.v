(** C124: how many calls the CBOR reader makes. *)
From Coq Require Import List Arith NArith Lia Bool.
From Verif Require Import Bytes Text HashTree Utf8 Cbor CborSpec CborProofs Base64 Header HeaderProofs Props_Header CborGrammar Props_CborGrammar CborCost.
Import ListNotations.
Local Open Scope N_scope.

Lemma then_snd {A B} (x : counted A) (k : A -> counted B) : snd (and_then x k) = out_bind (snd x) (fun a => snd (k a)).
Proof. destruct x as [n [a| | |]]; reflexivity. Qed.
Lemma bind_ext {A B} (x : out A) (f g : A -> out B) : (forall a, f a = g a) -> out_bind x f = out_bind x g.
Proof. intro E. destruct x; cbn; auto. Qed.

Lemma then_ok {A B} c (a : A) (k : A -> counted B) : and_then (c, OOk a) k = (c + fst (k a), snd (k a)).
Proof. reflexivity. Qed.
Lemma then_err {A B} c (k : A -> counted B) : and_then (c, OErr) k = (c, OErr).
Proof. reflexivity. Qed.

Section Same.
  Variables umod cap_max : N.
  Lemma count_same p q : (forall j, snd (p j) = q j) -> forall g n i, snd (c_count_loop p g n i) = count_loop q g n i.
  Proof.
    intro E. induction g as [|g IH]; intros n i; cbn [c_count_loop count_loop]; destruct (n =? 0); try reflexivity.
    rewrite then_snd, E. apply bind_ext. intros [v i1]. cbn [fst snd]. rewrite then_snd, IH. apply bind_ext. intros [vs i2]. reflexivity.
  Qed.
  Lemma key_val_same p q : (forall j, snd (p j) = q j) -> forall i, snd (c_key_val p i) = key_val q i.
  Proof.
    intros E i. unfold c_key_val, key_val. rewrite then_snd, E. apply bind_ext. intros [k i1]. cbn [fst snd]. destruct k; try reflexivity.
    destruct (utf8_valid b); [|reflexivity]. rewrite then_snd, E. apply bind_ext. intros [v i2]. reflexivity.
  Qed.
  Lemma map_same p q : (forall j, snd (p j) = q j) -> forall g n acc i, snd (c_map_loop p g n acc i) = map_loop q g n acc i.
  Proof.
    intro E. induction g as [|g IH]; intros n acc i; cbn [c_map_loop map_loop]; destruct (n =? 0); try reflexivity.
    cbv zeta. rewrite (key_val_same p q E). destruct (key_val q i) as [[[k v] i1]| | |]; try reflexivity.
    destruct (Nat.eqb _ _); [reflexivity|]. cbn [snd]. apply IH.
  Qed.
  Lemma parser_same f : forall i, snd (c_parser umod cap_max f i) = parser umod cap_max f i.
  Proof.
    induction f as [|f IH]; intro i; [reflexivity|]. cbn [c_parser parser]. destruct i as [|b i]; [reflexivity|].
    cbn [one_more snd]. destruct (extract_cbor_value (b :: i)) as [[u i1]|]; [|reflexivity].
    destruct (cbor_type b) as [|t]; [reflexivity|].
    do 3 (try (destruct t as [t|t|])); try reflexivity; try apply IH.
    - destruct (cap_max <? to_usize umod u); [reflexivity|]. rewrite then_snd, (map_same _ _ IH). apply bind_ext. intros [m i2]. reflexivity.
    - rewrite then_snd, (count_same _ _ IH). apply bind_ext. intros [m i2]. reflexivity.
  Qed.
  Lemma parse_same i : snd (c_parse_cbor umod cap_max i) = parse_cbor umod cap_max i.
  Proof. unfold c_parse_cbor, parse_cbor. rewrite then_snd, parser_same. apply bind_ext. intros [v r]. reflexivity. Qed.
  Lemma cert_same i : snd (c_certificate umod cap_max i) = cert_from_cbor umod cap_max i.
  Proof. unfold c_certificate, cert_from_cbor. rewrite then_snd, parse_same. reflexivity. Qed.
  Lemma tree_same i : snd (c_tree umod cap_max i) = tree_from_cbor umod cap_max i.
  Proof. unfold c_tree, tree_from_cbor. rewrite then_snd, parse_same. reflexivity. Qed.
  Lemma strings_same i : snd (c_strings umod cap_max i) = strings_from_cbor umod cap_max i.
  Proof. unfold c_strings, strings_from_cbor. rewrite then_snd, parse_same. reflexivity. Qed.
  Lemma fill_same {A} (s : option A) d e v : (forall x, snd (d x) = e x) -> snd (c_fill s d v) = fill s e v.
  Proof. intro E. destruct s; [reflexivity|]. cbn [c_fill fill]. rewrite then_snd, E. reflexivity. Qed.
  Lemma decode_same {A} (r : bytes -> counted A) q v : (forall x, snd (r x) = q x) -> snd (c_decode r v) = (ok b <- of_opt (b64_dec v); q b).
  Proof. intro E. unfold c_decode. rewrite then_snd. cbn [free snd]. apply bind_ext. exact E. Qed.
  Lemma add_field_same s f : snd (c_add_field umod cap_max s f) = add_field umod cap_max s f.
  Proof.
    unfold c_add_field, add_field. destruct (header_field f) as [[n v]|]; [|reflexivity].
    destruct (bytes_eqb n (bs "certificate")). { rewrite then_snd. erewrite fill_same; [reflexivity|]. intro x. apply decode_same, cert_same. }
    destruct (bytes_eqb n (bs "tree")). { rewrite then_snd. erewrite fill_same; [reflexivity|]. intro x. apply decode_same, tree_same. }
    destruct (bytes_eqb n (bs "version")). { rewrite then_snd. erewrite fill_same; [reflexivity|]. reflexivity. }
    destruct (bytes_eqb n (bs "expr_path")). { rewrite then_snd. erewrite fill_same; [reflexivity|]. intro x. apply decode_same, strings_same. }
    reflexivity.
  Qed.
  Lemma add_fields_same fs : forall s, snd (c_add_fields umod cap_max s fs) = add_fields umod cap_max s fs.
  Proof. induction fs as [|f fs IH]; intro s; [reflexivity|]. cbn [c_add_fields add_fields]. rewrite then_snd, add_field_same. apply bind_ext, IH. Qed.
End Same.
(** The counting readers return what the readers return. *)
Theorem C124_counting_changes_nothing :
  forall (umod cap_max : N) (i : bytes),
  snd (c_parse_cbor umod cap_max i) = parse_cbor umod cap_max i /\
  snd (c_certificate umod cap_max i) = cert_from_cbor umod cap_max i /\
  snd (c_tree umod cap_max i) = tree_from_cbor umod cap_max i /\
  snd (c_header_from umod cap_max i) = header_from umod cap_max i.
Proof.
  intros umod cap i. split; [apply parse_same|]. split; [apply cert_same|]. split; [apply tree_same|].
  unfold c_header_from, header_from. rewrite then_snd, add_fields_same. reflexivity.
Qed.
Print Assumptions C124_counting_changes_nothing.

(** ** The bad case *)
Lemma slow_length n : length (slow n) = (2 * n + 1)%nat.
Proof. induction n as [|n IH]; [reflexivity|]. cbn [slow length]. rewrite IH. lia. Qed.
Section Slow.
  Variables umod cap_max : N.
  Hypothesis U : 2 < umod.
  Hypothesis C : 1 <= cap_max.
  Notation cp := (c_parser umod cap_max).
  Lemma slow_parser n : forall f rest, (2 * n + 1 + length rest < f)%nat -> cp f (slow n ++ rest) = (3 * 2 ^ N.of_nat n - 2, OOk (slow_value n, rest)).
  Proof.
    assert (M2 : to_usize umod (U8 2) = 2) by (apply N.mod_small; exact U).
    assert (M1 : to_usize umod (U8 1) = 1) by (apply N.mod_small; lia).
    assert (M0 : to_usize umod (U8 0) = 0) by (apply N.mod_small; lia).
    induction n as [|n IH]; intros f rest F; (destruct f as [|f]; [lia|]).
    { change (cp (S f) (slow 0 ++ rest)) with (one_more (and_then (c_count_loop (cp f) (S (length rest)) (to_usize umod (U8 0)) rest) (fun x => free (OOk (CArray (fst x), snd x))))). rewrite M0. reflexivity. }
    assert (E : 3 * 2 ^ N.of_nat (S n) - 2 = 2 + 2 * (3 * 2 ^ N.of_nat n - 2)). { rewrite Nat2N.inj_succ, N.pow_succ_r'. assert (X : 1 <= 2 ^ N.of_nat n) by (apply N.lt_pred_le, N.neq_0_lt_0, N.pow_nonzero; lia). lia. }
    rewrite E. set (K := 3 * 2 ^ N.of_nat n - 2) in *. destruct f as [|f]; [lia|].
    set (r := slow n ++ rest) in *.
    assert (R : cp f r = (K, OOk (slow_value n, rest))) by (apply IH; lia).
    assert (R2 : cp (S f) r = (K, OOk (slow_value n, rest))) by (apply IH; lia).
    assert (NS : forall s, slow_value n <> CBytes s) by (intro s; destruct n; discriminate).
    assert (PM : cp (S f) (xa1 :: r) = (1 + K, OOk (CMap [], r))).
    { change (cp (S f) (xa1 :: r)) with (one_more (if cap_max <? to_usize umod (U8 1) then free OPanic else and_then (c_map_loop (cp f) (S (length r)) (to_usize umod (U8 1)) [] r) (fun x => free (OOk (CMap (fst x), snd x))))).
      rewrite M1. destruct (N.ltb_spec cap_max 1) as [Z|_]; [lia|].
      assert (KV : c_key_val (cp f) r = (K, OErr)).
      { unfold c_key_val. rewrite R, then_ok. cbn [fst snd]. destruct (slow_value n) as [| |s| | |]; try (cbn [free fst snd]; f_equal; lia). exfalso. exact (NS s eq_refl). }
      cbn [c_map_loop]. change (1 =? 0) with false. cbv iota zeta. rewrite KV. unfold and_then, one_more, free. cbn [fst snd]. f_equal. lia. }
    change (cp (S (S f)) (slow (S n) ++ rest)) with (one_more (and_then (c_count_loop (cp (S f)) (S (length (xa1 :: r))) (to_usize umod (U8 2)) (xa1 :: r)) (fun x => free (OOk (CArray (fst x), snd x))))).
    rewrite M2. cbn [length c_count_loop]. change (2 =? 0) with false. change (2 - 1) with 1. change (1 =? 0) with false. cbv iota.
    rewrite PM. rewrite !then_ok. cbn [fst snd]. rewrite R2, !then_ok. cbn [fst snd]. change (c_count_loop (cp (S f)) (length r) (1 - 1) rest) with (c_count_loop (cp (S f)) (length r) 0 rest).
    assert (Z : c_count_loop (cp (S f)) (length r) 0 rest = (0, OOk ([], rest))) by (destruct (length r); reflexivity).
    rewrite Z. unfold and_then, one_more, free. cbn [fst snd slow_value]. f_equal. lia.
  Qed.
  Lemma slow_encodes n : encodes umod cap_max (slow n) (slow_value n).
  Proof. intros f r L. rewrite app_length, slow_length in L. rewrite <- parser_same, slow_parser by lia. reflexivity. Qed.

  Lemma count_cost f es vs e k : Forall2 (encodes umod cap_max) es vs -> (forall r, (length (e ++ r) < f)%nat -> k <= fst (cp f (e ++ r))) ->
    forall g r, (length (concat (es ++ [e]) ++ r) < f)%nat -> (length (concat (es ++ [e]) ++ r) < g)%nat ->
    k <= fst (c_count_loop (cp f) g (N.of_nat (S (length es))) (concat (es ++ [e]) ++ r)).
  Proof.
    clear U C. intros F K. induction F as [|x v es vs X F IH]; intros g r L M; (destruct g as [|g]; [lia|]).
    - cbn [app concat length c_count_loop] in *. change (N.of_nat 1 =? 0) with false. cbv iota. rewrite app_nil_r in *. specialize (K r L).
      destruct (cp f (e ++ r)) as [c [[v i]| | |]]; cbn [fst] in K; unfold and_then; cbn [fst snd]; try exact K. destruct (c_count_loop (cp f) g (N.of_nat 1 - 1) i) as [d [?| | |]]; cbn [fst snd free]; lia.
    - cbn [app concat length c_count_loop] in *. destruct (N.eqb_spec (N.of_nat (S (S (length es)))) 0) as [Y|_]; [lia|]. rewrite <- app_assoc in *.
      assert (Q : snd (cp f (x ++ concat (es ++ [e]) ++ r)) = OOk (v, concat (es ++ [e]) ++ r)) by (rewrite parser_same; apply X; exact L).
      destruct (cp f (x ++ concat (es ++ [e]) ++ r)) as [c o]. cbn [snd] in Q. subst o. rewrite then_ok. cbn [fst snd].
      assert (D := encodes_nonempty _ _ _ _ X). assert (Le : (0 < length x)%nat) by (destruct x; [contradiction|simpl; lia]). rewrite app_length in L, M.
      replace (N.of_nat (S (S (length es))) - 1) with (N.of_nat (S (length es))) by lia.
      specialize (IH g r ltac:(lia) ltac:(lia)). destruct (c_count_loop (cp f) g (N.of_nat (S (length es))) (concat (es ++ [e]) ++ r)) as [d [?| | |]]; unfold and_then; cbn [fst snd free] in *; lia.
  Qed.
End Slow.

Section SlowTree.
  Variables umod cap_max : N.
  Hypothesis U : 32 < umod <= 2 ^ 64.
  Hypothesis C : 1 <= cap_max.
  Lemma parts_encode t : fits umod t -> exists vs, Forall2 (encodes umod cap_max) (tree_parts t) vs /\ (forall more, to_tree (CArray (vs ++ more)) = Some t).
  Proof.
    clear C. destruct U as [U1 U2]. intro F.
    assert (TR : forall t, fits umod t -> encodes umod cap_max (enc_tree t) (tree_val t) /\ to_tree (tree_val t) = Some t).
    { intros s Fs. split; [apply encodes_tree; assumption|]. clear F t. induction s as [|l IHl r IHr|k s IH|v|h]; cbn [tree_val to_tree fits] in *; try reflexivity.
      - rewrite IHl, IHr by tauto. reflexivity.
      - rewrite IH by tauto. reflexivity.
      - rewrite Fs. reflexivity. }
    destruct t as [|l r|k t|v|h]; cbn [tree_parts fits] in *.
    - exists [CTag TEmpty]. split; [|reflexivity]. constructor; [apply (encodes_tag umod cap_max U2 0); lia|constructor].
    - destruct (TR l (proj1 F)) as [E1 T1]. destruct (TR r (proj2 F)) as [E2 T2]. exists [CTag TFork; tree_val l; tree_val r]. split; [|intro more; cbn [app to_tree]; rewrite T1, T2; reflexivity].
      constructor; [apply (encodes_tag umod cap_max U2 1); lia|]. constructor; [exact E1|]. constructor; [exact E2|constructor].
    - destruct (TR t (proj2 F)) as [E1 T1]. exists [CTag TLabelled; CBytes k; tree_val t]. split; [|intro more; cbn [app to_tree]; rewrite T1; reflexivity].
      constructor; [apply (encodes_tag umod cap_max U2 2); lia|]. constructor; [apply encodes_bytes2; [exact U2|exact (proj1 F)]|]. constructor; [exact E1|constructor].
    - exists [CTag TLeaf; CBytes v]. split; [|reflexivity]. constructor; [apply (encodes_tag umod cap_max U2 3); lia|]. constructor; [apply encodes_bytes2; assumption|constructor].
    - exists [CTag TPruned; CBytes h]. split; [|intro more; cbn [app to_tree]; rewrite F; reflexivity]. constructor; [apply (encodes_tag umod cap_max U2 4); lia|]. constructor; [apply encodes_bytes2; [exact U2|rewrite F; lia]|constructor].
  Qed.
  Lemma slow_tree_reads n t : fits umod t -> tree_from_cbor umod cap_max (slow_tree n t) = OOk t /\ 2 ^ N.of_nat n <= fst (c_tree umod cap_max (slow_tree n t)).
  Proof.
    intro F. destruct (parts_encode t F) as (vs & E & T). destruct U as [U1 U2].
    assert (PL : (length (tree_parts t) <= 3)%nat) by (destruct t; cbn; lia).
    assert (FA : Forall2 (encodes umod cap_max) (tree_parts t ++ [slow n]) (vs ++ [slow_value n])).
    { apply Forall2_app; [exact E|]. constructor; [apply slow_encodes; lia|constructor]. }
    assert (L : length (tree_parts t ++ [slow n]) = S (length (tree_parts t))) by (rewrite app_length; cbn; lia).
    assert (A := encodes_array umod cap_max U2 _ _ FA ltac:(lia)). rewrite L in A.
    split.
    - unfold tree_from_cbor, slow_tree, padded_tree. rewrite (encodes_parse _ _ _ _ (encodes_self umod cap_max _ _ A)). cbn [out_bind]. rewrite T. reflexivity.
    - assert (G : 2 ^ N.of_nat n <= fst (c_parser umod cap_max (S (length (slow_tree n t))) (slow_tree n t))).
      { unfold slow_tree, padded_tree. set (body := enc_head 4 (N.of_nat (S (length (tree_parts t)))) ++ concat (tree_parts t ++ [slow n])) in *.
        assert (SD : c_parser umod cap_max (S (length (self_describe ++ body))) (self_describe ++ body) = one_more (c_parser umod cap_max (length (self_describe ++ body)) body)).
        { change (self_describe ++ body) with (xd9 :: ([xd9; xf7] ++ body)). generalize (length (xd9 :: [xd9; xf7] ++ body)). intro f. cbn [c_parser].
          change (extract_cbor_value (xd9 :: [xd9; xf7] ++ body)) with (match take 2 ([xd9; xf7] ++ body) with Some (d, i2) => Some (U16 (be_int d), i2) | None => None end).
          rewrite take_app by reflexivity. reflexivity. }
        rewrite SD. unfold one_more. cbn [fst].
        destruct (head_ok 4 (N.of_nat (S (length (tree_parts t)))) (concat (tree_parts t ++ [slow n])) ltac:(lia) ltac:(lia)) as (b0 & tl & u & EH & TY & X & UV & _).
        assert (BL : length (self_describe ++ body) = S (S (S (length body)))) by reflexivity. rewrite BL.
        assert (BB : length body = S (length tl + length (concat (tree_parts t ++ [slow n])))) by (unfold body; rewrite EH; cbn [app length]; rewrite app_length; reflexivity).
        unfold body at 2. rewrite EH in *. cbn [app] in *. cbn [c_parser]. rewrite X, TY. unfold to_usize. rewrite UV, N.mod_small by lia.
        assert (CC := count_cost umod cap_max (S (S (length body))) (tree_parts t) vs (slow n) (2 ^ N.of_nat n) E).
        assert (CS : forall r, (length (slow n ++ r) < S (S (length body)))%nat -> 2 ^ N.of_nat n <= fst (c_parser umod cap_max (S (S (length body))) (slow n ++ r))).
        { intros r LR. rewrite app_length, slow_length in LR. rewrite slow_parser by lia. cbn [fst]. assert (1 <= 2 ^ N.of_nat n) by (apply N.lt_pred_le, N.neq_0_lt_0, N.pow_nonzero; lia). lia. }
        specialize (CC CS (S (length (concat (tree_parts t ++ [slow n])))) []). rewrite app_nil_r in CC. specialize (CC ltac:(lia) ltac:(lia)).
        destruct (c_count_loop _ _ _ _) as [d [?| | |]]; unfold one_more, and_then; cbn [fst snd free] in *; lia. }
      unfold c_tree, c_parse_cbor. destruct (c_parser _ _ _ _) as [d [[v r]| | |]]; unfold and_then; cbn [fst snd free] in *; try lia.
      destruct r; cbn [fst snd free]; lia.
  Qed.
End SlowTree.

Lemma b64_length s : (3 * length (b64_enc true s) <= 4 * (length s + 2))%nat.
Proof.
  assert (G : forall n s, (length s <= n)%nat -> (3 * length (b64_enc true s) <= 4 * (length s + 2))%nat); [|exact (G _ s (le_n _))].
  induction n as [|n IH]; intros t L; destruct t as [|a [|b [|c t]]]; cbn [b64_enc b64_group app length bs] in *; try (cbn; lia).
  specialize (IH t ltac:(lia)). lia.
Qed.
Lemma b64_length_ge s : (4 * length s <= 3 * length (b64_enc true s))%nat.
Proof.
  assert (G : forall n s, (length s <= n)%nat -> (4 * length s <= 3 * length (b64_enc true s))%nat); [|exact (G _ s (le_n _))].
  induction n as [|n IH]; intros t L; destruct t as [|a [|b [|c t]]]; cbn [b64_enc b64_group app length bs] in *; try (cbn; lia).
  specialize (IH t ltac:(lia)). lia.
Qed.
Lemma then_fst_ge {A B} (x : counted A) (k : A -> counted B) : fst x <= fst (and_then x k).
Proof. destruct x as [n [a| | |]]; cbn; lia. Qed.
Lemma slow_tree_length n t : (length (slow_tree n t) <= length (self_describe ++ enc_tree t) + 2 * n + 1)%nat.
Proof.
  unfold slow_tree, padded_tree. rewrite !app_length, concat_app, app_length. cbn [concat]. rewrite app_nil_r, slow_length.
  assert (X : forall k, k <= 4 -> length (enc_head 4 k) = 1%nat). { intros k K. unfold enc_head. destruct (N.leb_spec k 23); [reflexivity|lia]. }
  destruct t; cbn [tree_parts length concat enc_tree]; rewrite ?app_length, ?app_nil_r, ?X by lia; cbn [length]; lia.
Qed.

(** No input size bounds the work, and a signature does not protect against it: any header the
    library writes can be made longer by about 8n/3 characters, so that it still means the same,
    but reading it takes more than 2^n calls. *)
Theorem C124_linear_time_refuted :
  forall (umod cap_max : N) (n : nat), 32 < umod <= 2 ^ 64 -> 1 <= cap_max ->
  (length (slow n) = 2 * n + 1 /\ parse_cbor umod cap_max (slow n) = OOk (slow_value n) /\
   fst (c_parse_cbor umod cap_max (slow n)) = (3 * 2 ^ N.of_nat n - 2)%N)%nat /\
  (forall (data_certificate : bytes) (c : certificate) (w : htree) (expr_path : list bytes),
   cert_from_cbor umod cap_max data_certificate = OOk c ->
   CborSpec.hashes32 w -> Forall (short umod) (strings_of w) ->
   Forall (fun s => utf8_valid s = true /\ short umod s) expr_path -> N.of_nat (length expr_path) < umod ->
   exists h, (3 * length h <= 3 * length (v2_certificate_header data_certificate w expr_path) + 8 * n + 12)%nat /\
     header_from umod cap_max h = header_from umod cap_max (v2_certificate_header data_certificate w expr_path) /\
     header_from umod cap_max h = OOk (mk_header c w 2 (Some expr_path)) /\
     2 ^ N.of_nat n <= fst (c_header_from umod cap_max h)).
Proof.
  intros umod cap n U C. split.
  - split; [apply slow_length|]. assert (P := slow_parser umod cap ltac:(lia) C n (S (length (slow n))) [] ltac:(rewrite slow_length; cbn; lia)). rewrite app_nil_r in P. split.
    + apply encodes_parse, slow_encodes; lia.
    + unfold c_parse_cbor. rewrite P. unfold and_then, free. cbn [fst snd]. lia.
  - intros dc c w ep DC HW SW SE LE. assert (F := Props_Cbor.fits_spec umod w HW SW). destruct (slow_tree_reads umod cap U C n w F) as [R K].
    assert (RS : strings_from_cbor umod cap (self_describe ++ enc_strings ep) = OOk ep).
    { destruct U as [U1 U2]. destruct (strings_roundtrip umod cap U2 ep SE LE) as [Q1 Q2]. unfold strings_from_cbor. rewrite (encodes_parse umod cap _ _ (encodes_self umod cap _ _ Q1)). exact Q2. }
    assert (HR := v2_text_reads umod cap dc (slow_tree n w) (self_describe ++ enc_strings ep) c w ep DC R RS).
    exists (v2_text dc (slow_tree n w) (self_describe ++ enc_strings ep)). split; [|split; [|split; [exact HR|]]].
    + unfold v2_text, v2_certificate_header. rewrite !app_length. assert (L1 := b64_length (slow_tree n w)). assert (L2 := b64_length_ge (self_describe ++ enc_tree w)). assert (L3 := slow_tree_length n w). cbn [length]. lia.
    + rewrite HR. symmetry. apply C44_certificate_header_round_trip; assumption.
    + destruct (v2_text_fields dc (slow_tree n w) (self_describe ++ enc_strings ep)) as (f1 & f2 & f3 & f4 & SP & S1 & S2 & S3 & S4).
      { intros ->. exact (proj2 (parse_nil umod cap) c DC). }
      { discriminate. } { discriminate. }
      unfold c_header_from. rewrite SP. etransitivity; [|apply then_fst_ge]. cbn [c_add_fields].
      assert (T1 : snd (c_add_field umod cap (mk_slots None None None None) f1) = OOk (mk_slots (Some c) None None None)).
      { rewrite add_field_same. unfold add_field. rewrite S1. change (bytes_eqb (bs "certificate") (bs "certificate")) with true. cbn [fill s_cert s_tree s_version s_path]. unfold decode_certificate. rewrite (proj1 (C43_base64_round_trip _)). cbn [of_opt out_bind]. rewrite DC. reflexivity. }
      destruct (c_add_field umod cap (mk_slots None None None None) f1) as [k1 o1]. cbn [snd] in T1. subst o1. rewrite then_ok. cbn [fst].
      assert (T2 : 2 ^ N.of_nat n <= fst (c_add_field umod cap (mk_slots (Some c) None None None) f2)).
      { unfold c_add_field. rewrite S2. change (bytes_eqb (bs "tree") (bs "certificate")) with false. change (bytes_eqb (bs "tree") (bs "tree")) with true. cbv iota. etransitivity; [|apply then_fst_ge].
        cbn [c_fill s_tree]. etransitivity; [|apply then_fst_ge]. unfold c_decode. rewrite (proj1 (C43_base64_round_trip _)). unfold of_opt, free, and_then at 1. cbn [fst snd]. lia. }
      assert (T3 := then_fst_ge (c_add_field umod cap (mk_slots (Some c) None None None) f2) (fun s1 => and_then (c_add_field umod cap s1 f3) (fun s2 => and_then (c_add_field umod cap s2 f4) (fun s3 => free (OOk s3))))).
      lia.
Qed.
Print Assumptions C124_linear_time_refuted.

(** ** Upper bounds *)
Definition W (i : bytes) : N := (N.of_nat (length i) + 1) * 2 ^ map_bytes i.
Lemma pow_pos k : 1 <= 2 ^ k.
Proof. apply N.lt_pred_le, N.neq_0_lt_0, N.pow_nonzero. lia. Qed.
Lemma W_cons b i : 1 + W i <= W (b :: i).
Proof.
  unfold W, map_bytes. cbn [length filter]. assert (P := pow_pos (N.of_nat (length (filter (fun b => cbor_type b =? 5) i)))). set (m := length (filter (fun b => cbor_type b =? 5) i)) in *. destruct (cbor_type b =? 5); cbn [length]; fold m.
  - replace (N.of_nat (S m)) with (N.succ (N.of_nat m)) by lia. rewrite N.pow_succ_r'. replace (N.of_nat (S (length i))) with (N.of_nat (length i) + 1) by lia. nia.
  - replace (N.of_nat (S (length i))) with (N.of_nat (length i) + 1) by lia. nia.
Qed.
Lemma W_map b i : cbor_type b = 5 -> 1 + 2 * W i <= W (b :: i).
Proof.
  intro T. unfold W, map_bytes. cbn [length filter]. rewrite T. change (5 =? 5) with true. cbn [length]. set (m := length (filter (fun b => cbor_type b =? 5) i)). assert (P := pow_pos (N.of_nat m)).
  replace (N.of_nat (S m)) with (N.succ (N.of_nat m)) by lia. rewrite N.pow_succ_r'. replace (N.of_nat (S (length i))) with (N.of_nat (length i) + 1) by lia. nia.
Qed.
Lemma W_suffix c r : W r <= W (c ++ r).
Proof. induction c as [|b c IH]; [reflexivity|]. cbn [app]. assert (X := W_cons b (c ++ r)). lia. Qed.
Section Upper.
  Variables umod cap_max : N.
  Definition within {A} (i : bytes) (x : counted (A * bytes)) : Prop :=
    match snd x with OOk (_, r) => (exists c, i = c ++ r) /\ fst x + W r <= W i | _ => fst x <= W i end.
  Definition within0 {A} (i : bytes) (x : counted (A * bytes)) : Prop :=
    match snd x with OOk (_, r) => (exists c, i = c ++ r) /\ fst x <= W i | _ => fst x <= W i end.
  Lemma count_within p : (forall j, within j (p j)) -> forall g n i, within i (c_count_loop p g n i).
  Proof.
    intro P. induction g as [|g IH]; intros n i; cbn [c_count_loop]; destruct (n =? 0); try (unfold within; cbn; try split; try lia; exists []; reflexivity).
    specialize (P i). destruct (p i) as [c1 [[v i1]| | |]]; unfold within in P |- *; cbn [fst snd and_then] in *; try exact P.
    destruct P as [(c & ->) P]. specialize (IH (n - 1) i1). unfold within in IH. destruct (c_count_loop p g (n - 1) i1) as [c2 [[vs r]| | |]]; cbn [fst snd and_then free] in *; try lia.
    destruct IH as [(d & ->) IH]. split; [exists (c ++ d); apply app_assoc|]. lia.
  Qed.
  Lemma key_val_within p : (forall j, within j (p j)) -> forall i, within i (c_key_val p i).
  Proof.
    intros P i. unfold c_key_val. assert (Pi := P i). destruct (p i) as [c1 [[v i1]| | |]]; unfold within in Pi |- *; cbn [fst snd and_then] in *; try exact Pi.
    destruct Pi as [(c & ->) Pi]. destruct v as [| |s| | |]; cbn [fst snd free]; try lia. destruct (utf8_valid s); cbn [fst snd free]; try lia.
    specialize (P i1). unfold within in P. destruct (p i1) as [c2 [[vs r]| | |]]; cbn [fst snd and_then free] in *; try lia.
    destruct P as [(d & ->) P]. split; [exists (c ++ d); apply app_assoc|]. lia.
  Qed.
  Lemma map_within p : (forall j, within j (p j)) -> forall g n acc i, within0 i (c_map_loop p g n acc i).
  Proof.
    intro P. induction g as [|g IH]; intros n acc i; cbn [c_map_loop]; destruct (n =? 0); try (unfold within0; cbn; try split; try lia; exists []; reflexivity).
    cbv zeta. assert (K := key_val_within p P i). destruct (c_key_val p i) as [c1 [[[k v] i1]| | |]]; unfold within in K; unfold within0; cbn [fst snd] in *; try exact K.
    - destruct K as [(c & ->) K]. destruct (Nat.eqb _ _); cbn [fst snd]; [lia|]. specialize (IH (n - 1) (map_set k v acc) i1). unfold within0 in IH.
      destruct (c_map_loop p g (n - 1) (map_set k v acc) i1) as [c2 [[vs r]| | |]]; cbn [fst snd] in *; try lia. destruct IH as [(d & ->) IH]. split; [exists (c ++ d); apply app_assoc|]. lia.
    - split; [exists []; reflexivity|exact K].
  Qed.
  Lemma parser_within f : forall i, within i (c_parser umod cap_max f i).
  Proof.
    induction f as [|f IH]; intro i; [unfold within; cbn; lia|]. cbn [c_parser]. destruct i as [|b i]; [unfold within; cbn; lia|].
    destruct (extract_cbor_value (b :: i)) as [[u i1]|] eqn:E.
    2:{ unfold within, one_more. cbn [fst snd free]. assert (X := W_cons b i). lia. }
    destruct (extract_consumes _ _ _ E) as (c & Q & D). destruct c as [|b' c]; [congruence|]. cbn [app] in Q. injection Q as <- Q.
    assert (X1 : 1 + W i1 <= W (b :: i)) by (rewrite Q; assert (Y := W_cons b (c ++ i1)); assert (Z := W_suffix c i1); lia).
    assert (LEAF : within (b :: i) (one_more (free (parser umod cap_max 1 (b :: i)))) \/ cbor_type b = 4 \/ cbor_type b = 5 \/ 5 < cbor_type b).
    { destruct (N.lt_ge_cases (cbor_type b) 4) as [T|T]; [left|right; lia]. unfold within, one_more. cbn [fst snd free parser]. rewrite E.
      assert (S1 : (exists c0, b :: i = c0 ++ i1) /\ 1 + 0 + W i1 <= W (b :: i)) by (split; [exists (b :: c); rewrite Q; reflexivity|lia]).
      destruct (cbor_type b) as [|t]; [exact S1|]. destruct t as [[t|t|]|[t|t|]|]; try lia; try exact S1;
        (destruct (take (to_usize umod u) i1) as [[d i2]|] eqn:K; cbn [of_opt out_bind]; [|lia]; apply take_some in K; destruct K as [-> _]; split; [exists ((b :: c) ++ d); rewrite Q, <- app_assoc; reflexivity|assert (Y := W_suffix d i2); lia]). }
    assert (TAG : within (b :: i) (one_more (c_parser umod cap_max f i1))).
    { specialize (IH i1). unfold within, one_more in *. cbn [fst snd]. destruct (snd (c_parser umod cap_max f i1)) as [[v r]| | |]; try lia. destruct IH as [(d & ->) K]. split; [exists ((b :: c) ++ d); rewrite Q, <- app_assoc; reflexivity|lia]. }
    assert (ARR : within (b :: i) (one_more (and_then (c_count_loop (c_parser umod cap_max f) (S (length i1)) (to_usize umod u) i1) (fun x => free (OOk (CArray (fst x), snd x)))))).
    { assert (K := count_within _ IH (S (length i1)) (to_usize umod u) i1). unfold within, one_more, and_then in *. destruct (c_count_loop _ _ _ _) as [k [[v r]| | |]]; cbn [fst snd free] in *; try lia. destruct K as [(d & ->) K]. split; [exists ((b :: c) ++ d); rewrite Q, <- app_assoc; reflexivity|lia]. }
    assert (MAP : cbor_type b = 5 -> within (b :: i) (one_more (if cap_max <? to_usize umod u then free OPanic else and_then (c_map_loop (c_parser umod cap_max f) (S (length i1)) (to_usize umod u) [] i1) (fun x => free (OOk (CMap (fst x), snd x)))))).
    { intro T. destruct (cap_max <? to_usize umod u); [unfold within, one_more; cbn [fst snd free]; lia|].
      assert (K := map_within _ IH (S (length i1)) (to_usize umod u) [] i1). assert (X2 : 1 + 2 * W i1 <= W (b :: i)) by (rewrite Q; assert (Y := W_map b (c ++ i1) T); assert (Z := W_suffix c i1); lia).
      unfold within, within0, one_more, and_then in *. destruct (c_map_loop _ _ _ _ _) as [k [[v r]| | |]]; cbn [fst snd free] in *; try lia. destruct K as [(d & ->) K]. split; [exists ((b :: c) ++ d); rewrite Q, <- app_assoc; reflexivity|]. assert (Y := W_suffix d r). lia. }
    destruct (cbor_type b) as [|t]; [destruct LEAF as [L|L]; [exact L|lia]|].
    do 3 (try (destruct t as [t|t|])); try exact TAG; try exact ARR; try (apply MAP; reflexivity); (destruct LEAF as [L|L]; [exact L|lia]).
  Qed.
End Upper.
(** In general the number of calls is at most (length + 1) times two to the number of bytes with
    the major type of maps: linear where there is no such byte. *)
Theorem C124_calls_bounded_by_map_bytes_partial :
  forall (umod cap_max : N) (i : bytes),
  fst (c_parse_cbor umod cap_max i) <= (N.of_nat (length i) + 1) * 2 ^ map_bytes i.
Proof.
  intros umod cap i. assert (X := parser_within umod cap (S (length i)) i). unfold within in X. change ((N.of_nat (length i) + 1) * 2 ^ map_bytes i) with (W i).
  unfold c_parse_cbor, and_then, free. destruct (c_parser umod cap (S (length i)) i) as [k [[v r]| | |]]; cbn [fst snd] in *; lia.
Qed.
Print Assumptions C124_calls_bounded_by_map_bytes_partial.

Section Exact.
  Variables (umod cap_max : N).
  Notation wf := (well_formed umod cap_max false).
  Notation cp := (c_parser umod cap_max).
  Definition costs n := forall i, (length (item_bytes i) <= n)%nat -> wf i -> forall f rest, (length (item_bytes i ++ rest) < f)%nat -> cp f (item_bytes i ++ rest) = (item_count i, OOk (item_value i, rest)).
  Lemma count_costs n f : costs n -> forall l g rest, (length (flat_map item_bytes l) <= n)%nat -> fold_right (fun i P => wf i /\ P) True l ->
    (length (flat_map item_bytes l ++ rest) < f)%nat -> (length l <= g)%nat ->
    c_count_loop (cp f) g (N.of_nat (length l)) (flat_map item_bytes l ++ rest) = (fold_right (fun i n => item_count i + n) 0 l, OOk (map item_value l, rest)).
  Proof.
    intro G. induction l as [|i l IH]; intros g rest L Wl F GL; [destruct g; reflexivity|]. cbn [flat_map length map fold_right] in *. destruct Wl as [W1 W2]. rewrite app_length in L. rewrite <- app_assoc in *.
    destruct g as [|g]; [lia|]. cbn [c_count_loop]. destruct (N.eqb_spec (N.of_nat (S (length l))) 0) as [Z|_]; [lia|].
    rewrite (G i) by (try assumption; lia). rewrite then_ok. cbn [fst snd].
    replace (N.of_nat (S (length l)) - 1) with (N.of_nat (length l)) by lia. rewrite app_length in F. rewrite IH by (try assumption; lia). unfold and_then, free. cbn [fst snd]. f_equal. lia.
  Qed.
  Lemma map_costs n f : costs n -> forall l g acc rest, (length (flat_map (fun kv => match kv with (k, v) => item_bytes k ++ item_bytes v end) l) <= n)%nat ->
    fold_right (fun kv P => match kv with (k, v) => (wf k /\ wf v /\ exists s, item_value k = CBytes s /\ utf8_valid s = true) /\ P end) True l ->
    (length (flat_map (fun kv => match kv with (k, v) => item_bytes k ++ item_bytes v end) l ++ rest) < f)%nat -> (length l <= g)%nat ->
    c_map_loop (cp f) g (N.of_nat (length l)) acc (flat_map (fun kv => match kv with (k, v) => item_bytes k ++ item_bytes v end) l ++ rest) =
      (fold_right (fun kv n => match kv with (k, v) => item_count k + item_count v + n end) 0 l,
       OOk (fold_left (fun m kv => match kv with (k, v) => match item_value k with CBytes s => map_set s (item_value v) m | _ => m end end) l acc, rest)).
  Proof.
    intro G. induction l as [|[k v] l IH]; intros g acc rest L Wl F GL; [destruct g; reflexivity|]. cbn [flat_map length fold_left fold_right] in *. destruct Wl as [(W1 & W2 & s & KS & US) W3]. rewrite !app_length in L. rewrite <- !app_assoc in *.
    destruct g as [|g]; [lia|]. cbn [c_map_loop]. destruct (N.eqb_spec (N.of_nat (S (length l))) 0) as [Z|_]; [lia|].
    set (tl := flat_map (fun kv => match kv with (k, v) => item_bytes k ++ item_bytes v end) l ++ rest) in *.
    assert (KV : c_key_val (cp f) (item_bytes k ++ item_bytes v ++ tl) = (item_count k + item_count v, OOk (s, item_value v, tl))).
    { unfold c_key_val. rewrite (G k) by (try assumption; lia). rewrite then_ok. cbn [fst snd]. rewrite KS, US. rewrite app_length in F. rewrite (G v) by (try assumption; lia). unfold and_then, free. cbn [fst snd]. f_equal. lia. }
    cbv zeta. rewrite KV. cbn [fst snd]. rewrite !app_length in F. destruct (Nat.eqb_spec (length tl) (length (item_bytes k ++ item_bytes v ++ tl))) as [Z|_].
    { rewrite !app_length in Z. assert (Y := item_nonempty k). lia. }
    replace (N.of_nat (S (length l)) - 1) with (N.of_nat (length l)) by lia. unfold tl in *. rewrite KS, IH by (try assumption; lia). reflexivity.
  Qed.
  Lemma all_costs n : costs n.
  Proof.
    induction n as [|n IH]; intros i L Wi f rest F; [assert (Y := item_nonempty i); lia|]. destruct f as [|f]; [lia|].
    assert (HD : forall m a body, m < 8 -> arg_valid a -> (length (rfc_head m a ++ body) <= S n)%nat -> (length ((rfc_head m a ++ body) ++ rest) < S f)%nat ->
      exists b tl, (rfc_head m a ++ body) ++ rest = b :: tl /\ cbor_type b = m /\ extract_cbor_value (b :: tl) = Some (stored a, body ++ rest) /\ (length body <= n)%nat /\ (length (body ++ rest) < f)%nat).
    { intros m a body M V X1 X2. destruct (head_extract m a (body ++ rest) M V) as (b & tl & E & T & X). exists b, (tl ++ body ++ rest). rewrite E in *. cbn [app length] in *. rewrite <- app_assoc in X2 |- *. rewrite app_length in X1, X2. split; [reflexivity|]. split; [exact T|]. split; [exact X|]. split; lia. }
    assert (LEAF : forall m a body, m < 4 -> arg_valid a -> item_bytes i = rfc_head m a ++ body -> item_count i = 1 -> cp (S f) (item_bytes i ++ rest) = (item_count i, OOk (item_value i, rest))).
    { intros m a body M V EB EC. assert (PV := all_good umod cap_max _ i L Wi (S f) rest F). rewrite EC. rewrite EB in L, F. destruct (HD m a body ltac:(lia) V L F) as (b & tl & E & T & X & _).
      rewrite EB in PV |- *. rewrite E in PV |- *. rewrite <- parser_same in PV. cbn [c_parser] in PV |- *. rewrite X in PV |- *. rewrite T in PV |- *. 
      destruct m as [|[[q|q|]|[q|q|]|]]; try lia; (unfold one_more, free in *; cbn [fst snd] in *; rewrite PV; reflexivity). }
    destruct i as [a|a|text a s|a l|a l|simple a i]; cbn [well_formed] in Wi.
    - apply (LEAF 0 a []); [lia|exact Wi|symmetry; apply app_nil_r|reflexivity].
    - apply (LEAF 1 a []); [lia|exact Wi|symmetry; apply app_nil_r|reflexivity].
    - apply (LEAF (if text then 3 else 2) a s); [destruct text; lia|apply Wi|reflexivity|reflexivity].
    - clear LEAF. cbn [item_bytes item_value item_count] in *. destruct Wi as (V & LS & Wi). destruct (HD 4 a _ ltac:(lia) V L F) as (b & tl & E & T & X & LB & FB). rewrite E. cbn [c_parser]. rewrite X, T. unfold to_usize. rewrite uval_stored, <- LS.
      rewrite (count_costs n f IH l) by (try assumption; rewrite app_length; assert (Y := flat_long item_bytes l item_nonempty); lia). unfold one_more, and_then, free. cbn [fst snd]. f_equal. lia.
    - clear LEAF. cbn [item_bytes item_value item_count] in *. destruct Wi as (V & LC & [LS|[Z _]] & Wi); [|discriminate Z]. destruct (HD 5 a _ ltac:(lia) V L F) as (b & tl & E & T & X & LB & FB). rewrite E. cbn [c_parser]. rewrite X, T. unfold to_usize. rewrite uval_stored.
      destruct (N.ltb_spec cap_max (arg_value a mod umod)) as [Z|_]; [lia|]. rewrite <- LS.
      rewrite (map_costs n f IH l) by (try assumption; rewrite app_length; assert (Y := flat_long (fun kv : item * item => match kv with (k, v) => item_bytes k ++ item_bytes v end) l ltac:(intros [k v]; rewrite app_length; assert (Y := item_nonempty k); lia)); lia). unfold one_more, and_then, free. cbn [fst snd]. f_equal. lia.
    - clear LEAF. cbn [item_bytes item_value item_count] in *. destruct Wi as [V Wi]. destruct (HD (if simple then 7 else 6) a _ ltac:(destruct simple; lia) V L F) as (b & tl & E & T & X & LB & FB). rewrite E. cbn [c_parser]. rewrite X, T.
      destruct simple; rewrite (IH i) by assumption; reflexivity.
  Qed.
End Exact.
Lemma head_nonempty m a : (1 <= length (rfc_head m a))%nat.
Proof. destruct a; cbn; lia. Qed.
Lemma item_count_length : forall i, item_count i <= N.of_nat (length (item_bytes i)).
Proof.
  fix IH 1. intros [a|a|text a s|a l|a l|simple a i]; cbn [item_count item_bytes]; rewrite ?app_length; match goal with |- context [rfc_head ?m ?a] => assert (H1 := head_nonempty m a) end; try lia.
  - assert (X : fold_right (fun i n => item_count i + n) 0 l <= N.of_nat (length (flat_map item_bytes l))). { clear H1. induction l as [|x l L]; cbn [fold_right flat_map]; [lia|]. rewrite app_length. specialize (IH x). lia. }
    lia.
  - assert (X : fold_right (fun kv n => match kv with (k, v) => item_count k + item_count v + n end) 0 l <= N.of_nat (length (flat_map (fun kv => match kv with (k, v) => item_bytes k ++ item_bytes v end) l))).
    { clear H1. induction l as [|[k v] l L]; cbn [fold_right flat_map]; [lia|]. rewrite !app_length. assert (A := IH k). assert (B := IH v). lia. }
    lia.
  - specialize (IH i). lia.
Qed.
(** On well-formed data items whose maps have all their entries, there is one call for each data item. *)
Theorem C124_one_call_per_item_partial :
  forall (umod cap_max : N) (i : item), well_formed umod cap_max false i ->
  fst (c_parse_cbor umod cap_max (item_bytes i)) = item_count i /\
  item_count i <= N.of_nat (length (item_bytes i)).
Proof.
  intros umod cap i Wi. split; [|apply item_count_length]. unfold c_parse_cbor. assert (X := all_costs umod cap _ i (le_n _) Wi (S (length (item_bytes i))) []). rewrite app_nil_r in X. rewrite X by lia. unfold and_then, free. cbn [fst snd]. lia.
Qed.
Print Assumptions C124_one_call_per_item_partial.

(** ** Concrete cases *)
Example ex_slow : slow 3 = unhex "82a182a182a180" /\ c_parse_cbor (2 ^ 64) (2 ^ 32) (slow 3) = (22, OOk (slow_value 3)).
Proof. vm_compute. split; reflexivity. Qed.
Example ex_slow_tree : tree_from_cbor (2 ^ 64) (2 ^ 32) (slow_tree 10 (HLabeled (bs "a") (HLeaf (bs "b")))) = OOk (HLabeled (bs "a") (HLeaf (bs "b"))) /\
  length (slow_tree 10 (HLabeled (bs "a") (HLeaf (bs "b")))) = 32%nat /\ fst (c_tree (2 ^ 64) (2 ^ 32) (slow_tree 10 (HLabeled (bs "a") (HLeaf (bs "b"))))) = 3077.
Proof. vm_compute. repeat split; reflexivity. Qed.
Example ex_map_bytes : map_bytes (slow 3) = 3 /\ map_bytes (item_bytes ex_item) = 1 /\ item_count ex_item = 10.
Proof. vm_compute. repeat split; reflexivity. Qed.
Example ex_item_calls : fst (c_parse_cbor (2 ^ 64) (2 ^ 32) (item_bytes ex_item)) = 10.
Proof. rewrite (proj1 (C124_one_call_per_item_partial _ _ ex_item ex_item_well_formed)). reflexivity. Qed.
(** a certificate and a tree that meet the hypotheses of the header part *)
Example ex_slow_header :
  cert_from_cbor (2 ^ 64) (2 ^ 32) (enc_cert (mk_cert (HLeaf (bs "x")) (bs "s") None)) = OOk (mk_cert (HLeaf (bs "x")) (bs "s") None) /\
  CborSpec.hashes32 (HLabeled (bs "a") (HLeaf (bs "b"))) /\ Forall (short (2 ^ 64)) (strings_of (HLabeled (bs "a") (HLeaf (bs "b")))).
Proof. split; [vm_compute; reflexivity|]. split; [exact I|]. repeat (constructor; [vm_compute; reflexivity|]). constructor. Qed.
