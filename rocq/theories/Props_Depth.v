(** C126: how deep the recursive readers go.  Every call of [parser] (cbor_parser.rs:139-203) and of
    [cel_value] (parser.rs:148-161) within a call lowers the fuel by one, so [OFuel] or [PFuel] with fuel
    [d] says that more than [d] calls are open at the same time. *)
From Coq Require Import List Arith NArith Lia Bool.
From Verif Require Import Bytes Text HashTree Utf8 Cbor CborSpec CborProofs Props_Cbor Base64 Header HeaderProofs HeaderSpec Props_Header Cel CelProofs CborCost Props_Cost.
Import ListNotations.
Local Open Scope N_scope.

Section Mono.
  Variables umod cap_max : N.
  Notation P := (parser umod cap_max).
  Definition more (p q : bytes -> out (cval * bytes)) := forall j, p j <> OFuel -> q j = p j.
  Lemma count_more p q : more p q -> forall g n i, count_loop p g n i <> OFuel -> count_loop q g n i = count_loop p g n i.
  Proof.
    intro M. induction g as [|g IH]; intros n i; cbn [count_loop]; destruct (n =? 0); try reflexivity. intro X.
    assert (Pi : p i <> OFuel) by (intro Z; rewrite Z in X; apply X; reflexivity). rewrite (M i Pi). destruct (p i) as [[v i1]| | |]; try reflexivity. cbn [out_bind] in *.
    rewrite IH; [reflexivity|]. intro Z. rewrite Z in X. apply X. reflexivity.
  Qed.
  Lemma key_more p q : more p q -> forall i, key_val p i <> OFuel -> key_val q i = key_val p i.
  Proof.
    intros M i X. unfold key_val in *. assert (Pi : p i <> OFuel) by (intro Z; rewrite Z in X; apply X; reflexivity). rewrite (M i Pi). destruct (p i) as [[v i1]| | |]; try reflexivity. cbn [out_bind] in *.
    destruct v as [| |s| | |]; try reflexivity. destruct (utf8_valid s); [|reflexivity]. rewrite (M i1); [reflexivity|]. intro Z. rewrite Z in X. apply X. reflexivity.
  Qed.
  Lemma map_more p q : more p q -> forall g n acc i, map_loop p g n acc i <> OFuel -> map_loop q g n acc i = map_loop p g n acc i.
  Proof.
    intro M. induction g as [|g IH]; intros n acc i; cbn [map_loop]; destruct (n =? 0); try reflexivity. intro X.
    assert (K : key_val p i <> OFuel) by (intro Z; rewrite Z in X; apply X; reflexivity). rewrite (key_more p q M i K). destruct (key_val p i) as [[[k v] i1]| | |]; try reflexivity.
    destruct (Nat.eqb _ _); [reflexivity|]. apply IH. exact X.
  Qed.
  Definition step (p : bytes -> out (cval * bytes)) (i : bytes) : out (cval * bytes) :=
    match i with
    | [] => OErr
    | b :: _ =>
        match extract_cbor_value i with
        | None => OErr
        | Some (u, i1) =>
            match cbor_type b with
            | 0 | 1 | 2 | 3 => P 1 i
            | 4 => ok (l, i2) <- count_loop p (S (length i1)) (to_usize umod u) i1; OOk (CArray l, i2)
            | 5 => if cap_max <? to_usize umod u then OPanic
                   else ok (m, i2) <- map_loop p (S (length i1)) (to_usize umod u) [] i1; OOk (CMap m, i2)
            | _ => p i1
            end
        end
    end.
  Lemma parser_step f i : P (S f) i = step (P f) i.
  Proof.
    cbn [parser]. unfold step. destruct i as [|b i]; [reflexivity|]. cbn [parser]. destruct (extract_cbor_value (b :: i)) as [[u i1]|]; [|reflexivity].
    destruct (cbor_type b) as [|t]; [reflexivity|]. do 3 (try (destruct t as [t|t|])); reflexivity.
  Qed.
  Lemma parser_more f : more (P f) (P (S f)).
  Proof.
    induction f as [|f IH]; intros i X; [exfalso; apply X; reflexivity|]. rewrite parser_step in X. rewrite !parser_step. unfold step in *.
    destruct i as [|b i]; [reflexivity|]. destruct (extract_cbor_value (b :: i)) as [[u i1]|]; [|reflexivity].
    destruct (cbor_type b) as [|t]; [reflexivity|]. do 3 (try (destruct t as [t|t|])); try reflexivity; try (apply IH; exact X).
    - destruct (cap_max <? to_usize umod u); [reflexivity|]. rewrite (map_more _ _ IH); [reflexivity|]. intro Z. rewrite Z in X. apply X. reflexivity.
    - rewrite (count_more _ _ IH); [reflexivity|]. intro Z. rewrite Z in X. apply X. reflexivity.
  Qed.
  Lemma parser_mono f g i : (f <= g)%nat -> P f i <> OFuel -> P g i = P f i.
  Proof.
    intros L X. induction L as [|g L IH]; [reflexivity|]. rewrite parser_more; [exact IH|]. rewrite IH. exact X.
  Qed.
  (** with any fuel an encoding is read, or the fuel runs out *)
  Lemma encodes_any e v f r : encodes umod cap_max e v -> P f (e ++ r) = OOk (v, r) \/ P f (e ++ r) = OFuel.
  Proof.
    intro E. specialize (E (S (f + length (e ++ r))) r ltac:(lia)).
    assert (D : P f (e ++ r) = OFuel \/ P f (e ++ r) <> OFuel) by (destruct (P f (e ++ r)); auto; right; discriminate).
    destruct D as [D|D]; [auto|left]. rewrite <- (parser_mono f (S (f + length (e ++ r))) (e ++ r) ltac:(lia) D). exact E.
  Qed.
  Lemma count_deep f es vs e : Forall2 (encodes umod cap_max) es vs -> (forall r, P f (e ++ r) = OFuel) ->
    forall g r, count_loop (P f) g (N.of_nat (S (length es))) (concat (es ++ [e]) ++ r) = OFuel.
  Proof.
    intros F D. induction F as [|x v es vs X F IH]; intros g r; (destruct g as [|g]; [reflexivity|]); cbn [app concat length count_loop].
    - change (N.of_nat 1 =? 0) with false. cbv iota. rewrite app_nil_r, D. reflexivity.
    - destruct (N.eqb_spec (N.of_nat (S (S (length es)))) 0) as [Y|_]; [lia|]. rewrite <- app_assoc. destruct (encodes_any x v f (concat (es ++ [e]) ++ r) X) as [Q|Q]; rewrite Q; [|reflexivity].
      cbn [out_bind]. replace (N.of_nat (S (S (length es))) - 1) with (N.of_nat (S (length es))) by lia. rewrite IH. reflexivity.
  Qed.
  Hypothesis U : 32 < umod <= 2 ^ 64.
  Lemma deep_parser d r : P d (deep d ++ r) = OFuel.
  Proof.
    assert (M1 : to_usize umod (U8 1) = 1) by (apply N.mod_small; lia).
    unfold deep. rewrite <- app_assoc. induction d as [|d IH]; [reflexivity|]. set (rest := repeat x81 d ++ [x80] ++ r) in *.
    change (P (S d) (repeat x81 (S d) ++ [x80] ++ r)) with (ok (l, i2) <- count_loop (P d) (S (length rest)) (to_usize umod (U8 1)) rest; OOk (CArray l, i2)).
    rewrite M1. cbn [count_loop]. change (1 =? 0) with false. cbv iota. rewrite IH. reflexivity.
  Qed.
  Lemma deep_encodes d : encodes umod cap_max (deep d) (deep_value d).
  Proof.
    destruct U as [U1 U2]. induction d as [|d IH]; [exact (encodes_array umod cap_max U2 [] [] (Forall2_nil _) ltac:(cbn; lia))|].
    assert (A := encodes_array umod cap_max U2 [deep d] [deep_value d] (Forall2_cons _ _ IH (Forall2_nil _)) ltac:(cbn; lia)). cbn [concat] in A. rewrite app_nil_r in A. exact A.
  Qed.
  Lemma padded_reads e v t : fits umod t -> encodes umod cap_max e v -> tree_from_cbor umod cap_max (padded_tree e t) = OOk t.
  Proof.
    intros F EV. destruct (parts_encode umod cap_max U t F) as (vs & E & T). destruct U as [U1 U2].
    assert (PL : (length (tree_parts t) <= 3)%nat) by (destruct t; cbn; lia).
    assert (FA : Forall2 (encodes umod cap_max) (tree_parts t ++ [e]) (vs ++ [v])) by (apply Forall2_app; [exact E|]; constructor; [exact EV|constructor]).
    assert (L : length (tree_parts t ++ [e]) = S (length (tree_parts t))) by (rewrite app_length; cbn; lia).
    assert (A := encodes_array umod cap_max U2 _ _ FA ltac:(lia)). rewrite L in A.
    unfold tree_from_cbor, padded_tree. rewrite (encodes_parse _ _ _ _ (encodes_self umod cap_max _ _ A)). cbn [out_bind]. rewrite T. reflexivity.
  Qed.
  Lemma padded_deep d t : fits umod t -> P d (padded_tree (deep d) t) = OFuel.
  Proof.
    intro F. destruct (parts_encode umod cap_max U t F) as (vs & E & _). assert (PL : (length (tree_parts t) <= 3)%nat) by (destruct t; cbn; lia).
    destruct d as [|[|d]]; [reflexivity| |].
    - unfold padded_tree. set (body := enc_head 4 _ ++ _). change (self_describe ++ body) with (xd9 :: ([xd9; xf7] ++ body)). cbn [parser].
      change (extract_cbor_value (xd9 :: [xd9; xf7] ++ body)) with (match take 2 ([xd9; xf7] ++ body) with Some (d, i2) => Some (U16 (be_int d), i2) | None => None end). rewrite take_app by reflexivity. reflexivity.
    - unfold padded_tree. set (e := deep (S (S d))). set (body := enc_head 4 _ ++ _). change (self_describe ++ body) with (xd9 :: ([xd9; xf7] ++ body)).
      assert (SD : P (S (S d)) (xd9 :: [xd9; xf7] ++ body) = P (S d) body).
      { remember (S d) as f. cbn [parser]. change (extract_cbor_value (xd9 :: [xd9; xf7] ++ body)) with (match take 2 ([xd9; xf7] ++ body) with Some (d, i2) => Some (U16 (be_int d), i2) | None => None end). rewrite take_app by reflexivity. reflexivity. }
      rewrite SD. unfold body. destruct (head_ok 4 (N.of_nat (S (length (tree_parts t)))) (concat (tree_parts t ++ [e])) ltac:(lia) ltac:(lia)) as (b0 & tl & u & EH & TY & X & UV & _).
      rewrite EH in *. cbn [app] in *. cbn [parser]. rewrite X, TY. unfold to_usize. rewrite UV, N.mod_small by lia.
      assert (DF : forall r, P d (e ++ r) = OFuel).
      { intro r. assert (Q := deep_parser (S (S d)) r). fold e in Q. destruct (P d (e ++ r)) as [x| | |] eqn:Z; try reflexivity; exfalso;
          (assert (NZ : P d (e ++ r) <> OFuel) by (rewrite Z; discriminate); rewrite (parser_mono d (S (S d)) (e ++ r) ltac:(lia) NZ), Z in Q; discriminate Q). }
      assert (CD := count_deep d _ _ e E DF (S (length (concat (tree_parts t ++ [e])))) []). rewrite app_nil_r in CD. rewrite CD. reflexivity.
  Qed.
End Mono.
Lemma deep_length d : length (deep d) = (d + 1)%nat.
Proof. unfold deep. rewrite app_length, repeat_length. reflexivity. Qed.
Lemma padded_length e t : (length (padded_tree e t) <= length (self_describe ++ enc_tree t) + length e)%nat.
Proof.
  unfold padded_tree. rewrite !app_length, concat_app, app_length. cbn [concat]. rewrite app_nil_r.
  assert (X : forall k, k <= 4 -> length (enc_head 4 k) = 1%nat). { intros k K. unfold enc_head. destruct (N.leb_spec k 23); [reflexivity|lia]. }
  destruct t; cbn [tree_parts length concat enc_tree]; rewrite ?app_length, ?app_nil_r, ?X by lia; cbn [length]; lia.
Qed.

(** ** Expressions *)
Fixpoint deep_array (d : nat) : cv := match d with O => CvArray [] | S d' => CvArray [deep_array d'] end.
Definition brackets (d : nat) : bytes := repeat "["%byte (S d) ++ repeat "]"%byte (S d).
Lemma repeat_snoc {A} (x : A) n : repeat x n ++ [x] = x :: repeat x n.
Proof. induction n as [|n IH]; [reflexivity|]. cbn [repeat app]. rewrite IH. reflexivity. Qed.
Lemma bracket_step f s : cel_value (S f) ("["%byte :: s) = pmap CvArray (drop_separators "[" "]" (sep_list (cel_value f)) ("["%byte :: s)) \/
  drop_separators "[" "]" (sep_list (cel_value f)) ("["%byte :: s) = PErr.
Proof.
  cbn [cel_value]. change (skip_ws ("["%byte :: s)) with ("["%byte :: s). change (ident ("["%byte :: s)) with (@nil byte, "["%byte :: s). cbv iota zeta.
  change (drop_separators "{" "}" (sep_list (key_value (cel_value f))) ("["%byte :: s)) with (@PErr (list (bytes * cv))). change (drop_separators "(" ")" (sep_list (cel_value f)) ("["%byte :: s)) with (@PErr (list cv)). cbn [pmap alt].
  destruct (drop_separators "[" "]" (sep_list (cel_value f)) ("["%byte :: s)); cbn [pmap alt]; auto.
Qed.
Lemma bracket_drop {A} (p : bytes -> pres A) s : drop_separators "[" "]" p ("["%byte :: s) =
  cut match p s with POk v s2 => match pchar "]" (skip_ws s2) with Some s3 => POk v s3 | None => PErr end | r => r end.
Proof. reflexivity. Qed.
Lemma cut_not {A} (x : pres A) : cut x <> PErr.
Proof. destruct x; discriminate. Qed.
Lemma close_stop f r : cel_value (S f) ("]"%byte :: r) = PErr.
Proof. reflexivity. Qed.
Lemma brackets_read d : forall f r, (d + 1 < f)%nat -> (exists s, r = "]"%byte :: s) \/ r = [] -> cel_value f (brackets d ++ r) = POk (deep_array d) r.
Proof.
  induction d as [|d IH]; intros f r L R; (destruct f as [|f]; [lia|]).
  - destruct f as [|f]; [lia|]. unfold brackets. cbn [repeat app]. destruct (bracket_step (S f) ("]"%byte :: r)) as [E|E]; [rewrite E|exfalso; rewrite bracket_drop in E; exact (cut_not _ E)].
    rewrite bracket_drop. unfold sep_list. rewrite close_stop. reflexivity.
  - assert (BE : brackets (S d) ++ r = "["%byte :: brackets d ++ ("]"%byte :: r)).
    { unfold brackets. change (repeat "["%byte (S (S d))) with ("["%byte :: repeat "["%byte (S d)). rewrite <- (repeat_snoc "]"%byte (S d)) at 1. cbn [app]. f_equal. rewrite <- !app_assoc. reflexivity. }
    rewrite BE. destruct (bracket_step f (brackets d ++ ("]"%byte :: r))) as [E|E]; [rewrite E|exfalso; rewrite bracket_drop in E; exact (cut_not _ E)].
    rewrite bracket_drop. unfold sep_list. rewrite IH by (try lia; left; eauto). reflexivity.
Qed.
Lemma brackets_fuel d : forall r, cel_value d (brackets d ++ r) = PFuel.
Proof.
  induction d as [|d IH]; intro r; [reflexivity|].
  assert (BE : brackets (S d) ++ r = "["%byte :: brackets d ++ ("]"%byte :: r)).
  { unfold brackets. change (repeat "["%byte (S (S d))) with ("["%byte :: repeat "["%byte (S d)). rewrite <- (repeat_snoc "]"%byte (S d)) at 1. cbn [app]. f_equal. rewrite <- !app_assoc. reflexivity. }
  rewrite BE. destruct (bracket_step d (brackets d ++ ("]"%byte :: r))) as [E|E]; [rewrite E|exfalso; rewrite bracket_drop in E; exact (cut_not _ E)].
  rewrite bracket_drop. unfold sep_list. rewrite IH. reflexivity.
Qed.

(** The depth is never more than the length of the input and one. *)
Theorem C126_depth_at_most_length_partial :
  forall (umod cap_max : N) (input : bytes) (depth : nat), (length input < depth)%nat ->
  parser umod cap_max depth input <> OFuel /\ cel_value depth input <> PFuel.
Proof.
  intros umod cap i d L. split.
  - intro Z. assert (X := parser_consumes umod cap d i L). rewrite Z in X. exact X.
  - intro Z. assert (X := cel_value_good d i L). rewrite Z in X. exact X.
Qed.
Print Assumptions C126_depth_at_most_length_partial.
(** But no depth is enough for every input, and inputs of any depth are accepted. *)
Theorem C126_constant_depth_refuted :
  forall (umod cap_max : N) (d : nat), 32 < umod <= 2 ^ 64 ->
  (length (deep d) = d + 1)%nat /\ parse_cbor umod cap_max (deep d) = OOk (deep_value d) /\ parser umod cap_max d (deep d) = OFuel /\
  (length (brackets d) = 2 * d + 2)%nat /\ parse_cel (brackets d) = Some (deep_array d) /\ cel_value d (brackets d) = PFuel /\
  (forall (data_certificate : bytes) (c : certificate) (w : htree) (expr_path : list bytes),
   cert_from_cbor umod cap_max data_certificate = OOk c ->
   CborSpec.hashes32 w -> Forall (short umod) (strings_of w) ->
   Forall (fun s => utf8_valid s = true /\ short umod s) expr_path -> N.of_nat (length expr_path) < umod ->
   exists h tree_text tree_bytes,
     (3 * length h <= 3 * length (v2_certificate_header data_certificate w expr_path) + 4 * d + 12)%nat /\
     header_from umod cap_max h = OOk (mk_header c w 2 (Some expr_path)) /\
     first_field h (bs "tree") tree_text /\ b64_dec tree_text = Some tree_bytes /\
     parser umod cap_max d tree_bytes = OFuel).
Proof.
  intros umod cap d U. split; [apply deep_length|]. split; [apply encodes_parse, deep_encodes; exact U|]. split; [assert (X := deep_parser umod cap U d []); rewrite app_nil_r in X; exact X|].
  assert (BL : length (brackets d) = (2 * d + 2)%nat) by (unfold brackets; rewrite app_length, !repeat_length; lia).
  split; [exact BL|]. split; [unfold parse_cel; assert (X := brackets_read d (S (length (brackets d))) [] ltac:(lia) (or_intror eq_refl)); rewrite app_nil_r in X; rewrite X; reflexivity|].
  split; [assert (X := brackets_fuel d []); rewrite app_nil_r in X; exact X|].
  intros dc c w ep DC HW SW SE LE. assert (F := Props_Cbor.fits_spec umod w HW SW).
  assert (R := padded_reads umod cap U (deep d) (deep_value d) w F (deep_encodes umod cap U d)).
  assert (RS : strings_from_cbor umod cap (self_describe ++ enc_strings ep) = OOk ep).
  { destruct U as [U1 U2]. destruct (strings_roundtrip umod cap U2 ep SE LE) as [Q1 Q2]. unfold strings_from_cbor. rewrite (encodes_parse umod cap _ _ (encodes_self umod cap _ _ Q1)). exact Q2. }
  assert (HR := v2_text_reads umod cap dc (padded_tree (deep d) w) (self_describe ++ enc_strings ep) c w ep DC R RS).
  exists (v2_text dc (padded_tree (deep d) w) (self_describe ++ enc_strings ep)), (b64_enc true (padded_tree (deep d) w)), (padded_tree (deep d) w). split; [|split; [exact HR|split; [|split; [|apply padded_deep; assumption]]]].
  - unfold v2_text, v2_certificate_header. rewrite !app_length. assert (L1 := b64_length (padded_tree (deep d) w)). assert (L2 := b64_length_ge (self_describe ++ enc_tree w)). assert (L3 := padded_length (deep d) w). rewrite deep_length in L3. cbn [length]. lia.
  - destruct (v2_text_fields dc (padded_tree (deep d) w) (self_describe ++ enc_strings ep)) as (f1 & f2 & f3 & f4 & SP & S1 & S2 & S3 & S4).
    { intros ->. exact (proj2 (parse_nil umod cap) c DC). } { discriminate. } { discriminate. }
    unfold first_field. rewrite SP. exists [f1], f2, [f3; f4]. split; [reflexivity|]. split; [apply header_field_says; exact S2|].
    intros g v [<-|[]]. intro Z. apply header_field_says in Z. rewrite S1 in Z. discriminate Z.
  - apply (proj1 (C43_base64_round_trip _)).
Qed.
Print Assumptions C126_constant_depth_refuted.
Example ex_deep : parse_cbor (2 ^ 64) (2 ^ 32) (unhex "8181818180") = OOk (deep_value 4) /\ parser (2 ^ 64) (2 ^ 32) 4 (unhex "8181818180") = OFuel /\ deep 4 = unhex "8181818180".
Proof. vm_compute. repeat split; reflexivity. Qed.
Example ex_brackets : brackets 2 = bs "[[[]]]" /\ parse_cel (bs "[[[]]]") = Some (CvArray [CvArray [CvArray []]]).
Proof. vm_compute. split; reflexivity. Qed.
