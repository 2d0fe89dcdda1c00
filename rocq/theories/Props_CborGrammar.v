(** C117: ic-cbor reads exactly the data items of RFC 8949, except for short maps. *)
From Coq Require Import List Arith NArith Lia Bool.
From Verif Require Import Bytes Utf8 Cbor CborSpec CborProofs Props_Cbor CborGrammar.
Import ListNotations.
Local Open Scope N_scope.

Lemma be_int_bound d : be_int d < 256 ^ N.of_nat (length d).
Proof.
  induction d as [|b d IH] using rev_ind; [cbn; lia|]. rewrite be_int_app, app_length. cbn [length]. rewrite Nat.add_1_r, Nat2N.inj_succ, N.pow_succ_r'. assert (B := b2n_lt b). lia.
Qed.
Lemma be_enc_int d : be_enc (length d) (be_int d) = d.
Proof.
  induction d as [|b d IH] using rev_ind; [reflexivity|]. rewrite app_length. cbn [length]. rewrite Nat.add_1_r. cbn [be_enc]. rewrite be_int_app. assert (B := b2n_lt b).
  assert (D : (be_int d * 256 + b2n b) / 256 = be_int d) by (symmetry; apply (N.div_unique _ _ _ (b2n b)); lia). rewrite D, IH. f_equal. f_equal.
  assert (M : (be_int d * 256 + b2n b) mod 256 = b2n b) by (symmetry; apply (N.mod_unique _ _ (be_int d)); lia).
  rewrite <- (n2b_b2n b) at 2. rewrite <- (n2b_b2n (n2b (be_int d * 256 + b2n b))), b2n_n2b, M. reflexivity.
Qed.
Lemma extract_head b tl u r : extract_cbor_value (b :: tl) = Some (u, r) ->
  cbor_type b < 8 /\ exists a, arg_valid a /\ b :: tl = rfc_head (cbor_type b) a ++ r /\ u = stored a.
Proof.
  intro E. assert (B := b2n_lt b). assert (T : cbor_type b < 8) by (apply N.div_lt_upper_bound; lia). split; [exact T|].
  assert (HB : forall k, cbor_info b = k -> b = n2b (32 * cbor_type b + k)).
  { intros k <-. unfold cbor_type, cbor_info. rewrite <- N.div_mod by lia. symmetry. apply n2b_b2n. }
  assert (G : forall k w (f : N -> cuint), cbor_info b = k -> match take (N.of_nat w) tl with Some (d, i2) => Some (f (be_int d), i2) | None => None end = Some (u, r) ->
     exists n, n < 256 ^ N.of_nat w /\ b :: tl = (n2b (32 * cbor_type b + k) :: big_endian w n) ++ r /\ u = f n).
  { intros k w f I X. destruct (take (N.of_nat w) tl) as [[d i2]|] eqn:K; [|discriminate X]. injection X as <- <-. apply take_some in K. destruct K as [-> L]. apply Nat2N.inj in L. subst w.
    exists (be_int d). split; [apply be_int_bound|]. split; [|reflexivity]. rewrite <- (HB _ I), be_eq by apply be_int_bound. rewrite be_enc_int. reflexivity. }
  unfold extract_cbor_value in E. cbv zeta in E.
  destruct (N.leb_spec (cbor_info b) 23) as [L|_]. { injection E as <- <-. exists (Imm (cbor_info b)). split; [exact L|]. split; [|reflexivity]. cbn [rfc_head app]. rewrite <- (HB _ eq_refl). reflexivity. }
  destruct (N.eqb_spec (cbor_info b) 24) as [I|_]. { destruct (G 24 1%nat U8 I E) as (n & A & A' & ->). exists (Arg1 n). auto. }
  destruct (N.eqb_spec (cbor_info b) 25) as [I|_]. { destruct (G 25 2%nat U16 I E) as (n & A & A' & ->). exists (Arg2 n). auto. }
  destruct (N.eqb_spec (cbor_info b) 26) as [I|_]. { destruct (G 26 4%nat U32 I E) as (n & A & A' & ->). exists (Arg4 n). auto. }
  destruct (N.eqb_spec (cbor_info b) 27) as [I|_]. { destruct (G 27 8%nat U64 I E) as (n & A & A' & ->). exists (Arg8 n). auto. }
  discriminate E.
Qed.
Lemma head_extract major a r : major < 8 -> arg_valid a -> exists b tl, rfc_head major a = b :: tl /\ cbor_type b = major /\ extract_cbor_value (b :: tl ++ r) = Some (stored a, r).
Proof.
  intros M V. destruct (rfc_extract major a M V) as (b & tl & E & T & X). exists b, tl. split; [exact E|]. split; [exact T|]. assert (Y := extract_ext _ _ _ r X). rewrite E in Y. cbn [app] in Y. rewrite Y. destruct a; reflexivity.
Qed.
Lemma uval_stored a : uval (stored a) = arg_value a.
Proof. destruct a; reflexivity. Qed.
Lemma number_stored a : match stored a with
                         | U8 0 => CTag TEmpty | U8 1 => CTag TFork | U8 2 => CTag TLabelled | U8 3 => CTag TLeaf | U8 4 => CTag TPruned
                         | _ => CUnsigned (stored a) end = number_value a.
Proof.
  destruct a as [n|n|n|n|n]; cbn [stored number_value]; try reflexivity; destruct n as [|[[[p|p|]|[p|p|]|]|[[p|p|]|[p|p|]|]|]]; reflexivity.
Qed.
Lemma item_nonempty i : (1 <= length (item_bytes i))%nat.
Proof.
  assert (X : forall m a, (1 <= length (rfc_head m a))%nat) by (intros m a; destruct a; cbn; lia).
  destruct i; cbn [item_bytes]; rewrite ?app_length; match goal with |- context [rfc_head ?m ?a] => specialize (X m a) end; lia.
Qed.

Section Strict.
  Variables (umod cap_max : N).
  Notation wf := (well_formed umod cap_max false).
  Notation parser := (parser umod cap_max).
  Definition good n := forall i, (length (item_bytes i) <= n)%nat -> wf i -> forall f rest, (length (item_bytes i ++ rest) < f)%nat -> parser f (item_bytes i ++ rest) = OOk (item_value i, rest).
  Lemma count_good n f : good n -> forall l g rest, (length (flat_map item_bytes l) <= n)%nat -> fold_right (fun i P => wf i /\ P) True l ->
    (length (flat_map item_bytes l ++ rest) < f)%nat -> (length l <= g)%nat -> count_loop (parser f) g (N.of_nat (length l)) (flat_map item_bytes l ++ rest) = OOk (map item_value l, rest).
  Proof.
    intro G. induction l as [|i l IH]; intros g rest L W F GL; [destruct g; reflexivity|]. cbn [flat_map length map fold_right] in *. destruct W as [W1 W2]. rewrite app_length in L. rewrite <- app_assoc in *.
    destruct g as [|g]; [lia|]. cbn [count_loop]. destruct (N.eqb_spec (N.of_nat (S (length l))) 0) as [Z|_]; [lia|].
    rewrite (G i) by (try assumption; lia). cbn [out_bind].
    replace (N.of_nat (S (length l)) - 1) with (N.of_nat (length l)) by lia. rewrite app_length in F. rewrite IH by (try assumption; lia). reflexivity.
  Qed.
  Lemma map_good n f : good n -> forall l g acc rest, (length (flat_map (fun kv => match kv with (k, v) => item_bytes k ++ item_bytes v end) l) <= n)%nat ->
    fold_right (fun kv P => match kv with (k, v) => (wf k /\ wf v /\ exists s, item_value k = CBytes s /\ utf8_valid s = true) /\ P end) True l ->
    (length (flat_map (fun kv => match kv with (k, v) => item_bytes k ++ item_bytes v end) l ++ rest) < f)%nat -> (length l <= g)%nat ->
    map_loop (parser f) g (N.of_nat (length l)) acc (flat_map (fun kv => match kv with (k, v) => item_bytes k ++ item_bytes v end) l ++ rest) =
      OOk (fold_left (fun m kv => match kv with (k, v) => match item_value k with CBytes s => map_set s (item_value v) m | _ => m end end) l acc, rest).
  Proof.
    intro G. induction l as [|[k v] l IH]; intros g acc rest L W F GL; [destruct g; reflexivity|]. cbn [flat_map length fold_left fold_right] in *. destruct W as [(W1 & W2 & s & KS & US) W3]. rewrite !app_length in L. rewrite <- !app_assoc in *.
    destruct g as [|g]; [lia|]. cbn [map_loop]. destruct (N.eqb_spec (N.of_nat (S (length l))) 0) as [Z|_]; [lia|]. unfold key_val.
    rewrite (G k) by (try assumption; lia). cbn [out_bind]. rewrite KS, US. rewrite app_length in F. rewrite (G v) by (try assumption; lia). cbn [out_bind].
    rewrite !app_length in F. destruct (Nat.eqb_spec (length (flat_map (fun kv => match kv with (k, v) => item_bytes k ++ item_bytes v end) l ++ rest)) (length (item_bytes k ++ item_bytes v ++ flat_map (fun kv => match kv with (k, v) => item_bytes k ++ item_bytes v end) l ++ rest))) as [Z|_].
    { rewrite !app_length in Z. assert (Y := item_nonempty k). lia. }
    replace (N.of_nat (S (length l)) - 1) with (N.of_nat (length l)) by lia. rewrite IH by (try assumption; rewrite ?app_length; lia). reflexivity.
  Qed.
  Lemma flat_long {A} (f : A -> bytes) l : (forall x, 1 <= length (f x))%nat -> (length l <= length (flat_map f l))%nat.
  Proof. intro X. induction l as [|a l IH]; cbn [flat_map length]; [lia|]. rewrite app_length. specialize (X a). lia. Qed.
  Lemma all_good n : good n.
  Proof.
    induction n as [|n IH]; intros i L W f rest F; [assert (Y := item_nonempty i); lia|]. destruct f as [|f]; [lia|].
    assert (HD : forall m a body, m < 8 -> arg_valid a -> (length (rfc_head m a ++ body) <= S n)%nat -> (length ((rfc_head m a ++ body) ++ rest) < S f)%nat ->
      exists b tl, (rfc_head m a ++ body) ++ rest = b :: tl /\ cbor_type b = m /\ extract_cbor_value (b :: tl) = Some (stored a, body ++ rest) /\ (length body <= n)%nat /\ (length (body ++ rest) < f)%nat).
    { intros m a body M V X1 X2. destruct (head_extract m a (body ++ rest) M V) as (b & tl & E & T & X). exists b, (tl ++ body ++ rest). rewrite E in *. cbn [app length] in *. rewrite <- app_assoc in X2 |- *. rewrite app_length in X1, X2. split; [reflexivity|]. split; [exact T|]. split; [exact X|]. split; lia. }
    destruct i as [a|a|text a s|a l|a l|simple a i]; cbn [well_formed item_bytes item_value] in *.
    - rewrite <- (app_nil_r (rfc_head 0 a)) in F, L |- *. destruct (HD 0 a [] ltac:(lia) W L F) as (b & tl & E & T & X & _). rewrite E. cbn [Cbor.parser]. rewrite X, T. cbn [app]. rewrite number_stored. reflexivity.
    - rewrite <- (app_nil_r (rfc_head 1 a)) in F, L |- *. destruct (HD 1 a [] ltac:(lia) W L F) as (b & tl & E & T & X & _). rewrite E. cbn [Cbor.parser]. rewrite X, T. reflexivity.
    - destruct W as [V LS]. destruct (HD (if text then 3 else 2) a s ltac:(destruct text; lia) V L F) as (b & tl & E & T & X & _). rewrite E. cbn [Cbor.parser]. rewrite X, T. unfold to_usize. rewrite uval_stored, <- LS. rewrite take_app by reflexivity. destruct text; reflexivity.
    - destruct W as (V & LS & W). destruct (HD 4 a _ ltac:(lia) V L F) as (b & tl & E & T & X & LB & FB). rewrite E. cbn [Cbor.parser]. rewrite X, T. unfold to_usize. rewrite uval_stored, <- LS.
      rewrite (count_good n f IH l) by (try assumption; rewrite app_length; assert (Y := flat_long item_bytes l item_nonempty); lia). reflexivity.
    - destruct W as (V & LC & [LS|[Z _]] & W); [|discriminate Z]. destruct (HD 5 a _ ltac:(lia) V L F) as (b & tl & E & T & X & LB & FB). rewrite E. cbn [Cbor.parser]. rewrite X, T. unfold to_usize. rewrite uval_stored.
      destruct (N.ltb_spec cap_max (arg_value a mod umod)) as [Z|_]; [lia|]. rewrite <- LS.
      rewrite (map_good n f IH l) by (try assumption; rewrite app_length; assert (Y := flat_long (fun kv : item * item => match kv with (k, v) => item_bytes k ++ item_bytes v end) l ltac:(intros [k v]; rewrite app_length; assert (Y := item_nonempty k); lia)); lia). reflexivity.
    - destruct W as [V W]. destruct (HD (if simple then 7 else 6) a _ ltac:(destruct simple; lia) V L F) as (b & tl & E & T & X & LB & FB). rewrite E. cbn [Cbor.parser]. rewrite X, T.
      destruct simple; apply IH; assumption.
  Qed.
End Strict.
Theorem C117_every_item_is_read :
  forall (umod cap_max : N) (i : item), well_formed umod cap_max false i -> parse_cbor umod cap_max (item_bytes i) = OOk (item_value i).
Proof.
  intros umod cap i W. unfold parse_cbor. assert (X := all_good umod cap (length (item_bytes i)) i (le_n _) W (S (length (item_bytes i))) []). rewrite app_nil_r in X. rewrite X by lia. reflexivity.
Qed.
Print Assumptions C117_every_item_is_read.

Section Only.
  Variables (umod cap_max : N).
  Notation wf := (well_formed umod cap_max true).
  Notation parser := (parser umod cap_max).
  Definition reads_items (p : bytes -> out (cval * bytes)) := forall j v r, p j = OOk (v, r) -> exists i, wf i /\ j = item_bytes i ++ r /\ v = item_value i.
  Lemma count_items p : reads_items p -> forall g n j vs r, count_loop p g n j = OOk (vs, r) ->
    exists l, fold_right (fun i P => wf i /\ P) True l /\ N.of_nat (length l) = n /\ j = flat_map item_bytes l ++ r /\ vs = map item_value l.
  Proof.
    intro P. induction g as [|g IH]; intros n j vs r E; cbn [count_loop] in E; destruct (N.eqb_spec n 0) as [->|Z]; try discriminate E; try (injection E as <- <-; exists []; cbn; auto).
    destruct (p j) as [[v j1]| | |] eqn:Pj; cbn [out_bind] in E; try discriminate E. destruct (count_loop p g (n - 1) j1) as [[vs' r']| | |] eqn:C; cbn [out_bind] in E; try discriminate E. injection E as <- <-.
    apply P in Pj. destruct Pj as (i & W & -> & ->). apply IH in C. destruct C as (l & WL & LL & -> & ->). exists (i :: l). cbn [fold_right length flat_map map]. rewrite <- app_assoc. repeat split; try assumption. lia.
  Qed.
  Lemma map_items p : reads_items p -> forall g n acc j m r, map_loop p g n acc j = OOk (m, r) ->
    exists l, fold_right (fun kv P => match kv with (k, v) => (wf k /\ wf v /\ exists s, item_value k = CBytes s /\ utf8_valid s = true) /\ P end) True l /\ N.of_nat (length l) <= n /\
      j = flat_map (fun kv => match kv with (k, v) => item_bytes k ++ item_bytes v end) l ++ r /\
      m = fold_left (fun m kv => match kv with (k, v) => match item_value k with CBytes s => map_set s (item_value v) m | _ => m end end) l acc.
  Proof.
    intro P. induction g as [|g IH]; intros n acc j m r E; cbn [map_loop] in E; destruct (N.eqb_spec n 0) as [->|Z]; try discriminate E; try (injection E as <- <-; exists []; cbn; repeat split; lia).
    destruct (key_val p j) as [[[s v] j1]| | |] eqn:K; try discriminate E.
    - destruct (Nat.eqb (length j1) (length j)); [discriminate E|]. unfold key_val in K. destruct (p j) as [[kv j2]| | |] eqn:Pk; cbn [out_bind] in K; try discriminate K. destruct kv as [| |kb| | |]; try discriminate K.
      destruct (utf8_valid kb) eqn:U; [|discriminate K]. destruct (p j2) as [[v' j3]| | |] eqn:Pv; cbn [out_bind] in K; try discriminate K. injection K as <- <- <-.
      apply P in Pk. destruct Pk as (ki & Wk & -> & Ek). apply P in Pv. destruct Pv as (vi & Wv & -> & ->). apply IH in E. destruct E as (l & WL & LL & -> & ->).
      exists ((ki, vi) :: l). cbn [fold_right length flat_map fold_left]. rewrite <- Ek. rewrite <- !app_assoc. split; [split; [|exact WL]; split; [exact Wk|]; split; [exact Wv|]; exists kb; auto|]. split; [lia|]. split; reflexivity.
    - injection E as <- <-. exists []. cbn. repeat split. lia.
  Qed.
  Lemma parser_items f : reads_items (parser f).
  Proof.
    induction f as [|f IH]; intros j v r E; cbn [Cbor.parser] in E; [discriminate E|]. destruct j as [|b tl]; [discriminate E|].
    destruct (extract_cbor_value (b :: tl)) as [[u i1]|] eqn:X; [|discriminate E]. destruct (extract_head _ _ _ _ X) as (T8 & a & V & HB & ->).
    assert (U : to_usize umod (stored a) = arg_value a mod umod) by (unfold to_usize; rewrite uval_stored; reflexivity). rewrite U in E. rewrite HB. clear X HB.
    assert (C : cbor_type b = 0 \/ cbor_type b = 1 \/ (cbor_type b = 2 \/ cbor_type b = 3) \/ cbor_type b = 4 \/ cbor_type b = 5 \/ cbor_type b = 6 \/ cbor_type b = 7) by lia.
    destruct C as [T|[T|[T|[T|[T|T]]]]].
    - rewrite T in *. rewrite number_stored in E. injection E as <- <-. exists (INumber a). cbn [well_formed item_bytes item_value]. auto.
    - rewrite T in *. injection E as <- <-. exists (INegative a). cbn [well_formed item_bytes item_value]. auto.
    - assert (E' : (ok (d, i2) <- of_opt (take (arg_value a mod umod) i1); OOk (CBytes d, i2)) = OOk (v, r)) by (destruct T as [T|T]; rewrite T in E; exact E). clear E.
      destruct (take (arg_value a mod umod) i1) as [[d i2]|] eqn:K; cbn [of_opt out_bind] in E'; [|discriminate E']. injection E' as <- <-. apply take_some in K. destruct K as [-> L].
      exists (IString (cbor_type b =? 3) a d). cbn [well_formed item_bytes item_value]. split; [auto|]. split; [|reflexivity]. rewrite <- app_assoc. destruct T as [T|T]; rewrite T; reflexivity.
    - rewrite T in *. destruct (count_loop _ _ _ _) as [[vs i2]| | |] eqn:K in E; cbn [out_bind] in E; try discriminate E. injection E as <- <-. apply (count_items _ IH) in K. destruct K as (l & W & L & -> & ->).
      exists (IArray a l). cbn [well_formed item_bytes item_value]. rewrite <- app_assoc. auto.
    - rewrite T in *. destruct (N.ltb_spec cap_max (arg_value a mod umod)) as [Z|Z]; [discriminate E|]. destruct (map_loop _ _ _ _ _) as [[m i2]| | |] eqn:K in E; cbn [out_bind] in E; try discriminate E. injection E as <- <-. apply (map_items _ IH) in K. destruct K as (l & W & L & -> & ->).
      exists (IMap a l). cbn [well_formed item_bytes item_value]. rewrite <- app_assoc. split; [|auto]. split; [exact V|]. split; [exact Z|]. split; [|exact W].
      destruct (N.eq_dec (N.of_nat (length l)) (arg_value a mod umod)) as [Q|Q]; [left; exact Q|right; split; [reflexivity|lia]].
    - assert (E' : parser f i1 = OOk (v, r)) by (destruct T as [T|T]; rewrite T in E; exact E). clear E. apply IH in E'. destruct E' as (i & W & -> & ->).
      exists (ITagged (cbor_type b =? 7) a i). cbn [well_formed item_bytes item_value]. split; [auto|]. split; [|reflexivity]. rewrite <- app_assoc. destruct T as [T|T]; rewrite T; reflexivity.
  Qed.
End Only.
Theorem C117_only_items_are_read :
  forall (umod cap_max : N) (input : bytes) (v : cval), parse_cbor umod cap_max input = OOk v ->
  exists i, well_formed umod cap_max true i /\ input = item_bytes i /\ v = item_value i.
Proof.
  intros umod cap j v E. unfold parse_cbor in E. destruct (parser umod cap (S (length j)) j) as [[v' r]| | |] eqn:P; cbn [out_bind] in E; try discriminate E. destruct r; [|discriminate E]. injection E as <-.
  apply parser_items in P. rewrite app_nil_r in P || idtac. destruct P as (i & W & J & V). rewrite app_nil_r in J. exists i. auto.
Qed.
Print Assumptions C117_only_items_are_read.

Lemma number_free a : map_free_value (number_value a).
Proof. destruct a as [n|n|n|n|n]; cbn; auto; destruct n as [|[[p|p|]|[[p|p|]|[p|p|]|]|]]; cbn; auto. Qed.
Lemma free_value i : map_free_value (item_value i) <-> map_free i.
Proof.
  revert i. fix IH 1. intros [a|a|t a s|a l|a l|s a i]; cbn [item_value map_free map_free_value]; try tauto.
  - split; [auto|intros _; apply number_free].
  - induction l as [|x l L]; cbn [map fold_right]; [tauto|]. rewrite L, (IH x). tauto.
  - apply IH.
Qed.
Lemma free_strict umod cap i : map_free i -> well_formed umod cap true i -> well_formed umod cap false i.
Proof.
  revert i. fix IH 1. intros [a|a|t a s|a l|a l|s a i]; cbn [well_formed map_free]; try tauto.
  - intros F (V & L & W). split; [exact V|]. split; [exact L|]. clear L V. revert F W. induction l as [|x l L]; cbn [fold_right]; [tauto|].
    intros [F1 F2] [W1 W2]. split; [apply IH; assumption|apply L; assumption].
  - intros F [V W]. split; [exact V|]. apply IH; assumption.
Qed.
Theorem C117_without_maps_exactly_the_items :
  forall (umod cap_max : N) (input : bytes) (v : cval), map_free_value v ->
  (parse_cbor umod cap_max input = OOk v <->
   exists i, well_formed umod cap_max false i /\ input = item_bytes i /\ v = item_value i).
Proof.
  intros umod cap j v F. split.
  - intro P. destruct (C117_only_items_are_read _ _ _ _ P) as (i & W & J & V). exists i. split; [|auto]. apply free_strict; [|exact W]. apply free_value. rewrite <- V. exact F.
  - intros (i & W & -> & ->). apply C117_every_item_is_read. exact W.
Qed.
Print Assumptions C117_without_maps_exactly_the_items.

(** Non-trivial items: a self-describe tag, a number with a longer header than needed, a text
    string, a map with a key that occurs twice, and a null that is taken for a tag. *)
Definition ex_item : item :=
  ITagged false (Arg2 55799) (IArray (Arg1 3)
    [INumber (Arg4 7); IString true (Imm 2) (unhex "6f6b");
     IMap (Imm 2) [(IString false (Imm 1) (unhex "61"), INumber (Imm 9)); (IString true (Imm 1) (unhex "61"), ITagged true (Imm 22) (INegative (Arg1 4)))]]).
Example ex_item_well_formed : well_formed (2 ^ 64) (2 ^ 32) false ex_item.
Proof. cbn. repeat split; try lia; try (left; reflexivity); try (eexists; split; reflexivity). Qed.
Example ex_item_bytes : item_bytes ex_item = unhex "d9d9f798031a00000007626f6ba24161096161f63804".
Proof. vm_compute. reflexivity. Qed.
Example ex_item_value : item_value ex_item = CArray [CUnsigned (U32 7); CBytes (unhex "6f6b"); CMap [(unhex "61", CSigned (I8 (BinInt.Z.neg 5)))]].
Proof. vm_compute. reflexivity. Qed.
Example ex_item_read : parse_cbor (2 ^ 64) (2 ^ 32) (item_bytes ex_item) = OOk (item_value ex_item).
Proof. apply C117_every_item_is_read, ex_item_well_formed. Qed.
(** and a short map is only an item with [short_maps] *)
Example ex_short_map : parse_cbor (2 ^ 64) (2 ^ 32) (unhex "a2416109") = OOk (CMap [(unhex "61", CUnsigned (U8 9))]).
Proof. vm_compute. reflexivity. Qed.
Example ex_map_free : map_free_value (CArray [CUnsigned (U8 9); CTag TLeaf]).
Proof. cbn. auto. Qed.
