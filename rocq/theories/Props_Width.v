(** C156: the same response read by a 64-bit and by a 32-bit build of the verifier. *)
From Coq Require Import List Arith NArith Lia Bool.
From Verif Require Import Bytes Text Utf8 HashTree HashTreeSpec HashTreeProofs Cbor CborProofs Leb128 HttpTypes HttpHash Cel
  Wildcard V2 CertVerify Base64 Header HeaderSpec HeaderProofs Verify VerifySpec Toy Props_Base64 Props_Cbor Props_Cel Props_Cert Props_Counter Props_ReaderMessages Props_Verify Width.
Import ListNotations.
Local Open Scope N_scope.

(** Every byte string of a value has at most [n] bytes. *)
Inductive within (n : nat) : cval -> Prop :=
| WiB s : (length s <= n)%nat -> within n (CBytes s)
| WiA l : Forall (within n) l -> within n (CArray l)
| WiM m : Forall (fun e => within n (snd e)) m -> within n (CMap m)
| WiU u : within n (CUnsigned u)
| WiS s : within n (CSigned s)
| WiT t : within n (CTag t).

Section Sizes.
  Variables (umod cap : N) (m : nat).
  Definition bounded_reader (p : bytes -> out (cval * bytes)) : Prop :=
    forall j v r, (length j <= m)%nat -> p j = OOk (v, r) -> within m v /\ (length r <= length j)%nat.
  Lemma take_within k j d r : take k j = Some (d, r) -> (length d <= length j)%nat /\ (length r <= length j)%nat.
  Proof.
    unfold take. destruct (k <=? N.of_nat (length j)); [|discriminate]. intro X. injection X as <- <-.
    rewrite firstn_length, skipn_length. lia.
  Qed.
  Lemma count_within p : bounded_reader p -> forall g k j l r, (length j <= m)%nat -> count_loop p g k j = OOk (l, r) ->
    Forall (within m) l /\ (length r <= length j)%nat.
  Proof.
    intro B. induction g as [|g IH]; intros k j l r L E; cbn [count_loop] in E; destruct (k =? 0); try discriminate;
      try (injection E as <- <-; split; [constructor|lia]).
    destruct (p j) as [[v j1]| | |] eqn:P1; try discriminate. cbn [out_bind] in E. destruct (B _ _ _ L P1) as [W1 L1].
    destruct (count_loop p g (k - 1) j1) as [[vs j2]| | |] eqn:P2; try discriminate. cbn [out_bind] in E. injection E as <- <-.
    assert (Lj : (length j1 <= m)%nat) by lia. destruct (IH _ _ _ _ Lj P2) as [W2 L2]. split; [constructor; assumption|lia].
  Qed.
  Lemma map_within p : bounded_reader p -> forall g k acc j l r, (length j <= m)%nat -> Forall (fun e : bytes * cval => within m (snd e)) acc ->
    map_loop p g k acc j = OOk (l, r) -> Forall (fun e : bytes * cval => within m (snd e)) l /\ (length r <= length j)%nat.
  Proof.
    intro B. induction g as [|g IH]; intros k acc j l r L A E; cbn [map_loop] in E; destruct (k =? 0); try discriminate;
      try (injection E as <- <-; split; [exact A|lia]).
    destruct (key_val p j) as [[[kk v] j2]| | |] eqn:KV; try discriminate.
    - destruct (Nat.eqb (length j2) (length j)); [discriminate|]. unfold key_val in KV.
      destruct (p j) as [[x j1]| | |] eqn:P1; try discriminate. cbn [out_bind] in KV. destruct x as [| |s| | |]; try discriminate.
      destruct (utf8_valid s); [|discriminate]. destruct (p j1) as [[v' j2']| | |] eqn:P2; try discriminate. cbn [out_bind] in KV. injection KV as <- <- <-.
      destruct (B _ _ _ L P1) as [_ L1]. assert (Lj : (length j1 <= m)%nat) by lia. destruct (B _ _ _ Lj P2) as [W2 L2].
      assert (Lj2 : (length j2' <= m)%nat) by lia.
      assert (A' : Forall (fun e : bytes * cval => within m (snd e)) (map_set s v' acc)) by (apply map_set_ok; [exact W2|exact A]).
      destruct (IH _ _ _ _ _ Lj2 A' E) as [W3 L3]. split; [exact W3|lia].
    - injection E as <- <-. split; [exact A|lia].
  Qed.
  Lemma extract_shorter i u r : extract_cbor_value i = Some (u, r) -> (length r <= length i)%nat.
  Proof. intro X. destruct (extract_consumes _ _ _ X) as (c & -> & _). rewrite app_length. lia. Qed.
  Lemma parser_within f : bounded_reader (parser umod cap f).
  Proof.
    induction f as [|f IH]; intros j v r L E; [discriminate|]. cbn [parser] in E. destruct j as [|b j]; [discriminate|].
    destruct (extract_cbor_value (b :: j)) as [[u j1]|] eqn:X; [|discriminate]. apply extract_shorter in X.
    assert (Lj : (length j1 <= m)%nat) by lia.
    assert (HB : (ok (d, i2) <- of_opt (take (to_usize umod u) j1); OOk (CBytes d, i2)) = OOk (v, r) -> within m v /\ (length r <= length (b :: j))%nat).
    { intro Y. destruct (take (to_usize umod u) j1) as [[d i2]|] eqn:T; [|discriminate]. cbn [of_opt out_bind] in Y. injection Y as <- <-.
      apply take_within in T. split; [constructor|]; lia. }
    assert (HA : (ok (l, i2) <- count_loop (parser umod cap f) (S (length j1)) (to_usize umod u) j1; OOk (CArray l, i2)) = OOk (v, r) -> within m v /\ (length r <= length (b :: j))%nat).
    { intro Y. destruct (count_loop (parser umod cap f) (S (length j1)) (to_usize umod u) j1) as [[l i2]| | |] eqn:C; try discriminate. cbn [out_bind] in Y. injection Y as <- <-.
      destruct (count_within _ IH _ _ _ _ _ Lj C). split; [constructor; assumption|lia]. }
    assert (HM : (if cap <? to_usize umod u then OPanic else ok (m0, i2) <- map_loop (parser umod cap f) (S (length j1)) (to_usize umod u) [] j1; OOk (CMap m0, i2)) = OOk (v, r) -> within m v /\ (length r <= length (b :: j))%nat).
    { intro Y. destruct (cap <? to_usize umod u); [discriminate|].
      destruct (map_loop (parser umod cap f) (S (length j1)) (to_usize umod u) [] j1) as [[l i2]| | |] eqn:C; try discriminate. cbn [out_bind] in Y. injection Y as <- <-.
      destruct (map_within _ IH _ _ _ _ _ _ Lj (Forall_nil _) C). split; [constructor; assumption|lia]. }
    assert (HP : parser umod cap f j1 = OOk (v, r) -> within m v /\ (length r <= length (b :: j))%nat).
    { intro Y. destruct (IH _ _ _ Lj Y). split; [assumption|lia]. }
    assert (H0 : forall t, OOk (t, j1) = OOk (v, r) -> within m t -> within m v /\ (length r <= length (b :: j))%nat).
    { intros t Y W. injection Y as <- <-. split; [exact W|lia]. }
    destruct (cbor_type b) as [|p].
    - eapply H0; [exact E|]. destruct u as [q|q|q|q]; try constructor. destruct q as [|q]; try constructor. do 3 (try (destruct q as [q|q|])); constructor.
    - do 3 (try (destruct p as [p|p|])); auto; (eapply H0; [exact E|constructor]).
  Qed.
End Sizes.
Lemma parsed_within umod cap i v : parse_cbor umod cap i = OOk v -> within (length i) v.
Proof.
  unfold parse_cbor. destruct (parser umod cap (S (length i)) i) as [[x rest]| | |] eqn:E; try discriminate. cbn [out_bind].
  destruct rest; [|discriminate]. intro X. injection X as <-. exact (proj1 (parser_within umod cap (length i) _ _ _ _ (le_n _) E)).
Qed.

Fixpoint leaves_within (n : nat) (t : htree) : Prop :=
  match t with
  | HLeaf d => (length d <= n)%nat
  | HLabeled _ c => leaves_within n c
  | HFork l r => leaves_within n l /\ leaves_within n r
  | _ => True
  end.
Lemma bytes_within n s : within n (CBytes s) -> (length s <= n)%nat.
Proof. intro W. inversion W. assumption. Qed.
Lemma array_within n l : within n (CArray l) -> Forall (within n) l.
Proof. intro W. inversion W. assumption. Qed.
Lemma map_within_get n m k v : within n (CMap m) -> map_get k m = Some v -> within n v.
Proof. intros W G. inversion W as [| |? F| | |]; subst. apply map_get_in in G. rewrite Forall_forall in F. exact (F _ G). Qed.
Lemma to_tree_within n : forall t v, within n v -> to_tree v = Some t -> leaves_within n t.
Proof.
  induction t as [|l IHl r IHr|k c IHc|d|d]; intros v W E; cbn [leaves_within]; auto;
    destruct v as [| |s|l0| |]; try discriminate E; apply array_within in W;
    (destruct l0 as [|[| | | | |[]] l0]; try discriminate E); cbn in E;
    repeat match type of E with match ?x with _ => _ end = _ => let X := fresh "X" in destruct x eqn:X; try discriminate E end;
    injection E; intros; subst;
    repeat match goal with F : Forall _ (_ :: _) |- _ => let A := fresh "A" in let F' := fresh "F" in inversion F as [|? ? A F']; clear F; subst end;
    try (apply bytes_within; assumption); eauto.
Qed.
Definition certificate_within (n : nat) (c : certificate) : Prop :=
  leaves_within n (c_tree c) /\ (forall d, c_deleg c = Some d -> (length (d_cert d) <= n)%nat).
Lemma cert_within umod cap i c : cert_from_cbor umod cap i = OOk c -> certificate_within (length i) c.
Proof.
  unfold cert_from_cbor. destruct (parse_cbor umod cap i) as [v| | |] eqn:P; try discriminate. cbn [out_bind]. apply parsed_within in P.
  destruct (to_certificate v) as [x|] eqn:T; [|discriminate]. intro X. injection X as ->. destruct v as [| | | |m|]; try discriminate T. unfold to_certificate in T.
  destruct (map_get (bs "tree") m) as [tv|] eqn:G1; [|discriminate]. destruct (to_tree tv) as [t|] eqn:G2; [|discriminate].
  assert (LT := to_tree_within _ _ _ (map_within_get _ _ _ _ P G1) G2).
  destruct (map_get (bs "signature") m) as [[| |s| | |]|]; try discriminate.
  destruct (map_get (bs "delegation") m) as [dv|] eqn:G3.
  2: { injection T as <-. split; [exact LT|discriminate]. }
  assert (WD := map_within_get _ _ _ _ P G3).
  destruct dv as [| | | |dm|]; try (injection T as <-; split; [exact LT|discriminate]).
  destruct (map_get (bs "subnet_id") dm) as [[| |a| | |]|]; try discriminate.
  destruct (map_get (bs "certificate") dm) as [[| |b| | |]|] eqn:G4; try discriminate.
  injection T as <-. split; [exact LT|]. intros d D. injection D as <-. exact (bytes_within _ _ (map_within_get _ _ _ _ WD G4)).
Qed.
Lemma child_within n k t c : child_at k t c -> leaves_within n t -> leaves_within n c.
Proof. induction 1; cbn [leaves_within]; tauto. Qed.
Lemma leaf_within n p t v : lookup_path p t = Found v -> leaves_within n t -> (length v <= n)%nat.
Proof.
  intros L W. apply lookup_path_found_at in L. remember (HLeaf v) as s eqn:E. revert W. induction L as [t|k p t c s C A IH]; intro W.
  - subst. exact W.
  - apply IH; [exact E|]. exact (child_within _ _ _ _ C W).
Qed.
Lemma base64_shorter s d : b64_dec s = Some d -> (length d <= length s)%nat.
Proof.
  intro E. destruct (dec_sound _ _ _ (le_n _) E) as (cs & ds & k & rest & -> & _ & _ & _ & L & _).
  rewrite app_length, L. apply Nat.le_trans with (length cs); [|apply Nat.le_add_r].
  apply Nat.div_le_upper_bound; [discriminate|]. apply Nat.mul_le_mono_r. lia.
Qed.
Lemma pieces_shorter c s : Forall (fun p : bytes => (length p <= length s)%nat) (split_on c s).
Proof.
  induction s as [|b s IH]; cbn [split_on]; [repeat constructor|].
  assert (G : Forall (fun p : bytes => (length p <= length (b :: s))%nat) (split_on c s)) by (eapply Forall_impl; [|exact IH]; intros p L; cbn [length] in *; lia).
  destruct (byte_eqb b c); [constructor; [cbn; lia|exact G]|]. destruct (split_on c s) as [|p ps]; [constructor; [cbn; lia|constructor]|].
  inversion IH as [|? ? A _]; subst. inversion G as [|? ? _ B]; subst. constructor; [cbn [length] in *; lia|exact B].
Qed.
Lemma field_shorter f n v : header_field f = Some (n, v) -> (length v <= length f)%nat.
Proof.
  intro E. apply header_field_says in E. destruct E as (a & b & l & r & _ & _ & -> & _). repeat rewrite app_length. lia.
Qed.

Section Narrow.
  Variables (narrow cap : N).
  Hypothesis CM : cap < narrow.
  Notation wide := (2 ^ 64).
  Lemma tree_same i t : N.of_nat (length i) < narrow -> tree_from_cbor wide cap i = OOk t -> tree_from_cbor narrow cap i = OOk t.
  Proof.
    unfold tree_from_cbor. intros L E. destruct (parse_cbor wide cap i) as [v| | |] eqn:P; try discriminate. rewrite (parse_same _ _ CM _ _ L P). exact E.
  Qed.
  Lemma cert_same i t : N.of_nat (length i) < narrow -> cert_from_cbor wide cap i = OOk t -> cert_from_cbor narrow cap i = OOk t.
  Proof.
    unfold cert_from_cbor. intros L E. destruct (parse_cbor wide cap i) as [v| | |] eqn:P; try discriminate. rewrite (parse_same _ _ CM _ _ L P). exact E.
  Qed.
  Lemma principals_same i t : N.of_nat (length i) < narrow -> principals_from_cbor wide cap i = OOk t -> principals_from_cbor narrow cap i = OOk t.
  Proof.
    unfold principals_from_cbor. intros L E. destruct (parse_cbor wide cap i) as [v| | |] eqn:P; try discriminate. rewrite (parse_same _ _ CM _ _ L P). exact E.
  Qed.
  Lemma strings_same i t : N.of_nat (length i) < narrow -> strings_from_cbor wide cap i = OOk t -> strings_from_cbor narrow cap i = OOk t.
  Proof.
    unfold strings_from_cbor. intros L E. destruct (parse_cbor wide cap i) as [v| | |] eqn:P; try discriminate. rewrite (parse_same _ _ CM _ _ L P). exact E.
  Qed.
  Definition cert_small (c : certificate) : Prop := exists n, N.of_nat n < narrow /\ certificate_within n c.
  Lemma fill_same {A} slot (d d' : bytes -> out A) v s : (forall x, d v = OOk x -> d' v = OOk x) -> fill slot d v = OOk s -> fill slot d' v = OOk s.
  Proof.
    intros D E. unfold fill in *. destruct slot; [exact E|]. destruct (d v) as [x| | |] eqn:Q; try discriminate. rewrite (D x eq_refl). exact E.
  Qed.
  Definition cert_slot (s : slots) : Prop := forall c, s_cert s = Some c -> cert_small c.
  Lemma add_field_same s f s' : N.of_nat (length f) < narrow -> cert_slot s -> add_field wide cap s f = OOk s' ->
    add_field narrow cap s f = OOk s' /\ cert_slot s'.
  Proof.
    intros L CS E. unfold add_field in *. destruct (header_field f) as [[n v]|] eqn:HF; [|injection E as <-; split; [reflexivity|exact CS]].
    apply field_shorter in HF.
    assert (B : forall d, b64_dec v = Some d -> N.of_nat (length d) < narrow) by (intros d D; apply base64_shorter in D; lia).
    destruct (bytes_eqb n (bs "certificate")).
    { destruct (fill (s_cert s) (decode_certificate wide cap) v) as [o| | |] eqn:F; try discriminate. injection E as <-. split.
      - rewrite (fill_same (s_cert s) (decode_certificate wide cap) (decode_certificate narrow cap) v o); [reflexivity| |exact F]. intros x D. unfold decode_certificate in *.
        destruct (b64_dec v) as [d|] eqn:Q; [|discriminate]. cbn [of_opt out_bind] in *. apply cert_same; [exact (B d eq_refl)|exact D].
      - intros c Q. cbn [s_cert] in Q. subst o. unfold fill in F. destruct (s_cert s) as [x|] eqn:SC; [injection F as <-; exact (CS _ SC)|].
        unfold decode_certificate in F. destruct (b64_dec v) as [d|] eqn:Q; [|discriminate]. cbn [of_opt out_bind] in F.
        destruct (cert_from_cbor wide cap d) as [y| | |] eqn:Y; try discriminate. injection F as <-. exists (length d). split; [exact (B d eq_refl)|exact (cert_within _ _ _ _ Y)]. }
    destruct (bytes_eqb n (bs "tree")).
    { destruct (fill (s_tree s) (decode_tree wide cap) v) as [o| | |] eqn:F; try discriminate. injection E as <-. split; [|exact CS].
      rewrite (fill_same (s_tree s) (decode_tree wide cap) (decode_tree narrow cap) v o); [reflexivity| |exact F]. intros x D. unfold decode_tree in *.
      destruct (b64_dec v) as [d|] eqn:Q; [|discriminate]. cbn [of_opt out_bind] in *. apply tree_same; [exact (B d eq_refl)|exact D]. }
    destruct (bytes_eqb n (bs "version")).
    { destruct (fill (s_version s) decode_version v) as [o| | |]; try discriminate. injection E as <-. split; [reflexivity|exact CS]. }
    destruct (bytes_eqb n (bs "expr_path")).
    { destruct (fill (s_path s) (decode_expr_path wide cap) v) as [o| | |] eqn:F; try discriminate. injection E as <-. split; [|exact CS].
      rewrite (fill_same (s_path s) (decode_expr_path wide cap) (decode_expr_path narrow cap) v o); [reflexivity| |exact F]. intros x D. unfold decode_expr_path in *.
      destruct (b64_dec v) as [d|] eqn:Q; [|discriminate]. cbn [of_opt out_bind] in *. apply strings_same; [exact (B d eq_refl)|exact D]. }
    injection E as <-. split; [reflexivity|exact CS].
  Qed.
  Lemma header_same hv hd : N.of_nat (length hv) < narrow -> header_from wide cap hv = OOk hd ->
    header_from narrow cap hv = OOk hd /\ cert_small (h_cert hd).
  Proof.
    unfold header_from. intros L E.
    assert (G : forall fs s s', Forall (fun p : bytes => (length p <= length hv)%nat) fs -> cert_slot s -> add_fields wide cap s fs = OOk s' -> add_fields narrow cap s fs = OOk s' /\ cert_slot s').
    { induction fs as [|f fs IH]; intros s s' FF CS Q; cbn [add_fields] in *; [injection Q as <-; split; [reflexivity|exact CS]|].
      inversion FF as [|? ? Lf FF']; subst. destruct (add_field wide cap s f) as [s1| | |] eqn:F; try discriminate. cbn [out_bind] in Q.
      assert (Lf' : N.of_nat (length f) < narrow) by lia. destruct (add_field_same _ _ _ Lf' CS F) as [F1 F2]. rewrite F1. cbn [out_bind]. exact (IH _ _ FF' F2 Q). }
    destruct (add_fields wide cap (mk_slots None None None None) (split_on "," hv)) as [s| | |] eqn:F; try discriminate. cbn [out_bind] in E.
    apply (G _ _ _ (pieces_shorter _ _)) in F; [|intros c Q; discriminate Q]. destruct F as [F CS]. rewrite F. cbn [out_bind]. split; [exact E|].
    destruct (s_cert s) as [c|] eqn:SC; [|discriminate]. destruct (s_tree s) as [t|]; [|discriminate]. injection E as <-. exact (CS _ SC).
  Qed.

  Variables (checked : bool) (H : bytes -> bytes) (ple : bytes -> bytes -> bool) (vs : bytes -> bytes -> bytes -> bool).
  Lemma delegation_same d cid key k : N.of_nat (length (d_cert d)) < narrow ->
    verify_delegation wide cap H ple vs d cid key = OOk k -> verify_delegation narrow cap H ple vs d cid key = OOk k.
  Proof.
    unfold verify_delegation. intros L E. destruct (cert_from_cbor wide cap (d_cert d)) as [c| | |] eqn:C; try discriminate. cbn [out_bind] in E.
    rewrite (cert_same _ _ L C). cbn [out_bind]. apply cert_within in C. destruct C as [C _].
    destruct (c_deleg c); [exact E|]. destruct (verify_certificate_signature H vs c key) as [u| | |]; try discriminate. cbn [out_bind] in *.
    destruct (lookup_path [bs "subnet"; d_subnet d; bs "canister_ranges"] (c_tree c)) as [| |r|] eqn:LR; try discriminate.
    destruct (Nat.ltb 29 (length cid)); [exact E|]. destruct (principals_from_cbor wide cap r) as [rs| | |] eqn:PR; try discriminate.
    rewrite (principals_same r rs); [exact E| |exact PR]. generalize (leaf_within _ _ _ _ LR C). lia.
  Qed.
  Lemma certificate_same c cid key now off : cert_small c ->
    verify_certificate wide cap checked H ple vs c cid key now off = OOk tt -> verify_certificate narrow cap checked H ple vs c cid key now off = OOk tt.
  Proof.
    intros (n & L & _ & D). unfold verify_certificate. destruct (verify_certificate_time checked c now off) as [u| | |]; try discriminate. cbn [out_bind].
    destruct (c_deleg c) as [d|]; [|exact (fun E => E)]. specialize (D d eq_refl).
    destruct (verify_delegation wide cap H ple vs d cid key) as [k| | |] eqn:V; try discriminate. rewrite (delegation_same d cid key k); [exact (fun E => E)|lia|exact V].
  Qed.
End Narrow.

(** What the verifier of a 64-bit build accepts, that of a build with fewer bits (a browser's WebAssembly
    has 32) accepts with the same result, as long as the IC-Certificate header fits its memory.
    [cap_max], the largest map either build has the memory for, is smaller than that too. *)
Theorem C156_narrow_build_accepts_what_wide_build_does :
  forall narrow cap_max checked (H : bytes -> bytes) ple vs uri_path uri_query gunzip inflate rq rs canister_id now offset key min_version i,
  cap_max < narrow ->
  (forall hv, last_header (bs "IC-Certificate") (rs_headers rs) hv -> N.of_nat (length hv) < narrow) ->
  verify (2 ^ 64) cap_max checked H ple vs uri_path uri_query gunzip inflate rq rs canister_id now offset key min_version = OOk i ->
  verify narrow cap_max checked H ple vs uri_path uri_query gunzip inflate rq rs canister_id now offset key min_version = OOk i.
Proof.
  intros nw cap ck H ple vs up uq gz df rq rs cid now off key mv i CM LH E. unfold verify in *.
  assert (G := header_get_spec certificate_header_name (rs_headers rs)).
  destruct (header_get (lower certificate_header_name) (rs_headers rs)) as [hv|]; [|discriminate].
  destruct (header_from (2 ^ 64) cap hv) as [hd| | |] eqn:HF; try discriminate. cbn [out_bind] in E.
  destruct (header_same nw cap CM hv hd (LH hv G) HF) as [HF' CS]. rewrite HF'. cbn [out_bind].
  assert (CV : forall u, verify_certificate (2 ^ 64) cap ck H ple vs (h_cert hd) cid key now off = OOk u -> verify_certificate nw cap ck H ple vs (h_cert hd) cid key now off = OOk u).
  { intros [] V. exact (certificate_same nw cap CM ck H ple vs _ _ _ _ _ CS V). }
  destruct (h_version hd <? mv); [exact E|]. destruct (h_version hd =? 1).
  - unfold v1_verification in *. destruct (verify_certificate (2 ^ 64) cap ck H ple vs (h_cert hd) cid key now off) as [u| | |] eqn:V; try discriminate.
    rewrite (CV u eq_refl). exact E.
  - destruct (h_version hd =? 2); [|exact E]. destruct (header_get (lower cert_expr_header_name) (rs_headers rs)) as [b|]; [|exact E].
    destruct (h_expr_path hd); [|exact E]. destruct (cel_of_text b) as [c|]; [|exact E]. cbn [of_opt out_bind] in *. unfold v2_verification in *.
    destruct (get_path up rq) as [pa| | |]; try exact E. cbn [out_bind] in *.
    destruct (verify_certificate (2 ^ 64) cap ck H ple vs (h_cert hd) cid key now off) as [u| | |] eqn:V; try discriminate.
    rewrite (CV u eq_refl). exact E.
Qed.
Print Assumptions C156_narrow_build_accepts_what_wide_build_does.

(** When both accept, they give the same result. *)
Theorem C156_never_two_results :
  forall narrow cap_max checked (H : bytes -> bytes) ple vs uri_path uri_query gunzip inflate rq rs canister_id now offset key min_version i j,
  cap_max < narrow ->
  (forall hv, last_header (bs "IC-Certificate") (rs_headers rs) hv -> N.of_nat (length hv) < narrow) ->
  verify (2 ^ 64) cap_max checked H ple vs uri_path uri_query gunzip inflate rq rs canister_id now offset key min_version = OOk i ->
  verify narrow cap_max checked H ple vs uri_path uri_query gunzip inflate rq rs canister_id now offset key min_version = OOk j -> i = j.
Proof.
  intros nw cap ck H ple vs up uq gz df rq rs cid now off key mv i j CM LH E E'.
  rewrite (C156_narrow_build_accepts_what_wide_build_does nw cap ck H ple vs up uq gz df rq rs cid now off key mv i CM LH E) in E'. injection E' as ->. reflexivity.
Qed.
Print Assumptions C156_never_two_results.

(** The converse is false: a length above 32 bits is cut off by [as usize].  The
    signature of this certificate says it is 2^32 + 3 bytes long. *)
Definition long_certificate (data : bytes) : bytes :=
  enc_head 5 2 ++ enc_text (bs "tree") ++ enc_tree (ex_state data) ++ enc_text (bs "signature") ++ [x5b; x00; x00; x00; x01; x00; x00; x00; x03] ++ bs "sig".
Definition skip_tree : htree := HLabeled (bs "http_expr") (HLabeled (bs "<*>") (HLabeled (toy (print_cel CelSkip)) (HLeaf []))).
Definition skip_verify (umod : N) (certificate : bytes) : out info :=
  verify umod (2 ^ 26) true toy ex_ple (toy_signer (ex_state (digest toy skip_tree))) ex_uri ex_query ex_none ex_none
    ex_rq (mk_response 200 [(bs "IC-CertificateExpression", print_cel CelSkip);
       (bs "IC-Certificate", v2_certificate_header certificate skip_tree [bs "http_expr"; bs "<*>"])] []) (bs "e") 1010 20 (ex_key x01) 0.
Theorem C156_wide_build_accepts_what_narrow_build_does_refuted :
  let long := long_certificate (digest toy skip_tree) in
  unforgeable toy (toy_signer (ex_state (digest toy skip_tree))) (ex_key x01) (fun x => x = ex_state (digest toy skip_tree)) (fun _ _ => False) /\
  skip_verify (2 ^ 32) long = OOk (mk_info None 2) /\
  skip_verify (2 ^ 64) long = OErr /\
  skip_verify (2 ^ 64) (ex_certificate (digest toy skip_tree)) = OOk (mk_info None 2).
Proof. cbv zeta. split; [apply toy_signer_unforgeable|]. split; [vm_compute; reflexivity|]. split; vm_compute; reflexivity. Qed.
Print Assumptions C156_wide_build_accepts_what_narrow_build_does_refuted.
(** In the case of a well-formed certificate the hypotheses of the first theorem are met, and it says what the other build answers. *)
Example C156_hypotheses : skip_verify (2 ^ 32) (ex_certificate (digest toy skip_tree)) = OOk (mk_info None 2).
Proof.
  unfold skip_verify. apply C156_narrow_build_accepts_what_wide_build_does.
  - reflexivity.
  - intros hv L. apply last_header_fun in L. change (lower (bs "IC-Certificate")) with (lower certificate_header_name) in L. vm_compute in L. injection L as <-. vm_compute. reflexivity.
  - vm_compute. reflexivity.
Qed.
