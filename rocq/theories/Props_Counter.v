(** C92, C93: the certified counter example, from inc_count to the page. *)
From Coq Require Import List Arith NArith ZArith Lia Bool.
From Verif Require Import Bytes Toy HashTree HashTreeSpec HashTreeProofs RbTree Cbor CborSpec JsBindings Props_Js Props_Cbor Counter.
Import ListNotations.

Definition one_node (H : bytes -> bytes) (c : N) : rb bytes :=
  T Black E (bs "count") (H (be32 c)) E (labeled_hash H (bs "count") (leaf_hash H (H (be32 c)))).

Lemma inc_once H ck s s' : inc_count H ck s = Some s' ->
  (co_tree s = E \/ exists c, co_tree s = one_node H c) ->
  co_count s' = ((co_count s + 1) mod 4294967296)%N /\ co_tree s' = one_node H (co_count s') /\
  co_data s' = labeled_hash H (bs "count") (leaf_hash H (H (be32 (co_count s')))).
Proof.
  unfold inc_count. destruct (ck && _); [discriminate|]. intros X [Y|[c Y]]; rewrite Y in X.
  - cbn [insert insert_go new_node] in X. unfold insert in X. cbn [insert_go new_node set_color] in X.
    injection X as <-. cbn [co_count co_tree co_data]. repeat split; reflexivity.
  - unfold insert, one_node in X. cbn [insert_go] in X. change (bcmp (bs "count") (bs "count")) with Eq in X. cbv iota in X.
    cbn [upd balance is_red left_of right_of andb negb set_color] in X. injection X as <-. cbn [co_count co_tree co_data]. repeat split; reflexivity.
Qed.

Lemma inc_many H ck n : forall s s', inc_times H ck n s = Some s' ->
  (co_tree s = E \/ exists c, co_tree s = one_node H c) -> (co_count s < 4294967296)%N ->
  co_count s' = ((co_count s + N.of_nat n) mod 4294967296)%N /\ (co_count s' < 4294967296)%N /\
  (n <> 0 -> co_tree s' = one_node H (co_count s') /\
     co_data s' = labeled_hash H (bs "count") (leaf_hash H (H (be32 (co_count s'))))).
Proof.
  induction n as [|n IH]; intros s s' R I B; cbn [inc_times] in R.
  - injection R as <-. rewrite N.add_0_r, N.mod_small by exact B. split; [reflexivity|]. split; [exact B|]. intro Z; destruct (Z eq_refl).
  - destruct (inc_count H ck s) as [s1|] eqn:E1; [|discriminate].
    destruct (inc_once H ck s s1 E1 I) as (C1 & T1 & D1).
    assert (B1 : (co_count s1 < 4294967296)%N) by (rewrite C1; apply N.mod_lt; discriminate).
    destruct (IH s1 s' R (or_intror (ex_intro _ _ T1)) B1) as (C2 & B2 & Q).
    split; [|split; [exact B2|]].
    + rewrite C2, C1, N.add_mod_idemp_l by discriminate. f_equal. lia.
    + intros _. destruct n as [|n]; [|apply Q; discriminate]. cbn [inc_times] in R. injection R as <-. auto.
Qed.
Lemma inc_new H ck n s : inc_times H ck n counter_new = Some s ->
  co_count s = (N.of_nat n mod 4294967296)%N /\ (co_count s < 4294967296)%N /\ (n = 0 -> co_tree s = E /\ co_data s = []) /\
  (n <> 0 -> co_tree s = one_node H (co_count s) /\
     co_data s = labeled_hash H (bs "count") (leaf_hash H (H (be32 (co_count s))))).
Proof.
  intro R. destruct (inc_many H ck n counter_new s R (or_introl eq_refl) eq_refl) as (C & B & Q).
  repeat split; auto; try apply Q; auto; subst n; cbn in R; injection R as <-; reflexivity.
Qed.
Lemma inc_live H ck n : forall s, (co_tree s = E \/ exists c, co_tree s = one_node H c) ->
  (ck = true -> co_count s + N.of_nat n < 4294967296)%N -> exists s', inc_times H ck n s = Some s'.
Proof.
  induction n as [|n IH]; intros s I B; cbn [inc_times]; [eauto|].
  assert (exists s1, inc_count H ck s = Some s1) as [s1 E1].
  { unfold inc_count. destruct ck; cbn [andb].
    - destruct (N.leb_spec 4294967296 (co_count s + 1)); [specialize (B eq_refl); lia|].
      destruct I as [->|[c ->]]; eexists; reflexivity.
    - destruct I as [->|[c ->]]; eexists; reflexivity. }
  rewrite E1. destruct (inc_once H ck s s1 E1 I) as (C1 & T1 & D1). apply IH; [right; eauto|].
  intro K. specialize (B K). rewrite C1, N.mod_small; lia.
Qed.

Lemma witness_one H c : witness H bytes (vec_hash H) vec_tree (bs "count") (one_node H c) = Some (HLabeled (bs "count") (HLeaf (H (be32 c)))).
Proof. reflexivity. Qed.

(** C92: after any number of increments (at least one), the response of get_count makes the page show that number. *)
Theorem C92_honest_count_is_shown :
  forall (H : bytes -> bytes) (checked : bool) (n : nat) (s : counter) create decode leb js_lookup
         (canister_id root_key certificate e : bytes) (lookup : list bytes -> option bytes) (t : N) (now_ms : Z),
  (forall x, length (H x) = 32) -> inc_times H checked n counter_new = Some s -> n <> 0 ->
  (forall w, hashes32 w -> Forall (short (2 ^ 32)) (strings_of w) -> decode (self_describe ++ enc_tree w) = Some w) ->
  (forall w v, lookup_path [bs "count"] w = Found v -> js_lookup [bs "count"] w = Some v) ->
  create certificate canister_id root_key = Some lookup ->
  lookup [bs "time"] = Some e -> leb e = Some t -> (now_ms - 50000 <= Z.of_N (t / 1000000) <= now_ms + 50000)%Z ->
  lookup [bs "canister"; canister_id; bs "certified_data"] = Some (co_data s) ->
  exists r, get_count H (Some certificate) s = Some r /\
    on_click H create decode leb js_lookup canister_id root_key now_ms r = Some (N.of_nat n mod 2 ^ 32)%N.
Proof.
  intros H ck n s create decode leb jl cid key cert e lk t now H32 R N D L C T1 T2 T3 CD.
  destruct (inc_new H ck n s R) as (C1 & _ & _ & Q). destruct (Q N) as (T & DT).
  set (w := HLabeled (bs "count") (HLeaf (H (be32 (co_count s))))).
  assert (G : get_count H (Some cert) s = Some (mk_certified_counter (co_count s) cert (self_describe ++ enc_tree w))).
  { unfold get_count, get_count_witness. rewrite T, witness_one. reflexivity. }
  exists (mk_certified_counter (co_count s) cert (self_describe ++ enc_tree w)). split; [exact G|].
  unfold on_click. cbn [cc_count cc_certificate cc_witness].
  assert (V : verify_certification htree create decode (digest H) leb cid cert (self_describe ++ enc_tree w) key 50000 now = Some w).
  { apply C81_accepted_iff. exists lk, e, t. rewrite CD, DT. repeat split; auto; try apply T3. apply D; [exact I|]. repeat constructor; unfold short; rewrite ?H32; reflexivity. }
  rewrite V, (L w (H (be32 (co_count s)))) by reflexivity.
  unfold hash_uint32. rewrite bytes_eqb_refl, C1. reflexivity.
Qed.
Print Assumptions C92_honest_count_is_shown.

(** The canister counts: increments trap only at the overflow check of a checked build. *)
Theorem C92_increments_count :
  forall (H : bytes -> bytes) (checked : bool) (n : nat),
  (checked = true -> (N.of_nat n < 2 ^ 32)%N) ->
  exists s, inc_times H checked n counter_new = Some s /\ co_count s = (N.of_nat n mod 2 ^ 32)%N.
Proof.
  intros H ck n B. destruct (inc_live H ck n counter_new (or_introl eq_refl)) as [s R].
  { intro K. apply (B K). }
  exists s. split; [exact R|]. apply (inc_new H ck n s R).
Qed.
Print Assumptions C92_increments_count.

Lemma be32_inj a b : (a < 4294967296)%N -> (b < 4294967296)%N -> be32 a = be32 b -> a = b.
Proof.
  intros A B E. unfold be32 in E. injection E as E1 E2 E3 E4.
  assert (F : forall x y, n2b (x mod 256) = n2b (y mod 256) -> (x mod 256 = y mod 256)%N).
  { intros x y X. apply (f_equal b2n) in X. rewrite !b2n_n2b_small in X by (apply N.mod_lt; discriminate). exact X. }
  apply F in E1, E2, E3, E4.
  assert (D : forall x, (x / 65536 = x / 256 / 256 /\ x / 16777216 = x / 256 / 256 / 256)%N) by (intro x; rewrite !N.div_div by discriminate; split; reflexivity).
  destruct (D a) as [Da2 Da3]. destruct (D b) as [Db2 Db3].
  assert (S : forall x, (x < 4294967296)%N -> (x / 16777216 mod 256 = x / 16777216)%N) by (intros x X; apply N.mod_small, N.div_lt_upper_bound; [discriminate|exact X]).
  rewrite (S a A), (S b B), Da3, Db3 in E1. rewrite Da2, Db2 in E2.
  assert (Q : forall x y, (x / 256 = y / 256 -> x mod 256 = y mod 256 -> x = y)%N) by (intros x y X Y; rewrite (N.div_mod' x 256), (N.div_mod' y 256), X, Y; reflexivity).
  apply Q; [|exact E4]. apply Q; [|exact E3]. apply Q; [exact E1|exact E2].
Qed.

(** the messages hashed for a count, and for the tree holding its hash *)
Definition count_messages (H : bytes -> bytes) (c : N) : list bytes :=
  be32 c :: preimages H (HLabeled (bs "count") (HLeaf (H (be32 c)))).

(** C93: whatever response arrives, with whatever witness: if the certificate is one of the canister's current
    certified data, a number written into the page is the number of increments. *)
Theorem C93_shown_count_is_current :
  forall (H : bytes -> bytes) (checked : bool) (n : nat) (s : counter) create decode leb js_lookup
         (canister_id root_key : bytes) (now_ms : Z) (r : certified_counter) (shown : N),
  (forall x, length (H x) = 32) ->
  inc_times H checked n counter_new = Some s ->
  (forall w v, js_lookup [bs "count"] w = Some v -> at_path [bs "count"] w (HLeaf v)) ->
  (forall lookup d, create (cc_certificate r) canister_id root_key = Some lookup ->
     lookup [bs "canister"; canister_id; bs "certified_data"] = Some d -> d = co_data s) ->
  (cc_count r < 2 ^ 32)%N ->
  on_click H create decode leb js_lookup canister_id root_key now_ms r = Some shown ->
  (shown = (N.of_nat n mod 2 ^ 32)%N /\ n <> 0) \/
  exists w, decode (cc_witness r) = Some w /\
    collision H (count_messages H (N.of_nat n mod 2 ^ 32)) (be32 shown :: preimages H w).
Proof.
  intros H ck n s create decode leb jl cid key now r shown H32 R JL CD B X.
  unfold on_click in X.
  destruct (verify_certification _ _ _ _ _ _ _ _ _ _ _) as [w|] eqn:V; [|discriminate].
  apply C81_accepted_iff in V. destruct V as (lk & e & t & C & D & _ & _ & _ & L).
  destruct (jl [bs "count"] w) as [th|] eqn:J; [|discriminate].
  destruct (bytes_eqb_spec (hash_uint32 H (cc_count r)) th) as [Eh|]; [|discriminate]. injection X as <-. subst th.
  apply JL in J. assert (A := CD lk _ C L). unfold hash_uint32 in J.
  destruct (inc_new H ck n s R) as (C1 & B1 & Q0 & Q). rewrite <- (C1 : _ = (N.of_nat n mod 2 ^ 32)%N).
  inversion J as [|k p t0 c s0 Ch Ap]; subst. inversion Ap; subst. clear Ap J.
  destruct n as [|n].
  - exfalso. destruct (Q0 eq_refl) as [_ DZ]. rewrite DZ in A. apply (f_equal (@length byte)) in A.
    destruct w; try (inversion Ch; fail); cbn [digest] in A; unfold fork_hash, labeled_hash in A; rewrite H32 in A; discriminate A.
  - destruct (Q (Nat.neq_succ_0 n)) as [_ DQ]. rewrite DQ in A.
    assert (Col : forall x y, In x (count_messages H (co_count s)) -> In y (be32 (cc_count r) :: preimages H w) -> x <> y -> H x = H y ->
      exists w0, decode (cc_witness r) = Some w0 /\ collision H (count_messages H (co_count s)) (be32 (cc_count r) :: preimages H w0)).
    { intros x y Ix Iy Nx Ex. exists w. split; [exact D|]. exists x, y. auto. }
    inversion Ch; subst.
    + cbn [digest] in A. unfold labeled_hash in A.
      destruct (bytes_eq_dec (sep_labeled ++ bs "count" ++ leaf_hash H (H (be32 (co_count s)))) (sep_labeled ++ bs "count" ++ leaf_hash H (H (be32 (cc_count r))))) as [Y|Y].
      2: { right. eapply Col; [right; left; reflexivity|right; left; reflexivity|exact Y|symmetry; exact A]. }
      apply app_inv_head in Y. apply app_inv_head in Y. unfold leaf_hash in Y.
      destruct (bytes_eq_dec (sep_leaf ++ H (be32 (co_count s))) (sep_leaf ++ H (be32 (cc_count r)))) as [Z|Z].
      2: { right. eapply Col; [right; right; left; reflexivity|right; right; left; reflexivity|exact Z|exact Y]. }
      apply app_inv_head in Z.
      destruct (bytes_eq_dec (be32 (co_count s)) (be32 (cc_count r))) as [W|W].
      2: { right. eapply Col; [left; reflexivity|left; reflexivity|exact W|exact Z]. }
      left. split; [|apply Nat.neq_succ_0]. symmetry. apply be32_inj; [exact B1|exact B|exact W].
    + right. eapply Col; [right; left; reflexivity|right; left; reflexivity| |symmetry; exact A]. intro Z; symmetry in Z; exact (sep_neq_fl _ _ Z).
    + right. eapply Col; [right; left; reflexivity|right; left; reflexivity| |symmetry; exact A]. intro Z; symmetry in Z; exact (sep_neq_fl _ _ Z).
Qed.
Print Assumptions C93_shown_count_is_current.

(** ** A concrete case: three increments *)
Definition ex_counter : option counter := inc_times toy true 3 counter_new.
Definition ex_lookup (s : counter) (p : list bytes) : option bytes :=
  if bytes_eqb (hd [] p) (bs "time") then Some [x00] else Some (co_data s).
Definition ex_create (s : counter) (_ _ _ : bytes) := Some (ex_lookup s).
Definition ex_js_lookup (p : list bytes) (w : htree) : option bytes := match lookup_path p w with Found v => Some v | _ => None end.
Definition ex_decode (e : bytes) : option htree := match tree_from_cbor (2 ^ 64) 16 e with OOk t => Some t | _ => None end.
Definition ex_shown (s : counter) (now : Z) (change : N) : option N :=
  match get_count toy (Some (bs "certificate")) s with
  | Some r => on_click toy (ex_create s) ex_decode (fun _ => Some 1700000000000000000%N) ex_js_lookup (bs "id") (bs "key") now (mk_certified_counter (cc_count r + change) (cc_certificate r) (cc_witness r))
  | None => None
  end.
Example C92_hypotheses :
  match ex_counter with
  | Some s => ex_shown s 1700000049999 0 = Some 3%N /\ ex_shown s 1700000050001 0 = None /\ ex_shown s 1700000049999 1 = None
  | None => False
  end.
Proof. vm_compute. repeat split. Qed.
Lemma lookup_label_found_at k t c : lookup_label k t = LFound c -> child_at k t c.
Proof.
  induction t as [|l IHl r IHr|lbl t IH|v|h]; cbn [lookup_label]; intro X; try discriminate X.
  - destruct (lookup_label k l); try discriminate X.
    + apply ChRight, IHr. destruct (lookup_label k r); congruence.
    + apply ChRight, IHr. destruct (lookup_label k r); congruence.
    + apply ChLeft, IHl. exact X.
  - destruct (bcmp k lbl) eqn:B; try discriminate X. apply bcmp_eq in B. injection X as ->. subst. constructor.
Qed.
Lemma lookup_path_found_at p : forall t v, lookup_path p t = Found v -> at_path p t (HLeaf v).
Proof.
  induction p as [|k p IH]; intros t v X; cbn [lookup_path] in X.
  - destruct t; try discriminate X. injection X as ->. constructor.
  - destruct (lookup_label k t) as [| | | |c] eqn:L; try discriminate X. econstructor; [apply lookup_label_found_at; exact L|apply IH; exact X].
Qed.
(** the parameters of the example meet the hypotheses on the decoder and on the lookup *)
Example C92_C93_parameters :
  (forall w, hashes32 w -> Forall (short (2 ^ 32)) (strings_of w) -> ex_decode (self_describe ++ enc_tree w) = Some w) /\
  (forall w v, lookup_path [bs "count"] w = Found v -> ex_js_lookup [bs "count"] w = Some v) /\
  (forall w v, ex_js_lookup [bs "count"] w = Some v -> at_path [bs "count"] w (HLeaf v)).
Proof.
  split; [|split].
  - intros w A B. unfold ex_decode. rewrite (proj2 (C20_hash_tree_cbor_round_trip (2 ^ 64) 16 w ltac:(split; reflexivity || (intro; discriminate)) A ltac:(eapply Forall_impl; [|exact B]; unfold short; intros; lia))). reflexivity.
  - intros w v X. unfold ex_js_lookup. rewrite X. reflexivity.
  - intros w v X. unfold ex_js_lookup in X. destruct (lookup_path [bs "count"] w) eqn:L; try discriminate X. injection X as ->. apply lookup_path_found_at. exact L.
Qed.
