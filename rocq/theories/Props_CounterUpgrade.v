(** C136: the certified counter example across upgrades of the canister. *)
From Coq Require Import List Arith NArith ZArith Lia Bool.
From Verif Require Import Bytes Toy HashTree HashTreeSpec HashTreeProofs RbTree Cbor CborSpec JsBindings Props_Js Props_Cbor Counter Props_Counter.
Import ListNotations.

(** The number of increments since the last upgrade. *)
Fixpoint since_upgrade (calls : list counter_call) (n : nat) : nat :=
  match calls with
  | [] => n
  | Increment :: r => since_upgrade r (S n)
  | Upgrade :: r => since_upgrade r 0
  end.

Lemma inc_same H ck a b : co_count a = co_count b -> co_tree a = co_tree b -> inc_count H ck a = inc_count H ck b.
Proof. unfold inc_count. intros -> ->. reflexivity. Qed.
Lemma inc_snoc H ck n : forall s s', inc_times H ck n s = Some s' -> inc_times H ck (S n) s = inc_count H ck s'.
Proof.
  induction n as [|n IH]; intros s s' X.
  - cbn [inc_times] in X |- *. injection X as <-. destruct (inc_count H ck s); reflexivity.
  - cbn [inc_times] in X. destruct (inc_count H ck s) as [s1|] eqn:E1; [|discriminate X].
    change (inc_times H ck (S (S n)) s) with (match inc_count H ck s with None => None | Some s' => inc_times H ck (S n) s' end).
    rewrite E1. apply IH. exact X.
Qed.
(** The number the counter shows after [n] increments: a [u32] stays at its maximum in builds with overflow checks
    (the increment traps), and starts again at 0 in others. *)
Definition counted (checked : bool) (n : nat) : N := if checked then N.min (N.of_nat n) (2 ^ 32 - 1) else (N.of_nat n mod 2 ^ 32)%N.
(** After a history the state is that of [m] successful increments since the last upgrade, if any. *)
Lemma counted_mod (ck : bool) (n m : nat) : (if ck then N.of_nat m = N.min (N.of_nat n) 4294967295 else m = n) -> (N.of_nat m mod 2 ^ 32)%N = counted ck n.
Proof.
  unfold counted. change (2 ^ 32)%N with 4294967296%N. change (4294967296 - 1)%N with 4294967295%N. destruct ck; [intros ->; apply N.mod_small; lia|intros ->; reflexivity].
Qed.
Lemma after_is_inc H (ck keeps : bool) calls : forall (n m : nat) (s0 s : counter),
  (if ck then N.of_nat m = N.min (N.of_nat n) 4294967295 else m = n) ->
  inc_times H ck m counter_new = Some s0 ->
  co_count s = co_count s0 -> co_tree s = co_tree s0 -> (m <> 0 -> s = s0) ->
  let s' := fold_left (counter_step H ck keeps) calls s in
  exists m' s1, (if ck then N.of_nat m' = N.min (N.of_nat (since_upgrade calls n)) 4294967295 else m' = since_upgrade calls n) /\
    inc_times H ck m' counter_new = Some s1 /\
    co_count s' = co_count s1 /\ co_tree s' = co_tree s1 /\ (m' <> 0 -> s' = s1).
Proof.
  induction calls as [|[] calls IH]; intros n m s0 s B X C T1 Q; cbn [fold_left since_upgrade].
  - exists m, s0. auto.
  - destruct (ck && (4294967295 <=? N.of_nat m)%N) eqn:F.
    + (* the increment traps *)
      apply andb_true_iff in F. destruct F as [-> F]. apply N.leb_le in F.
      assert (M : N.of_nat m = 4294967295%N) by lia.
      assert (E3 : inc_count H true s = None).
      { destruct (inc_new H true m s0 X) as (C0 & _). unfold inc_count. rewrite C, C0, M. reflexivity. }
      cbn [counter_step]. rewrite E3. apply (IH (S n) m s0 s); auto. lia.
    + assert (exists s2, inc_times H ck (S m) counter_new = Some s2) as [s2 E2].
      { apply inc_live; [left; reflexivity|]. intro K. subst ck. cbn [andb] in F. apply N.leb_gt in F. cbn [co_count counter_new]. lia. }
      assert (E3 : inc_count H ck s = Some s2) by (rewrite (inc_same H ck s s0 C T1), <- (inc_snoc H ck m counter_new s0 X); exact E2).
      cbn [counter_step]. rewrite E3. apply (IH (S n) (S m) s2 s2); auto. destruct ck; [cbn [andb] in F; apply N.leb_gt in F; lia|congruence].
  - apply (IH 0 0 counter_new); try reflexivity.
    + destruct ck; reflexivity.
    + intro Z. destruct (Z eq_refl).
Qed.
Lemma after_counts H ck keeps calls : since_upgrade calls 0 <> 0 ->
  exists m, inc_times H ck m counter_new = Some (counter_after H ck keeps calls) /\ m <> 0 /\ (N.of_nat m mod 2 ^ 32)%N = counted ck (since_upgrade calls 0).
Proof.
  intro N0. destruct (after_is_inc H ck keeps calls 0 0 counter_new counter_new ltac:(destruct ck; reflexivity) eq_refl eq_refl eq_refl ltac:(reflexivity)) as (m & s1 & R & X & _ & _ & Q).
  assert (M0 : m <> 0) by (destruct ck; lia). specialize (Q M0). fold (counter_after H ck keeps calls) in Q.
  exists m. rewrite Q. split; [exact X|]. split; [exact M0|apply counted_mod; exact R].
Qed.

(** C136: once the counter has been incremented after the last upgrade, the canister's response makes the page show
    the number of increments since that upgrade. *)
Theorem C136_count_since_upgrade_is_shown_partial :
  forall (H : bytes -> bytes) (checked keeps : bool) (calls : list counter_call) create decode leb js_lookup
         (canister_id root_key certificate e : bytes) (lookup : list bytes -> option bytes) (t : N) (now_ms : Z),
  (forall x, length (H x) = 32) ->
  since_upgrade calls 0 <> 0 ->
  (forall w, hashes32 w -> Forall (short (2 ^ 32)) (strings_of w) -> decode (self_describe ++ enc_tree w) = Some w) ->
  (forall w v, lookup_path [bs "count"] w = Found v -> js_lookup [bs "count"] w = Some v) ->
  create certificate canister_id root_key = Some lookup ->
  lookup [bs "time"] = Some e -> leb e = Some t -> (now_ms - 50000 <= Z.of_N (t / 1000000) <= now_ms + 50000)%Z ->
  lookup [bs "canister"; canister_id; bs "certified_data"] = Some (co_data (counter_after H checked keeps calls)) ->
  exists r, get_count H (Some certificate) (counter_after H checked keeps calls) = Some r /\
    on_click H create decode leb js_lookup canister_id root_key now_ms r = Some (counted checked (since_upgrade calls 0)).
Proof.
  intros H ck keeps calls create decode leb jl cid rk cert e lookup t now L32 N0 Dec Jl Cr Ti Le Wi Da.
  destruct (after_counts H ck keeps calls N0) as (m & X & M0 & <-).
  eapply C92_honest_count_is_shown; eassumption.
Qed.
Print Assumptions C136_count_since_upgrade_is_shown_partial.

(** C136: and whatever response arrives, a number shown under a certificate of the current data is that number. *)
Theorem C136_shown_count_is_since_upgrade_partial :
  forall (H : bytes -> bytes) (checked keeps : bool) (calls : list counter_call) create decode leb js_lookup
         (canister_id root_key : bytes) (now_ms : Z) (r : certified_counter) (shown : N),
  (forall x, length (H x) = 32) ->
  since_upgrade calls 0 <> 0 ->
  (forall w v, js_lookup [bs "count"] w = Some v -> at_path [bs "count"] w (HLeaf v)) ->
  (forall lookup d, create (cc_certificate r) canister_id root_key = Some lookup ->
     lookup [bs "canister"; canister_id; bs "certified_data"] = Some d -> d = co_data (counter_after H checked keeps calls)) ->
  (cc_count r < 2 ^ 32)%N ->
  on_click H create decode leb js_lookup canister_id root_key now_ms r = Some shown ->
  shown = counted checked (since_upgrade calls 0) \/
  exists w, decode (cc_witness r) = Some w /\
    collision H (count_messages H (counted checked (since_upgrade calls 0))) (be32 shown :: preimages H w).
Proof.
  intros H ck keeps calls create decode leb jl cid rk now r shown L32 N0 Jl Cr Cc X.
  destruct (after_counts H ck keeps calls N0) as (m & Y & M0 & <-).
  destruct (C93_shown_count_is_current H ck m (counter_after H ck keeps calls) create decode leb jl cid rk now r shown L32 Y Jl Cr Cc X) as [[Z _]|Z]; auto.
Qed.
Print Assumptions C136_shown_count_is_since_upgrade_partial.

(** Full statements, refuted: between an upgrade and the next increment the page shows nothing for the canister's own
    response; and if the platform keeps the certified data, the response handed out before the upgrade, with [n] increments,
    is still shown under a certificate of the current data, although the counter is 0 again. *)
Theorem C136_after_an_upgrade_refuted :
  forall (H : bytes -> bytes) (checked : bool) (n : nat) create decode leb js_lookup
         (canister_id root_key certificate e : bytes) (lookup : list bytes -> option bytes) (t : N) (now_ms : Z),
  (forall x, length (H x) = 32) -> (N.of_nat n < 2 ^ 32)%N -> n <> 0 ->
  (forall w, hashes32 w -> Forall (short (2 ^ 32)) (strings_of w) -> decode (self_describe ++ enc_tree w) = Some w) ->
  (forall w v, lookup_path [bs "count"] w = Found v <-> js_lookup [bs "count"] w = Some v) ->
  create certificate canister_id root_key = Some lookup ->
  lookup [bs "time"] = Some e -> leb e = Some t -> (now_ms - 50000 <= Z.of_N (t / 1000000) <= now_ms + 50000)%Z ->
  (forall keeps calls, lookup [bs "canister"; canister_id; bs "certified_data"] = Some (co_data (counter_after H checked keeps (calls ++ [Upgrade]))) ->
     co_count (counter_after H checked keeps (calls ++ [Upgrade])) = 0%N /\
     exists r, get_count H (Some certificate) (counter_after H checked keeps (calls ++ [Upgrade])) = Some r /\
       on_click H create decode leb js_lookup canister_id root_key now_ms r = None) /\
  (let before := repeat Increment n in
   let after := before ++ [Upgrade] in
   lookup [bs "canister"; canister_id; bs "certified_data"] = Some (co_data (counter_after H checked true after)) ->
   co_count (counter_after H checked true after) = 0%N /\
   exists old, get_count H (Some certificate) (counter_after H checked true before) = Some old /\
     on_click H create decode leb js_lookup canister_id root_key now_ms old = Some (N.of_nat n)).
Proof.
  intros H ck n create decode leb jl cid rk cert e lookup t now L32 B N0 Dec Jl Cr Ti Le Wi. split.
  - intros keeps calls Da. unfold counter_after in *. rewrite fold_left_app in *. cbn [fold_left counter_step counter_upgrade co_count co_data] in *.
    split; [reflexivity|]. exists (mk_certified_counter 0 cert (self_describe ++ enc_tree HEmpty)). split; [reflexivity|]. unfold on_click.
    destruct (verify_certification _ _ _ _ _ _ _ _ _ _ _) as [w|] eqn:V; [|reflexivity].
    apply C81_accepted_iff in V. destruct V as (? & ? & ? & _ & Dw & _). change (decode (self_describe ++ enc_tree HEmpty) = Some w) in Dw.
    rewrite (Dec HEmpty) in Dw; [|exact I|constructor]. injection Dw as <-.
    destruct (jl [bs "count"] HEmpty) as [v|] eqn:J; [|reflexivity]. apply Jl in J. discriminate J.
  - cbv zeta. intro Da.
    assert (Sn : since_upgrade (repeat Increment n) 0 = n).
    { assert (Z : forall m k, since_upgrade (repeat Increment m) k = k + m).
      { induction m as [|m IH]; intro k; cbn [repeat since_upgrade]; [lia|]. rewrite IH. lia. }
      rewrite Z. reflexivity. }
    assert (E1 : co_data (counter_after H ck true (repeat Increment n ++ [Upgrade])) = co_data (counter_after H ck true (repeat Increment n))).
    { unfold counter_after. rewrite fold_left_app. reflexivity. }
    split; [unfold counter_after; rewrite fold_left_app; reflexivity|].
    rewrite E1 in Da.
    destruct (C136_count_since_upgrade_is_shown_partial H ck true (repeat Increment n) create decode leb jl cid rk cert e lookup t now)
      as (old & G & X); auto.
    + rewrite Sn. exact N0.
    + intros w v Y. apply Jl. exact Y.
    + exists old. split; [exact G|]. rewrite X, Sn. f_equal. unfold counted. change (2 ^ 32)%N with 4294967296%N in *. destruct ck; [lia|apply N.mod_small; exact B].
Qed.
Print Assumptions C136_after_an_upgrade_refuted.

(** Two increments, an upgrade and another increment: the page shows 1; and the parameters of C92_C93_parameters
    meet the hypotheses on the decoder and the lookup. *)
Definition ex_calls : list counter_call := [Increment; Increment; Upgrade; Increment].
Example C136_hypotheses :
  since_upgrade ex_calls 0 = 1 /\
  ex_shown (counter_after toy true true ex_calls) 1700000049999 0 = Some 1%N /\
  ex_shown (counter_after toy true true [Increment; Upgrade]) 1700000049999 0 = None /\
  (forall w v, lookup_path [bs "count"] w = Found v <-> ex_js_lookup [bs "count"] w = Some v).
Proof.
  split; [reflexivity|]. split; [vm_compute; reflexivity|]. split; [vm_compute; reflexivity|].
  intros w v. unfold ex_js_lookup. destruct (lookup_path [bs "count"] w); split; intro X; try discriminate X; congruence.
Qed.
