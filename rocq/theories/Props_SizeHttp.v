(** C114: how large the witness an HTTP response is certified with is. *)
From Coq Require Import List Arith Lia NArith Bool.
From Verif Require Import Bytes Sha256 Text HashTree HashTreeSpec RbTree Nested NestedSpec NestedProofs Cbor HttpTypes HttpHash HttpSpec Cel V2 Wildcard WildcardSpec WildcardProofs Verify VerifySpec HttpTree HttpTreeSpec Props_Wildcard Props_HttpTree Props_Size.
Import ListNotations.
Local Open Scope nat_scope.

Lemma matches_short v r : matches v r -> length v <= length r.
Proof. intros [(s & ->)|(p & x & s & -> & ->)]; rewrite !app_length; cbn [length]; lia. Qed.
Lemma merge_all_nodes H t B : forall l acc m, merge_all H t acc l = OOk m ->
  (forall p w, In p l -> nwitness H p t = Some w -> nodes w <= B) -> nodes m <= nodes acc + length l * B.
Proof.
  induction l as [|p l IH]; intros acc m E W; cbn [merge_all] in E; [injection E as <-; cbn; lia|].
  destruct (nwitness H p t) as [w|] eqn:Ew; [|discriminate E]. destruct (merge acc w) as [a|] eqn:A; [|discriminate E].
  assert (X := IH a m E (fun q u I => W q u (or_intror I))). assert (Y := C113_merge_adds_nothing _ _ _ A). assert (Z := W p w (or_introl eq_refl) Ew). cbn [length]. lia.
Qed.

Theorem C114_http_witness_is_logarithmic :
  forall (H : bytes -> bytes) (ops : list http_op) (t : ntree) (en : entry) (request_url : bytes) (w : htree) (certified here : list (list bytes)),
  http_run H ops = Some t -> http_witness H t en request_url = OOk w ->
  (* the entry answers the request *)
  answers ops (en_path en) request_url -> unreserved (en_path en) request_url ->
  (* where entries are: all the tree holds, and those at the path of the response (below a path there is only a certification) *)
  (forall e, held ops e -> In (entry_tree_path e) certified) ->
  (forall e, held ops e -> is_prefix (path_tree_path (en_path en)) (entry_tree_path e) ->
     In (entry_tree_path e) here /\ length (entry_tree_path e) <= length (path_tree_path (en_path en)) + 3) ->
  let segments := length (request_parts request_url) in
  exists height, 2 ^ height <= (length certified + 1) ^ 2 /\
  nodes w <= 2 + (2 * segments + 5) * ((segments + 4) * (5 * height + 2) + 1) + 7 * length here.
Proof.
  intros H ops t en url w cert here R W A UR CE HE n. destruct (http_run_ok H ops) as (t' & R' & K & _ & Q). assert (t' = t) by congruence. subst t'. clear R'.
  assert (NE : noempty t). { destruct (nrun_ok H (map http_nop ops)) as (t' & R' & _ & N & _). unfold http_run in R. assert (t' = t) by congruence. subst t'. exact N. }
  assert (HO : forall q, nget q t <> None -> exists e, held ops e /\ entry_tree_path e = q).
  { intros q X. destruct (nget q t) as [v|] eqn:G; [|congruence]. apply Q in G. destruct (holds_inserted ops q v G) as (e & _ & -> & ->). exists e. auto. }
  assert (NP : length (npaths t) <= length cert).
  { apply NoDup_incl_length; [apply (nodup_npaths H); exact K|]. intros q I. apply (in_npaths H t K) in I. destruct (HO q I) as (e & He & <-). exact (CE e He). }
  (* a height that serves for all paths *)
  assert (MX : exists h, 2 ^ h <= (length cert + 1) ^ 2 /\ forall h', 2 ^ h' <= (length cert + 1) ^ 2 -> h' <= h).
  { exists (Nat.log2 ((length cert + 1) ^ 2)). assert (P : 0 < (length cert + 1) ^ 2) by (cbn [Nat.pow]; nia). split; [apply Nat.log2_spec; exact P|]. intros h' X. apply Nat.log2_le_pow2; assumption. }
  destruct MX as (h & Hh & HM). exists h. split; [exact Hh|].
  assert (ONE : forall p u, nwitness H p t = Some u -> ~ occupied ops p -> nodes u <= length p * (5 * h + 2) + 1).
  { intros p u E O. destruct (nwitness_nodes H p t u (length cert) 0 [] K NE E NP) as (h' & A1 & A2).
    - intros r X. exfalso. apply O. destruct (HO _ X) as (e & He & EQ). exists r, []. rewrite <- EQ. exact He.
    - specialize (HM h' A1). cbn [length] in A2. nia. }
  assert (THE : forall p u, nwitness H p t = Some u -> is_prefix (path_tree_path (en_path en)) p -> nodes u <= length p * (5 * h + 2) + 1 + 7 * length here).
  { intros p u E PR. destruct (nwitness_nodes H p t u (length cert) 3 (map (skipn (length p)) here) K NE E NP) as (h' & A1 & A2).
    - intros r X. destruct (HO _ X) as (e & He & EQ). destruct (HE e He) as [I P].
      { rewrite EQ. destruct PR as (z & ->). exists (z ++ r). rewrite app_assoc. reflexivity. }
      assert (Y : r = skipn (length p) (entry_tree_path e)) by (rewrite EQ, skipn_app, skipn_all, Nat.sub_diag; reflexivity).
      split; [rewrite Y; apply in_map; exact I|].
      assert (L2 : length (path_tree_path (en_path en)) <= length p) by (destruct PR as (z & ->); rewrite app_length; lia). rewrite Y, skipn_length. lia.
    - specialize (HM h' A1). rewrite map_length in A2. nia. }
  unfold http_witness in W. destruct (en_path en) as [p|p] eqn:EP.
  - destruct (nwitness H (entry_tree_path en) t) as [u|] eqn:E; cbn [out_bind] in W; [|discriminate W]. injection W as <-. cbn [nodes].
    assert (X := THE _ u E). assert (L : length (entry_tree_path en) <= n + 4).
    { unfold entry_tree_path. rewrite app_length, EP. unfold path_tree_path. rewrite path_to_segments_parts, app_length. cbn [answers] in A. rewrite A. fold n. destruct (en_certification en); cbn [cert_tree_path length]; lia. }
    assert (Y : nodes u <= length (entry_tree_path en) * (5 * h + 2) + 1 + 7 * length here) by (apply X; unfold entry_tree_path; rewrite EP; eexists; reflexivity). nia.
  - assert (P1 : path_tree_path (PExact url) = request_parts url ++ [bs "<$>"]) by (unfold path_tree_path; apply path_to_segments_parts).
    assert (P2 : path_tree_path (PWildcard p) = request_parts p ++ [bs "<*>"]) by (unfold path_tree_path; apply path_to_segments_parts).
    cbv zeta in W. rewrite P1, P2 in W. destruct A as (M & NX & NM). destruct UR as [OP NH].
    destruct (length (request_parts url ++ [bs "<$>"]) <? length (request_parts p ++ [bs "<*>"])); [discriminate W|].
    destruct (nwitness H (request_parts url ++ [bs "<$>"]) t) as [w1|] eqn:E1; [|discriminate W]. destruct (nwitness H (request_parts p ++ [bs "<*>"]) t) as [w2|] eqn:E2; [|discriminate W].
    destruct (merge w1 w2) as [w0|] eqn:E0; [|discriminate W].
    destruct (C35_canister_side _ _ (parts_segments url OP) NH M) as (l & El & _ & I). rewrite El in W.
    destruct (C34_more_specific_wildcards_terminates (request_parts url ++ [bs "<$>"]) (request_parts p ++ [bs "<*>"])) as (l' & El' & LL). rewrite El in El'. injection El' as <-. rewrite app_length in LL. cbn [length] in LL. fold n in LL.
    destruct (merge_all H t w0 (map (fun q => q ++ [bs "<*>"]) l)) as [m| | |] eqn:EM; cbn [out_bind] in W; try discriminate W. injection W as <-. cbn [nodes].
    assert (X := merge_all_nodes H t ((n + 4) * (5 * h + 2) + 1) _ _ _ EM). assert (X0 := C113_merge_adds_nothing _ _ _ E0).
    assert (X1 := ONE _ _ E1 NX). rewrite app_length in X1. cbn [length] in X1. fold n in X1.
    assert (X2 := THE _ _ E2). rewrite P2 in X2. specialize (X2 (ex_intro _ [] (eq_sym (app_nil_r _)))). rewrite app_length in X2. cbn [length] in X2.
    assert (LP := matches_short _ _ M). fold n in LP.
    assert (X3 : nodes m <= nodes w0 + length (map (fun q => q ++ [bs "<*>"]) l) * ((n + 4) * (5 * h + 2) + 1)).
    { apply X. intros q u J E. apply in_map_iff in J. destruct J as (v & <- & J). apply I in J. destruct J as [Mv Sv].
      assert (Y := ONE _ _ E (NM v Mv Sv)). rewrite app_length in Y. cbn [length] in Y. assert (Lv := matches_short _ _ Mv). fold n in Lv. nia. }
    set (B := (n + 4) * (5 * h + 2) + 1) in *.
    assert (Y1 : nodes w1 <= B) by (unfold B; nia). assert (Y2 : nodes w2 <= B + 7 * length here) by (unfold B; nia). clearbody B. nia.
Qed.
Print Assumptions C114_http_witness_is_logarithmic.
(** the canister of C51, whose wildcard at "/" answers "/zz/y" *)
Lemma exh_paths e : held exh_ops e -> In (entry_tree_path e) (npaths exh_tree).
Proof.
  intro He. apply exh_holds in He. destruct (http_run_ok sha256 exh_ops) as (t & R & K & _). assert (t = exh_tree) by (assert (X := exh_run); congruence). subst t.
  apply (in_npaths sha256 exh_tree K). rewrite He. intro Z; discriminate Z.
Qed.
Example C114_hypotheses : exists w, http_run sha256 exh_ops = Some exh_tree /\ http_witness sha256 exh_tree exh_w (bs "/zz/y") = OOk w /\
  answers exh_ops (en_path exh_w) (bs "/zz/y") /\ unreserved (en_path exh_w) (bs "/zz/y") /\
  (forall e, held exh_ops e -> In (entry_tree_path e) (npaths exh_tree)) /\
  (forall e, held exh_ops e -> is_prefix (path_tree_path (en_path exh_w)) (entry_tree_path e) ->
     In (entry_tree_path e) (npaths exh_tree) /\ length (entry_tree_path e) <= length (path_tree_path (en_path exh_w)) + 3) /\
  nodes w = 10 /\ length (npaths exh_tree) = 2.
Proof.
  assert (X : match http_witness sha256 exh_tree exh_w (bs "/zz/y") with OOk w => nodes w = 10 | _ => False end) by (vm_compute; reflexivity).
  destruct (http_witness sha256 exh_tree exh_w (bs "/zz/y")) as [w| | |]; try contradiction. exists w.
  split; [exact exh_run|]. split; [reflexivity|]. split; [exact (proj1 (proj2 (proj2 (proj2 C51_hypotheses))))|].
  split. { cbn [unreserved en_path exh_w]. unfold ordinary_path. change (request_parts (bs "/zz/y")) with ([bs "zz"] ++ [bs "y"]).
    split; [split; intros q Z; apply app_inj_tail in Z; destruct Z as [_ Z]; discriminate Z|]. intros r Z. discriminate Z. }
  split; [exact exh_paths|]. split; [|split; [exact X|vm_compute; reflexivity]].
  intros e He _. assert (I := exh_paths e He). split; [exact I|].
  assert (F : forallb (fun q => length q <=? length (path_tree_path (en_path exh_w)) + 3) (npaths exh_tree) = true) by (vm_compute; reflexivity).
  rewrite forallb_forall in F. apply Nat.leb_le. apply F. exact I.
Qed.
