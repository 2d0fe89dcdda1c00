(** C56-C58, C66-C68: what the asset router stores and certifies after any history. *)
(** Concrete data that meets the hypotheses of these theorems: Props_RouterEx.v. *)
From Coq Require Import List Arith NArith Lia Bool Permutation.
From Verif Require Import Bytes Toy Text HashTree HashTreeSpec RbTree Nested NestedSpec NestedProofs Cbor HttpTypes HttpHash HttpSpec Cel V2 Wildcard Verify VerifySpec HeaderSpec HttpTree HttpTreeSpec
  Props_Hash Props_Verify Props_HttpTree AssetRouter RangeSpec Props_Range AssetSpec AssetProofs AssetEffect PreparedProofs.
Import ListNotations.
Local Open Scope N_scope.

(** ** C66: calls never panic *)
Lemma nstep_tok H t o t' : nok H t /\ noempty t -> nstep H t (http_nop o) = Some t' -> nok H t' /\ noempty t'.
Proof.
  intros [K N] E. destruct o as [en|en|]; cbn [http_nop nstep] in E.
  - destruct (ninsert_ok H (entry_tree_path en) [] _ K) as (t1 & E1 & K1 & _ & N1 & _). rewrite E in E1. injection E1 as <-. auto.
  - destruct (ndelete_ok H (entry_tree_path en) _ K) as (t1 & E1 & K1 & _ & N1). rewrite E in E1. injection E1 as <-. auto.
  - injection E as <-. split; [exact (nok_E H)|exact (noempty_E H)].
Qed.
Lemma reachable_tok cs H uq glob st : 0 < cs -> reachable cs H uq glob st -> tok H st.
Proof.
  intros CS. induction 1 as [ops t R|st c R IH O|st o t R IH E].
  - destruct (http_run_ok H ops) as (t' & R' & K & N & _). rewrite R in R'. injection R' as <-. split; assumption.
  - eapply steps_tok; [apply (run_call_steps cs H uq glob CS c st O IH)|exact IH].
  - exact (nstep_tok H _ _ _ IH E).
Qed.
Lemma new_tok H : tok H router_new.
Proof. split; [exact (nok_E H)|exact (noempty_E H)]. Qed.
Theorem C66_calls_never_panic :
  forall (cs : N) (H : bytes -> bytes) uri_query glob (st : router) (c : call),
  0 < cs -> reachable cs H uri_query glob st -> any_order c ->
  snd (run_call cs H uri_query glob c st) = OOk tt \/ snd (run_call cs H uri_query glob c st) = OErr.
Proof. intros cs H uq glob st c CS R O. apply (run_call_steps cs H uq glob CS c st O). exact (reachable_tok cs H uq glob st CS R). Qed.
Print Assumptions C66_calls_never_panic.

(** ** C67: what certify_assets does *)
(** After a successful call, at every place the call is about one of its
    responses is stored, all other places are as before; and its entries are
    certified, others as before, up to entries one of which lies inside another. *)
Theorem C67_certify_stores_and_certifies :
  forall (cs : N) (H : bytes -> bytes) uri_query glob (st st' : router) order (assets : list asset) (configs : list asset_config),
  0 < cs -> reachable cs H uri_query glob st -> (forall l, Permutation (order l) l) ->
  certify_assets cs H uri_query glob order assets configs st = (st', OOk tt) ->
  (forall f k x, written cs H uri_query glob assets configs f k x -> exists y, written cs H uri_query glob assets configs f k y /\ stored st' f k y) /\
  (forall f k y, stored st' f k y -> written cs H uri_query glob assets configs f k y \/ stored st f k y) /\
  (forall f k y, stored st f k y -> stored st' f k y \/ exists x, written cs H uri_query glob assets configs f k x) /\
  (forall f k x, written cs H uri_query glob assets configs f k x ->
     (forall f' k' x', written cs H uri_query glob assets configs f' k' x' -> overlapping (entry_tree_path (ca_entry x')) (entry_tree_path (ca_entry x)) ->
        entry_tree_path (ca_entry x') = entry_tree_path (ca_entry x)) -> certifies st' (ca_entry x)) /\
  (forall en, certifies st' en -> certifies st en \/ exists f k x, written cs H uri_query glob assets configs f k x /\ entry_tree_path (ca_entry x) = entry_tree_path en) /\
  (forall en, certifies st en ->
     (forall f k x, written cs H uri_query glob assets configs f k x -> overlapping (entry_tree_path (ca_entry x)) (entry_tree_path en) -> entry_tree_path (ca_entry x) = entry_tree_path en) ->
     certifies st' en).
Proof.
  intros cs H uq glob st st' order assets configs CS R O E. assert (K := reachable_tok _ _ _ _ _ CS R).
  destruct (certify_assets_sound cs H uq glob CS order assets configs O st K) as [S _]. rewrite E in S. cbn [fst] in S.
  set (W := written cs H uq glob assets configs) in *.
  assert (Pass : forall f k x, W f k x -> exists s1 s2, steps H W nothing no_key False st s1 /\ puts H f k x s1 s2 /\ steps H W nothing no_key False s2 st').
  { intros f k x w. exact (certify_assets_passes cs H uq glob CS order assets configs f k x O w st st' K E). }
  assert (ND : forall p f k x, nothing f k x -> ~ is_prefix (ep x) p) by (intros p f k x []).
  split; [|split; [|split; [|split; [|split]]]].
  - intros f k x w. destruct (Pass f k x w) as (s1 & s2 & A & (t & I & ->) & B).
    assert (X : stored (put f k x t s1) f k x) by (rewrite stored_at, at_put, (proj2 (same_place_spec f k f k) (conj eq_refl eq_refl)); reflexivity).
    destruct (steps_place_kept H W _ _ _ _ _ B X) as [Y|(y & w' & Y)]; eauto.
  - intros f k y X. exact (steps_stored H _ _ _ _ _ _ _ _ _ S X).
  - intros f k y X. destruct (steps_place_kept H W _ _ _ _ _ S X) as [Y|(y' & w' & Y)]; eauto.
  - intros f k x w NO. destruct (Pass f k x w) as (s1 & s2 & A & (t & I & ->) & B). assert (K1 := steps_tok _ _ _ _ _ _ _ A K).
    assert (K2 : tok H (put f k x t s1)) by (exact (step_tok H W nothing no_key False s1 _ (SPut H W nothing no_key False f k x s1 t w I) K1)).
    apply (steps_entry_kept H W nothing no_key _ _ (ep x) []) in B; [exact B| |apply ND|exact K2|].
    + intros f' k' x' w' OV. split; [exact (NO f' k' x' w' OV)|reflexivity].
    + rewrite tree_put, (get_ins H s1 x t K1 I), peqb_refl. reflexivity.
  - intros en X. destruct (steps_certified H _ _ _ _ _ _ _ _ S K X) as [(_ & f & k & x & w & Q)|Y]; [right; exists f, k, x; split; [exact w|symmetry; exact Q]|left; exact Y].
  - intros en X NO. apply (steps_entry_kept H W nothing no_key _ _ (entry_tree_path en) []) in S; [exact S| |apply ND|exact K|exact X].
    intros f k x w OV. split; [exact (NO f k x w OV)|reflexivity].
Qed.
Print Assumptions C67_certify_stores_and_certifies.

(** Calls on valid input succeed. *)
Section Success.
  Variables (cs : N) (H : bytes -> bytes) (uq : bytes -> option (option bytes)) (glob : bytes -> option (bytes -> bool)).
  Hypothesis CS : 0 < cs.
  Definition succeeds (A : act) : Prop := forall st, tok H st -> snd (A st) = OOk tt /\ tok H (fst (A st)).
  Lemma succeeds_done : succeeds done. Proof. intros st K. split; [reflexivity|exact K]. Qed.
  Lemma succeeds_seq A B : succeeds A -> succeeds B -> succeeds (seq A B).
  Proof. intros SA SB st K. unfold seq. destruct (SA st K) as [E K1]. destruct (A st) as [s o]. cbn [fst snd] in *. subst o. exact (SB s K1). Qed.
  Lemma succeeds_each {A} (f : A -> act) l : (forall x, In x l -> succeeds (f x)) -> succeeds (each f l).
  Proof. induction l as [|x l IH]; intro F; [apply succeeds_done|]. cbn [each]. apply succeeds_seq; [apply F; left; reflexivity|apply IH; intros; apply F; right; assumption]. Qed.
  Lemma succeeds_attempt {A} (o : option A) f : (exists a, o = Some a) -> (forall a, succeeds (f a)) -> succeeds (attempt o f).
  Proof. intros (a & ->) F. apply F. Qed.
  Lemma succeeds_put f k x : succeeds (put_act H f k x).
  Proof.
    intros st K. destruct (put_act_eq H f k x st K) as (t & E & ->). split; [reflexivity|]. cbn [fst].
    exact (step_tok H (fun _ _ _ => True) nothing no_key False st _ (SPut H _ _ _ _ f k x st t I E) K).
  Qed.
  Lemma succeeds_drop f k x : succeeds (drop_act H f k x).
  Proof.
    intros st K. destruct (drop_act_eq H f k x st K) as (t & E & ->). split; [reflexivity|]. cbn [fst].
    exact (step_tok H nothing (fun _ _ _ => True) no_key False st _ (SDrop H _ _ _ _ f k x st t I E) K).
  Qed.
  Lemma succeeds_responses g : succeeds (on_responses g).
  Proof. intros st K. split; [reflexivity|exact K]. Qed.
  Lemma succeeds_ext A B : (forall st, A st = B st) -> succeeds A -> succeeds B.
  Proof. intros E S st K. rewrite <- E. apply S, K. Qed.
  Lemma insert_static_succeeds a c enc u : no_header (bs "IC-CertificateExpression") (headers_of c) -> parses uq u ->
    succeeds (insert_static cs H uq (aliased a u) (content_type_of c) (headers_of c) enc).
  Proof.
    intros N (q & U). rewrite insert_static_eq.
    assert (One : forall r, succeeds (insert_one cs H uq a c enc u r)).
    { intro r. apply succeeds_attempt; [eapply prepare_static_ok; [exact N|exact U]|]. intro x. apply succeeds_put. }
    apply succeeds_seq; [|apply One]. destruct (cs <? _); [|apply succeeds_done]. apply succeeds_each. intros b _. apply One.
  Qed.
  Lemma delete_static_succeeds a c enc u : no_header (bs "IC-CertificateExpression") (headers_of c) -> parses uq u ->
    succeeds (delete_static cs H uq (aliased a u) (content_type_of c) (headers_of c) enc).
  Proof.
    intros N (q & U). eapply succeeds_ext; [intro st; symmetry; apply delete_static_eq|].
    apply succeeds_attempt; [eapply prepare_static_ok; [exact N|exact U]|]. intro x. apply succeeds_seq; [apply succeeds_drop|].
    destruct (cs <? _); [|apply succeeds_done]. apply succeeds_each. intros b _. apply succeeds_responses.
  Qed.
  Definition valid_for (a : asset) (c : option config) : Prop :=
    no_header (bs "IC-CertificateExpression") (headers_of c) /\ Forall (parses uq) (aliases_of c) /\ parses uq (as_url a).
  Lemma certify_asset_succeeds a c enc : valid_for a c -> succeeds (certify_asset cs H uq a c enc).
  Proof.
    intros (N & A & U). eapply succeeds_ext; [intro st; symmetry; apply certify_asset_eq|]. apply succeeds_seq; [apply insert_static_succeeds; assumption|]. apply succeeds_seq.
    - apply succeeds_each. intros fb _. destruct U as (q & U). apply succeeds_attempt; [eapply prepare_fallback_ok; [exact N|exact U]|]. intro x. apply (succeeds_put true).
    - apply succeeds_each. intros u I. apply insert_static_succeeds; [exact N|]. rewrite Forall_forall in A. exact (A u I).
  Qed.
  Lemma delete_asset_succeeds a c enc : valid_for a c -> succeeds (delete_asset cs H uq a c enc).
  Proof.
    intros (N & A & U). eapply succeeds_ext; [intro st; symmetry; apply delete_asset_eq|]. apply succeeds_seq; [apply delete_static_succeeds; assumption|]. apply succeeds_seq.
    - apply succeeds_each. intros fb _. destruct U as (q & U). apply succeeds_attempt; [eapply prepare_fallback_ok; [exact N|exact U]|]. intro x. apply (succeeds_drop true).
    - apply succeeds_each. intros u I. apply delete_static_succeeds; [exact N|]. rewrite Forall_forall in A. exact (A u I).
  Qed.
  Definition valid_norm (c : config) : Prop :=
    match c with
    | NFile _ _ hs _ als _ => no_header (bs "IC-CertificateExpression") hs /\ Forall (parses uq) als
    | NPattern _ _ hs _ => no_header (bs "IC-CertificateExpression") hs
    | NRedirect from _ _ => parses uq from
    end.
  Lemma valid_normalize configs : Forall (valid_config uq glob) configs -> exists cfgs, normalize_all glob configs = Some cfgs /\ Forall valid_norm cfgs.
  Proof.
    induction 1 as [|c configs V F (cfgs & E & G)]; [exists []; split; [reflexivity|constructor]|]. cbn [normalize_all]. rewrite E.
    destruct c as [p ct hs fbs als encs|p ct hs encs|from to kind]; cbn [valid_config normalize] in *.
    - eexists. split; [reflexivity|]. constructor; assumption.
    - destruct V as (N & m & ->). eexists. split; [reflexivity|]. constructor; [exact N|exact G].
    - eexists. split; [reflexivity|]. constructor; assumption.
  Qed.
  Lemma valid_first cfgs a c : Forall valid_norm cfgs -> first_config cfgs a c -> no_header (bs "IC-CertificateExpression") (headers_of c) /\ Forall (parses uq) (aliases_of c).
  Proof.
    intros F FC. destruct c as [x|]; [|split; constructor]. destruct FC as (l & r & -> & M & _). rewrite Forall_forall in F. specialize (F x ltac:(apply in_or_app; right; left; reflexivity)).
    destruct x; cbn in *; [exact F|split; [exact F|constructor]|split; constructor].
  Qed.
  Lemma call_succeeds (f : asset -> option config -> option encoding -> act) (g : config -> act) order assets configs : (forall l, Permutation (order l) l) -> valid_input uq glob assets configs ->
    (forall a c enc, valid_for a c -> succeeds (f a c enc)) -> (forall c, valid_norm c -> succeeds (g c)) ->
    succeeds (attempt (normalize_all glob configs) (fun cfgs => seq (each (asset_acts f (asset_map assets) cfgs) (order (map snd (asset_map assets)))) (each g cfgs))).
  Proof.
    intros O [VA VC] F G. destruct (valid_normalize configs VC) as (cfgs & -> & V). cbn [attempt].
    assert (P : forall a, last_asset assets a -> parses uq (as_url a)).
    { intros a (l & r & -> & _). rewrite Forall_forall in VA. apply VA. apply in_or_app. right. left. reflexivity. }
    apply succeeds_seq.
    - apply succeeds_each. intros a I. apply (Permutation_in _ (O _)) in I. apply asset_map_values in I. unfold asset_acts.
      destruct (valid_first cfgs a _ V (find_first cfgs a)) as [N A]. apply succeeds_seq.
      + apply succeeds_each. intros [e suffix] _. cbn [fst snd]. destruct (m_get bytes_eqb (as_path a ++ suffix) (asset_map assets)) as [ea|]; [|apply succeeds_done].
        apply F. split; [exact N|]. split; [exact A|]. exact (P a I).
      + apply F. split; [exact N|]. split; [exact A|]. exact (P a I).
    - apply succeeds_each. intros c I. apply G. rewrite Forall_forall in V. exact (V c I).
  Qed.
End Success.
Theorem C67_valid_calls_succeed :
  forall (cs : N) (H : bytes -> bytes) uri_query glob (st : router) order (assets : list asset) (configs : list asset_config),
  0 < cs -> reachable cs H uri_query glob st -> (forall l, Permutation (order l) l) -> valid_input uri_query glob assets configs ->
  snd (certify_assets cs H uri_query glob order assets configs st) = OOk tt /\
  snd (delete_assets cs H uri_query glob order assets configs st) = OOk tt.
Proof.
  intros cs H uq glob st order assets configs CS R O V. assert (K := reachable_tok _ _ _ _ _ CS R). split.
  - apply (call_succeeds H uq glob (certify_asset cs H uq) (redirect_insert_act H uq) order assets configs O V); [|intros [| |from to kind] P|exact K].
    + apply certify_asset_succeeds.
    + apply succeeds_done.
    + apply succeeds_done.
    + destruct P as (q & P). apply succeeds_attempt; [eapply prepare_redirect_ok; exact P|]. intro x. apply (succeeds_put H false).
  - apply (call_succeeds H uq glob (delete_asset cs H uq) (redirect_delete_act H uq) order assets configs O V); [|intros [| |from to kind] P|exact K].
    + apply delete_asset_succeeds.
    + apply succeeds_done.
    + apply succeeds_done.
    + destruct P as (q & P). apply succeeds_attempt; [eapply prepare_redirect_ok; exact P|]. intro x. apply (succeeds_drop H false).
Qed.
Print Assumptions C67_valid_calls_succeed.

(** ** C67, C60: the responses *)
Lemma slice_split b e (s : bytes) : b <= e -> e <= N.of_nat (length s) ->
  exists before after, s = before ++ slice b e s ++ after /\ N.of_nat (length before) = b /\ N.of_nat (length (slice b e s)) = e - b /\ N.of_nat (length after) = N.of_nat (length s) - e.
Proof.
  intros L1 L2. exists (firstn (N.to_nat b) s), (skipn (N.to_nat (e - b)) (skipn (N.to_nat b) s)). unfold slice.
  rewrite firstn_skipn, firstn_skipn. split; [reflexivity|]. rewrite !firstn_length, !skipn_length. lia.
Qed.
Theorem C67_written_is_configured :
  forall (cs : N) (H : bytes -> bytes) uri_query glob (assets : list asset) (configs : list asset_config) f k x,
  0 < cs -> written cs H uri_query glob assets configs f k x -> configured cs H uri_query glob assets configs f k x.
Proof.
  intros cs H uq glob assets configs f k x CS [w|w].
  - destruct w as [cfgs a c enc f k x N V w|from to kind x I E].
    + destruct w as [u x U E|fb x I E].
      * eapply ConfiguredStatic; [exact N|exact V|exact U|]. exact (prepare_static_whole cs H uq (aliased a u) _ _ _ _ E).
      * eapply ConfiguredFallback; [exact N|exact V|exact I|]. exact (prepare_fallback_spec cs H uq a _ _ _ _ _ E).
    + eapply ConfiguredRedirect; [exact I|]. exact (prepare_redirect_spec H uq from to kind x E).
  - destruct w as [cfgs a c enc f k x N V w]. destruct w as [u i x U L1 L2 E].
    apply (prepare_static_chunk cs H uq (aliased a u) _ _ _ _ _ CS L2) in E. change (as_content (aliased a u)) with (as_content a) in E. change (as_url (aliased a u)) with u in E.
    destruct (slice_split (i * cs) (chunk_end cs (as_content a) (i * cs)) (as_content a)) as (before & after & D & LB & LS & LA); [unfold chunk_end; lia|unfold chunk_end; lia|].
    eapply ConfiguredChunk; [exact N|exact V|exact U|exact D|exact LB| |exact L1|].
    + rewrite LS. unfold chunk_end in *. destruct (N.le_gt_cases (i * cs + cs) (N.of_nat (length (as_content a)))); [left; lia|right].
      split; [destruct after; [reflexivity|cbn in LA; lia]|lia].
    + replace (i * cs + N.of_nat (length (slice (i * cs) (chunk_end cs (as_content a) (i * cs)) (as_content a)))) with (chunk_end cs (as_content a) (i * cs)); [exact E|].
      rewrite LS. unfold chunk_end. lia.
Qed.
Print Assumptions C67_written_is_configured.

(** ** C68: the iteration order of the asset map *)
Theorem C68_order_does_not_matter_partial :
  forall (cs : N) (H : bytes -> bytes) uri_query glob (st : router) order order' (assets : list asset) (configs : list asset_config),
  0 < cs -> reachable cs H uri_query glob st -> (forall l, Permutation (order l) l) -> (forall l, Permutation (order' l) l) ->
  valid_input uri_query glob assets configs ->
  (* no place is written twice with different responses *)
  (forall f k x y, written cs H uri_query glob assets configs f k x -> written cs H uri_query glob assets configs f k y -> x = y) ->
  (* nor does an entry lie inside another *)
  (forall f k x f' k' y, written cs H uri_query glob assets configs f k x -> written cs H uri_query glob assets configs f' k' y ->
     is_prefix (entry_tree_path (ca_entry x)) (entry_tree_path (ca_entry y)) -> entry_tree_path (ca_entry x) = entry_tree_path (ca_entry y)) ->
  (forall f k x en, written cs H uri_query glob assets configs f k x -> certifies st en ->
     overlapping (entry_tree_path (ca_entry x)) (entry_tree_path en) -> entry_tree_path (ca_entry x) = entry_tree_path en) ->
  exists s s',
  certify_assets cs H uri_query glob order assets configs st = (s, OOk tt) /\ certify_assets cs H uri_query glob order' assets configs st = (s', OOk tt) /\
  (forall f k x, stored s f k x <-> stored s' f k x) /\ (forall en, certifies s en <-> certifies s' en).
Proof.
  intros cs H uq glob st order order' assets configs CS R O O' V FUN NP NS.
  destruct (C67_valid_calls_succeed cs H uq glob st order assets configs CS R O V) as [E _]. destruct (C67_valid_calls_succeed cs H uq glob st order' assets configs CS R O' V) as [E' _].
  destruct (certify_assets cs H uq glob order assets configs st) as [s o] eqn:Q. destruct (certify_assets cs H uq glob order' assets configs st) as [s' o'] eqn:Q'.
  cbn [snd] in E, E'. subst o o'. exists s, s'. split; [reflexivity|]. split; [reflexivity|].
  assert (Half : forall order order' s s', (forall l, Permutation (order l) l) -> (forall l, Permutation (order' l) l) ->
     certify_assets cs H uq glob order assets configs st = (s, OOk tt) -> certify_assets cs H uq glob order' assets configs st = (s', OOk tt) ->
     (forall f k x, stored s f k x -> stored s' f k x) /\ (forall en, certifies s en -> certifies s' en)).
  { clear - CS R FUN NP NS. intros order order' s s' O O' Q Q'.
    destruct (C67_certify_stores_and_certifies cs H uq glob st s order assets configs CS R O Q) as (A1 & A2 & A3 & A4 & A5 & A6).
    destruct (C67_certify_stores_and_certifies cs H uq glob st s' order' assets configs CS R O' Q') as (B1 & B2 & B3 & B4 & B5 & B6).
    assert (NO : forall f k x, written cs H uq glob assets configs f k x -> forall f' k' x', written cs H uq glob assets configs f' k' x' ->
        overlapping (entry_tree_path (ca_entry x')) (entry_tree_path (ca_entry x)) -> entry_tree_path (ca_entry x') = entry_tree_path (ca_entry x)).
    { intros f k x w f' k' x' w' [P|P]; [exact (NP _ _ _ _ _ _ w' w P)|symmetry; exact (NP _ _ _ _ _ _ w w' P)]. }
    assert (Wr : forall f k x, stored s f k x -> written cs H uq glob assets configs f k x -> stored s' f k x).
    { intros f k x X w. destruct (B1 f k x w) as (y & wy & Y). rewrite (FUN _ _ _ _ w wy). exact Y. }
    split.
    - intros f k x X. destruct (A2 f k x X) as [w|Y]; [exact (Wr f k x X w)|]. destruct (B3 f k x Y) as [Z|(y & w)]; [exact Z|].
      destruct (A1 f k y w) as (z & wz & Z). unfold stored in X, Z. rewrite X in Z. injection Z as <-. exact (Wr f k x X wz).
    - intros en X. destruct (A5 en X) as [Y|(f & k & x & w & P)].
      + apply B6; [exact Y|]. intros f k x w OV. exact (NS f k x en w Y OV).
      + unfold certifies. rewrite <- P. exact (B4 f k x w (NO f k x w)). }
  split.
  - intros f k x. split; [apply (Half order order' s s' O O' Q Q')|apply (Half order' order s' s O' O Q' Q)].
  - intro en. split; [apply (Half order order' s s' O O' Q Q')|apply (Half order' order s' s O' O Q' Q)].
Qed.
Print Assumptions C68_order_does_not_matter_partial.
(** Two assets with the same url: which one is served depends on the order. *)
Definition no_glob (p : bytes) : option (bytes -> bool) := None.
Definition two_assets : list asset := [asset_new (bs "a") (bs "one"); asset_new (bs "/a") (bs "two")].
Definition served_body (st : router) (u : bytes) : option bytes := option_map (fun c => rs_body (ca_response c)) (m_get key_eqb (mk_key u None None) (r_responses st)).
Theorem C68_order_matters_refuted :
  exists (assets : list asset) (order order' : list asset -> list asset) (s s' : router),
  (forall l, Permutation (order l) l) /\ (forall l, Permutation (order' l) l) /\
  certify_assets asset_chunk_size toy ex_query no_glob order assets [] router_new = (s, OOk tt) /\
  certify_assets asset_chunk_size toy ex_query no_glob order' assets [] router_new = (s', OOk tt) /\
  served_body s (bs "/a") <> served_body s' (bs "/a").
Proof.
  exists two_assets, (fun l => l), (@rev asset).
  destruct (certify_assets asset_chunk_size toy ex_query no_glob (fun l => l) two_assets [] router_new) as [s o] eqn:E.
  destruct (certify_assets asset_chunk_size toy ex_query no_glob (@rev asset) two_assets [] router_new) as [s' o'] eqn:E'. exists s, s'.
  split; [intro l; apply Permutation_refl|]. split; [intro l; apply Permutation_sym, Permutation_rev|].
  assert (A : o = OOk tt /\ served_body s (bs "/a") = Some (bs "one")).
  { replace s with (fst (s, o)) by reflexivity. replace o with (snd (s, o)) at 1 by reflexivity. rewrite <- E. vm_compute. split; reflexivity. }
  assert (B : o' = OOk tt /\ served_body s' (bs "/a") = Some (bs "two")).
  { replace s' with (fst (s', o')) by reflexivity. replace o' with (snd (s', o')) at 1 by reflexivity. rewrite <- E'. vm_compute. split; reflexivity. }
  destruct A as [-> A]. destruct B as [-> B]. split; [reflexivity|]. split; [reflexivity|]. rewrite A, B. vm_compute. intro Z; discriminate Z.
Qed.
Print Assumptions C68_order_matters_refuted.
