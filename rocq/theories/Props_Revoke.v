(** C57, C58: what deleting and re-certifying revoke. *)
(** Concrete data that meets the hypotheses of these theorems: Props_RouterEx.v. *)
From Coq Require Import List Arith NArith Lia Bool Permutation.
From Verif Require Import Bytes Sha256 Text HashTree HashTreeSpec RbTree Nested NestedSpec NestedProofs Cbor HttpTypes HttpHash HttpSpec Cel V2 Wildcard Verify VerifySpec HeaderSpec HttpTree HttpTreeSpec
  Props_Hash Props_Verify Props_HttpTree AssetRouter RangeSpec Props_Range AssetSpec AssetProofs AssetEffect PreparedProofs Props_Router.
Import ListNotations.
Local Open Scope N_scope.

Lemma variant_valid uq glob assets configs cfgs a c enc : valid_input uq glob assets configs -> normalize_all glob configs = Some cfgs -> variant assets cfgs a c enc ->
  no_header (bs "IC-CertificateExpression") (headers_of c) /\ Forall (parses uq) (aliases_of c) /\ parses uq (as_url a).
Proof.
  intros [VA VC] N V. destruct (valid_normalize uq glob configs VC) as (cfgs' & N' & F). assert (cfgs' = cfgs) by congruence. subst cfgs'.
  assert (P : forall a, last_asset assets a -> parses uq (as_url a)).
  { intros b (l & r & -> & _). rewrite Forall_forall in VA. apply VA. apply in_or_app. right. left. reflexivity. }
  inversion V as [b c' L FC|b c' e suffix ea L FC I LE PE]; subst; destruct (valid_first uq cfgs _ _ F FC) as [A B]; (split; [exact A|]; split; [exact B|]); apply (P _ L).
Qed.

(** ** C57 *)
(** A successful delete_assets takes every whole response of the given assets, and every redirect,
    out of the tree and the router, forgets their chunks, and touches nothing else. *)
Theorem C57_delete_removes_whole_responses_partial :
  forall (cs : N) (H : bytes -> bytes) uri_query glob (st : router) order (assets : list asset) (configs : list asset_config),
  0 < cs -> reachable cs H uri_query glob st -> (forall l, Permutation (order l) l) -> valid_input uri_query glob assets configs ->
  exists st', delete_assets cs H uri_query glob order assets configs st = (st', OOk tt) /\
  (forall f k x, whole_written cs H uri_query glob assets configs f k x -> ~ certifies st' (ca_entry x)) /\
  (forall f k x y, written cs H uri_query glob assets configs f k x -> ~ stored st' f k y) /\
  (forall en, certifies st' en -> certifies st en) /\
  (forall f k y, stored st' f k y -> stored st f k y) /\
  (forall en, certifies st en -> (forall f k x, whole_written cs H uri_query glob assets configs f k x -> ~ is_prefix (entry_tree_path (ca_entry x)) (entry_tree_path en)) -> certifies st' en) /\
  (forall f k y, stored st f k y -> (forall x, ~ written cs H uri_query glob assets configs f k x) -> stored st' f k y).
Proof.
  intros cs H uq glob st order assets configs CS R O V. assert (K := reachable_tok _ _ _ _ _ CS R).
  destruct (C67_valid_calls_succeed cs H uq glob st order assets configs CS R O V) as [_ OK].
  destruct (delete_assets cs H uq glob order assets configs st) as [st' o] eqn:E. cbn [snd] in OK. subst o. exists st'. split; [reflexivity|].
  destruct (delete_assets_sound cs H uq glob CS order assets configs O st K) as [S _]. rewrite E in S. cbn [fst] in S.
  set (W := whole_written cs H uq glob assets configs) in *. set (F := call_chunk_key cs glob assets configs) in *.
  assert (NP : forall f k (x : certified), ~ nothing f k x) by (intros f k x []).
  assert (Gone : forall s1 s2 f k, steps H nothing W F False s1 s2 -> at_place s1 f k = None -> at_place s2 f k = None).
  { intros s1 s2 f k Ss X. eapply steps_gone; [apply NP|exact Ss|exact X]. }
  split; [|split; [|split; [|split; [|split]]]].
  - intros f k x w. destruct (delete_assets_passes cs H uq glob CS order assets configs f k x O w st st' K E) as (s1 & s2 & A & (t & I & ->) & B).
    assert (K1 := steps_tok _ _ _ _ _ _ _ A K). unfold certifies.
    assert (K2 : tok H (drop f k t s1)) by (exact (step_tok H nothing W F False s1 _ (SDrop H nothing W F False f k x s1 t w I) K1)).
    intro X. apply (steps_entry_gone H nothing W F _ _ (ep x)) in B; [unfold ep in B; congruence|intros f' k' x' []|exact K2|].
    rewrite tree_drop, (get_del H s1 x t K1 I). assert (P : pprefix (ep x) (ep x) = true) by (apply pprefix_spec; exists []; symmetry; apply app_nil_r). rewrite P. reflexivity.
  - intros f k x y [w|w] X; rewrite stored_at in X.
    + destruct (delete_assets_passes cs H uq glob CS order assets configs f k x O w st st' K E) as (s1 & s2 & A & (t & I & ->) & B).
      rewrite (Gone _ _ f k B) in X; [discriminate|]. rewrite at_drop, (proj2 (same_place_spec f k f k) (conj eq_refl eq_refl)). reflexivity.
    + destruct w as [cfgs a c enc f k x N Va w]. destruct w as [u i x U L1 L2 Ex].
      assert (CK : F (mk_key u (encoding_str enc) (Some (i * cs)))) by (exists cfgs, a, c, enc; split; [exact N|]; split; [exact Va|]; exists u, i; auto).
      destruct (delete_assets_forgets cs H uq glob CS order assets configs _ O CK st st' K E) as (s1 & s2 & A & -> & B).
      rewrite (Gone _ _ _ _ B) in X; [discriminate|]. rewrite at_drop, (proj2 (same_place_spec false (mk_key u (encoding_str enc) (Some (i * cs))) false (mk_key u (encoding_str enc) (Some (i * cs)))) (conj eq_refl eq_refl)). reflexivity.
  - intros en X. destruct (steps_certified H _ _ _ _ _ _ _ _ S K X) as [(_ & f & k & x & [] & _)|Y]. exact Y.
  - intros f k y X. destruct (steps_stored H _ _ _ _ _ _ _ _ _ S X) as [[]|Y]. exact Y.
  - intros en X NO. apply (steps_entry_kept H nothing W F _ _ (entry_tree_path en) []) in S; [exact S|intros f k x []|exact NO|exact K|exact X].
  - intros f k y X NO. eapply steps_place_untouched; [apply NP| | |exact S|exact X].
    + intros x w. apply (NO x). left. exact w.
    + intros -> (cfgs & a & c & enc & N & Va & (u & i & U & L1 & L2 & Q)).
      destruct (variant_valid uq glob assets configs cfgs a c enc V N Va) as (NE & AL & PU).
      assert (PP : parses uq u) by (destruct U as [->|U]; [exact PU|rewrite Forall_forall in AL; exact (AL u U)]). destruct PP as (q & PP).
      destruct (prepare_static_ok cs H uq (aliased a u) (content_type_of c) (headers_of c) enc (Some (i * cs)) q NE PP) as (x & Ex).
      apply (NO x). right. subst k. eapply WrittenChunk; [exact N|exact Va|]. apply ChunkStatic; assumption.
Qed.
Print Assumptions C57_delete_removes_whole_responses_partial.
(** So for assets up to the chunk size the deletion is complete. *)
Theorem C57_small_assets_are_revoked :
  forall (cs : N) (H : bytes -> bytes) uri_query glob (st st' : router) order (assets : list asset) (configs : list asset_config),
  0 < cs -> reachable cs H uri_query glob st -> (forall l, Permutation (order l) l) -> valid_input uri_query glob assets configs ->
  Forall (fun a => N.of_nat (length (as_content a)) <= cs) assets ->
  delete_assets cs H uri_query glob order assets configs st = (st', OOk tt) ->
  forall f k x y, written cs H uri_query glob assets configs f k x -> ~ certifies st' (ca_entry x) /\ ~ stored st' f k y.
Proof.
  intros cs H uq glob st st' order assets configs CS R O V Small E f k x y w.
  destruct (C57_delete_removes_whole_responses_partial cs H uq glob st order assets configs CS R O V) as (s & E' & A & B & _).
  rewrite E in E'. injection E' as <-. split; [|exact (B f k x y w)]. destruct w as [w|w]; [exact (A f k x w)|exfalso].
  destruct w as [cfgs a c enc f k x N Va w]. destruct w as [u i x U L1 L2 Ex]. rewrite Forall_forall in Small.
  inversion Va as [b c' L FC|b c' e suffix ea L FC I LE PE]; subst.
  - destruct L as (l & r & -> & _). specialize (Small a ltac:(apply in_or_app; right; left; reflexivity)). cbn beta in Small. lia.
  - destruct LE as (l & r & -> & _). specialize (Small ea ltac:(apply in_or_app; right; left; reflexivity)). cbn beta in Small. change (as_content (aliased ea (as_url b))) with (as_content ea) in L1. lia.
Qed.
Print Assumptions C57_small_assets_are_revoked.
Theorem C57_delete_all_revokes_everything :
  forall (st st' : router) (o : out unit) (en : entry) f k y, delete_all_assets st = (st', o) -> o = OOk tt /\ ~ certifies st' en /\ ~ stored st' f k y.
Proof.
  intros st st' o en f k y E. injection E as <- <-. split; [reflexivity|]. split.
  - unfold certifies. cbn [r_tree]. destruct (entry_tree_path en); intro Z; discriminate Z.
  - unfold stored. destruct f; intro Z; discriminate Z.
Qed.
Print Assumptions C57_delete_all_revokes_everything.

(** For every asset longer than the chunk size, the chunks stay certified after
    certify_assets and delete_assets of it both succeeded. *)
Lemma self_variant a : variant [a] [] a None None.
Proof. apply VariantSelf; [exists [], []; split; [reflexivity|intros b []]|intros y []]. Qed.
Lemma single_variant a a' c enc : variant [a] [] a' c enc -> a' = a /\ c = None /\ enc = None.
Proof.
  intro V. assert (N : forall b c', first_config [] b c' -> c' = None) by (intros b [x|] FC; [destruct FC as (l & r & E & _); destruct l; discriminate E|reflexivity]).
  inversion V as [b c' L FC|b c' e suffix ea L FC I LE PE]; subst.
  - destruct L as (l & r & E & _). rewrite (N _ _ FC). split; [|auto]. destruct l as [|z l]; [injection E as -> _; reflexivity|]. destruct l; discriminate E.
  - rewrite (N _ _ FC) in I. destruct I.
Qed.
Definition plain_expr : bytes := print_cel (get_expression []).
Definition range_expr : bytes := print_cel (get_expression [bs "range"]).
Theorem C57_chunks_stay_certified_refuted :
  forall (cs : N) (H : bytes -> bytes) uri_query glob (st : router) order (a : asset),
  0 < cs -> reachable cs H uri_query glob st -> (forall l, Permutation (order l) l) -> parses uri_query (as_url a) ->
  cs < N.of_nat (length (as_content a)) ->
  exists st1 st2,
  certify_assets cs H uri_query glob order [a] [] st = (st1, OOk tt) /\ delete_assets cs H uri_query glob order [a] [] st1 = (st2, OOk tt) /\
  forall i, i * cs < N.of_nat (length (as_content a)) ->
  exists x, chunk_written cs H uri_query glob [a] [] false (mk_key (as_url a) None (Some (i * cs))) x /\
    (certifies st2 (ca_entry x) \/ (range_expr <> plain_expr /\ H range_expr = H plain_expr)).
Proof.
  intros cs H uq glob st order a CS R O PU Big.
  assert (V : valid_input uq glob [a] []) by (split; [constructor; [exact PU|constructor]|constructor]).
  destruct (C67_valid_calls_succeed cs H uq glob st order [a] [] CS R O V) as [OK _].
  destruct (certify_assets cs H uq glob order [a] [] st) as [st1 o] eqn:E1. cbn [snd] in OK. subst o.
  assert (R1 : reachable cs H uq glob st1).
  { replace st1 with (fst (run_call cs H uq glob (CallCertify order [a] []) st)) by (cbn [run_call]; rewrite E1; reflexivity). apply ReachCall; [exact R|exact O]. }
  destruct (C57_delete_removes_whole_responses_partial cs H uq glob st1 order [a] [] CS R1 O V) as (st2 & E2 & _ & _ & _ & _ & Keep & _).
  exists st1, st2. split; [reflexivity|]. split; [exact E2|]. intros i L.
  destruct PU as (q & PU). destruct (prepare_static_ok cs H uq a None [] None (Some (i * cs)) q (Forall_nil _) PU) as (x & Ex).
  assert (CW : chunk_written cs H uq glob [a] [] false (mk_key (as_url a) None (Some (i * cs))) x).
  { eapply WrittenChunk; [reflexivity|apply self_variant|]. apply (ChunkStatic cs H uq a None None (as_url a) i x); [left; reflexivity|exact Big|exact L|].
    rewrite aliased_self. exact Ex. }
  exists x. split; [exact CW|].
  assert (NE : range_expr <> plain_expr) by (vm_compute; intro Z; discriminate Z).
  destruct (bytes_eq_dec (H range_expr) (H plain_expr)) as [C|C]; [right; auto|left].
  (* all entries of the call have the same number of labels *)
  assert (Shape : forall f k y, written cs H uq glob [a] [] f k y -> exists e r s, ep y = path_tree_path (PExact (as_url a)) ++ [e; r; s]).
  { intros f k y w. apply C67_written_is_configured in w; [|exact CS].
    destruct w as [cfgs b c enc u y N Va U P|cfgs b c enc u j before body after y N Va U D LB LS LL P|cfgs b c enc fb y N Va I P|from to kind y I P]; [| | |destruct I];
      injection N as <-; destruct (single_variant _ _ _ _ Va) as (-> & -> & ->).
    - destruct U as [->|[]]. destruct (prepared_path _ _ _ _ _ _ _ _ _ _ _ _ P) as (r & Q & _). eexists _, _, _. exact Q.
    - destruct U as [->|[]]. destruct (prepared_path _ _ _ _ _ _ _ _ _ _ _ _ P) as (r & Q & _). eexists _, _, _. exact Q.
    - destruct I. }
  destruct (C67_certify_stores_and_certifies cs H uq glob st st1 order [a] [] CS R O E1) as (_ & _ & _ & Cert & _).
  apply Keep.
  - apply (Cert false (mk_key (as_url a) None (Some (i * cs))) x); [right; exact CW|]. intros f' k' x' w' OV.
    apply C69_unrelated_unless_equal; [|exact OV]. destruct (Shape _ _ _ w') as (e & r & s & S1). destruct (Shape _ _ _ (or_intror CW)) as (e' & r' & s' & S2).
    unfold ep in *. rewrite S1, S2, !app_length. reflexivity.
  - intros f k y w P. assert (X : ep y = ep x).
    { apply C69_unrelated_unless_equal; [|left; exact P]. destruct (Shape _ _ _ (or_introl w)) as (e & r & s & S1). destruct (Shape _ _ _ (or_intror CW)) as (e' & r' & s' & S2).
      rewrite S1, S2, !app_length. reflexivity. }
    destruct w as [cfgs b c enc f k y N Va w|from to kind y I Ey]; [|destruct I]. injection N as <-. destruct (single_variant _ _ _ _ Va) as (-> & -> & ->).
    destruct w as [u y [->|[]] Ey|fb y [] Ey]. rewrite aliased_self in Ey.
    apply prepare_static_whole in Ey. apply prepare_static_chunk in Ex; [|exact CS|exact L].
    destruct (prepared_path _ _ _ _ _ _ _ _ _ _ _ _ Ey) as (r1 & P1 & _). destruct (prepared_path _ _ _ _ _ _ _ _ _ _ _ _ Ex) as (r2 & P2 & _).
    unfold ep in X. rewrite P1, P2 in X. apply app_inv_head in X. injection X as X _ _. apply C. symmetry. exact X.
Qed.
Print Assumptions C57_chunks_stay_certified_refuted.
Theorem C57_exprs_do_not_collide : sha256 range_expr <> sha256 plain_expr.
Proof. vm_compute. intro Z; discriminate Z. Qed.
Print Assumptions C57_exprs_do_not_collide.

(** ** C58 *)
(** certify_assets never takes an entry out of the tree, unless one of its own lies
    inside it or it inside one of its own. *)
Theorem C58_certify_never_revokes_refuted :
  forall (cs : N) (H : bytes -> bytes) uri_query glob (st st' : router) order (assets : list asset) (configs : list asset_config) (en : entry),
  0 < cs -> reachable cs H uri_query glob st -> (forall l, Permutation (order l) l) ->
  certify_assets cs H uri_query glob order assets configs st = (st', OOk tt) -> certifies st en ->
  (forall f k x, written cs H uri_query glob assets configs f k x -> ~ (overlapping (entry_tree_path (ca_entry x)) (entry_tree_path en) /\ entry_tree_path (ca_entry x) <> entry_tree_path en)) ->
  certifies st' en.
Proof.
  intros cs H uq glob st st' order assets configs en CS R O E X NO.
  destruct (C67_certify_stores_and_certifies cs H uq glob st st' order assets configs CS R O E) as (_ & _ & _ & _ & _ & A). apply A; [exact X|].
  intros f k x w OV. destruct (list_eq_dec bytes_eq_dec (entry_tree_path (ca_entry x)) (entry_tree_path en)) as [Q|Q]; [exact Q|]. exfalso. exact (NO f k x w (conj OV Q)).
Qed.
Print Assumptions C58_certify_never_revokes_refuted.
(** In particular: certify an asset, then the same path with any other content.  The new content is the one
    stored, and the old content is still certified. *)
Theorem C58_old_content_stays_certified_refuted :
  forall (cs : N) (H : bytes -> bytes) uri_query glob (st : router) order (path old new : bytes),
  0 < cs -> reachable cs H uri_query glob st -> (forall l, Permutation (order l) l) -> parses uri_query (path_to_url path) ->
  exists st1 st2 x y,
  certify_assets cs H uri_query glob order [asset_new path old] [] st = (st1, OOk tt) /\
  certify_assets cs H uri_query glob order [asset_new path new] [] st1 = (st2, OOk tt) /\
  rs_body (ca_response x) = old /\ rs_status (ca_response x) = 200 /\ en_path (ca_entry x) = PExact (path_to_url path) /\ certifies st2 (ca_entry x) /\
  rs_body (ca_response y) = new /\ stored st2 false (mk_key (path_to_url path) None None) y.
Proof.
  intros cs H uq glob st order path old new CS R O PU.
  assert (V : forall v, valid_input uq glob [asset_new path v] []) by (intro v; split; [constructor; [exact PU|constructor]|constructor]).
  destruct (C67_valid_calls_succeed cs H uq glob st order [asset_new path old] [] CS R O (V old)) as [OK _].
  destruct (certify_assets cs H uq glob order [asset_new path old] [] st) as [st1 o] eqn:E1. cbn [snd] in OK. subst o.
  assert (R1 : reachable cs H uq glob st1).
  { replace st1 with (fst (run_call cs H uq glob (CallCertify order [asset_new path old] []) st)) by (cbn [run_call]; rewrite E1; reflexivity). apply ReachCall; [exact R|exact O]. }
  destruct (C67_valid_calls_succeed cs H uq glob st1 order [asset_new path new] [] CS R1 O (V new)) as [OK _].
  destruct (certify_assets cs H uq glob order [asset_new path new] [] st1) as [st2 o] eqn:E2. cbn [snd] in OK. subst o.
  destruct PU as (q & PU).
  destruct (prepare_static_ok cs H uq (asset_new path old) None [] None None q (Forall_nil _) PU) as (x & Ex).
  destruct (prepare_static_ok cs H uq (asset_new path new) None [] None None q (Forall_nil _) PU) as (y & Ey).
  assert (Wr : forall v z, prepare_static cs H uq (asset_new path v) None [] None None = Some z -> whole_written cs H uq glob [asset_new path v] [] false (mk_key (path_to_url path) None None) z).
  { intros v z Ez. eapply WrittenWhole; [reflexivity|apply self_variant|]. apply (WholeStatic cs H uq (asset_new path v) None None (path_to_url path) z); [left; reflexivity|]. exact Ez. }
  assert (Shape : forall v f k z, written cs H uq glob [asset_new path v] [] f k z -> f = false /\ k_path k = path_to_url path /\ exists e r s, ep z = path_tree_path (PExact (path_to_url path)) ++ [e; r; s]).
  { intros v f k z w. apply C67_written_is_configured in w; [|exact CS].
    destruct w as [cfgs b c enc u z N Va U P|cfgs b c enc u j before body after z N Va U D LB LS LL P|cfgs b c enc fb z N Va I P|from to kind z I P]; [| | |destruct I];
      injection N as <-; destruct (single_variant _ _ _ _ Va) as (-> & -> & ->).
    - destruct U as [->|[]]. destruct (prepared_path _ _ _ _ _ _ _ _ _ _ _ _ P) as (r & Q & _). split; [reflexivity|]. split; [reflexivity|]. eexists _, _, _. exact Q.
    - destruct U as [->|[]]. destruct (prepared_path _ _ _ _ _ _ _ _ _ _ _ _ P) as (r & Q & _). split; [reflexivity|]. split; [reflexivity|]. eexists _, _, _. exact Q.
    - destruct I. }
  assert (EqP : forall v v' f k z f' k' z', written cs H uq glob [asset_new path v] [] f k z -> written cs H uq glob [asset_new path v'] [] f' k' z' ->
     overlapping (entry_tree_path (ca_entry z)) (entry_tree_path (ca_entry z')) -> entry_tree_path (ca_entry z) = entry_tree_path (ca_entry z')).
  { intros v v' f k z f' k' z' w w' OV. apply C69_unrelated_unless_equal; [|exact OV].
    destruct (Shape _ _ _ _ w) as (_ & _ & e & r & s & S1). destruct (Shape _ _ _ _ w') as (_ & _ & e' & r' & s' & S2). unfold ep in *. rewrite S1, S2, !app_length. reflexivity. }
  destruct (C67_certify_stores_and_certifies cs H uq glob st st1 order _ _ CS R O E1) as (_ & _ & _ & Cert & _).
  destruct (C67_certify_stores_and_certifies cs H uq glob st1 st2 order _ _ CS R1 O E2) as (St & _ & _ & _ & _ & Keep).
  exists st1, st2, x, y. split; [reflexivity|]. split; [exact E2|].
  assert (Px := prepare_static_whole _ _ _ _ _ _ _ _ Ex). assert (Py := prepare_static_whole _ _ _ _ _ _ _ _ Ey).
  destruct Px as (Bx & PX & _). destruct Py as (By & _). rewrite Bx, By. split; [reflexivity|]. split; [reflexivity|]. split; [exact PX|]. split; [|split; [reflexivity|]].
  - apply Keep.
    + apply (Cert _ _ x (or_introl (Wr old x Ex))). intros f' k' x' w' OV. exact (EqP _ _ _ _ _ _ _ _ w' (or_introl (Wr old x Ex)) OV).
    + intros f k z w OV. exact (EqP _ _ _ _ _ _ _ _ w (or_introl (Wr old x Ex)) OV).
  - destruct (St false (mk_key (path_to_url path) None None) y (or_introl (Wr new y Ey))) as (z & wz & Sz).
    (* the only write at this place is y *)
    cut (z = y); [intros <-; exact Sz|]. clear Sz. remember (mk_key (path_to_url path) None None) as k eqn:Ek. destruct wz as [wz|wz].
    + destruct wz as [cfgs b c enc f k z N Va w|from to kind z I Ez]; [|destruct I]. injection N as <-. destruct (single_variant _ _ _ _ Va) as (-> & -> & ->).
      destruct w as [u z [->|[]] Ez|fb z [] Ez]. rewrite aliased_self in Ez. cbn in Ez, Ey. congruence.
    + destruct wz as [cfgs b c enc f k z N Va w]. destruct w as [u i z U L1 L2 Ez]. discriminate Ek.
Qed.
Print Assumptions C58_old_content_stays_certified_refuted.
