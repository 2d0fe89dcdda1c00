(** C154: calls that ask for what is already so. *)
From Coq Require Import List Arith NArith Lia Bool Permutation.
From Verif Require Import Bytes Toy Text HashTree HashTreeSpec RbTree Nested NestedSpec NestedProofs Cbor HttpTypes HttpHash HttpSpec Cel V2 Wildcard Verify VerifySpec HeaderSpec HttpTree HttpTreeSpec
  Props_Idempotent Props_Hash Props_Verify Props_HttpTree AssetRouter RangeSpec Props_Range AssetSpec AssetProofs AssetEffect PreparedProofs Props_Router Props_Backed Props_Revoke ServeSpec Props_Serve Props_Encoding Props_Chunks Props_Accept Props_Only Props_Trip Props_Roundtrip Props_RouterEx.
Import ListNotations.
Local Open Scope N_scope.

(** ** Specification *)
(** From outside, two routers are the same: the root hash (indeed the whole tree) and every answer. *)
Definition answers_alike (H : bytes -> bytes) (a b : router) : Prop :=
  router_root_hash H a = router_root_hash H b /\ r_tree a = r_tree b /\ (forall f k x, stored a f k x <-> stored b f k x) /\
  forall (cs : N) uri_path (umod : N) sort (data_certificate : bytes) (rq : request),
    serve_asset cs H uri_path umod sort a data_certificate rq = serve_asset cs H uri_path umod sort b data_certificate rq.

(** ** Answers depend on the tree and on what is stored only *)
Section Alike.
  Variables (m m' : store).
  Hypothesis E : forall k, m_get key_eqb k m = m_get key_eqb k m'.
  Lemma encoded_alike cs l url range : get_encoded_asset cs m l url range = get_encoded_asset cs m' l url range.
  Proof. induction l as [|e l IH]; cbn [get_encoded_asset]; [reflexivity|]. rewrite E, IH. destruct (m_get key_eqb _ m'); [|reflexivity]. rewrite E. reflexivity. Qed.
  Lemma fallback_alike l scope : get_encoded_fallback m l scope = get_encoded_fallback m' l scope.
  Proof. induction l as [|e l IH]; cbn [get_encoded_fallback]; [reflexivity|]. rewrite E, IH. reflexivity. Qed.
  Lemma at_alike l scope : fallback_at m l scope = fallback_at m' l scope.
  Proof. unfold fallback_at. rewrite fallback_alike, E. reflexivity. Qed.
  Lemma loop_alike l s : fallback_loop m l s = fallback_loop m' l s.
  Proof. induction s as [|x s IH]; cbn [fallback_loop]; [reflexivity|]. rewrite !at_alike, IH. reflexivity. Qed.
End Alike.
Lemma alike H a b : r_tree a = r_tree b -> (forall f k, at_place a f k = at_place b f k) -> answers_alike H a b.
Proof.
  intros T E. split; [unfold router_root_hash; rewrite T; reflexivity|]. split; [exact T|]. split; [intros f k x; rewrite !stored_at, E; tauto|].
  intros cs up um sort dc rq. assert (E1 : forall k, m_get key_eqb k (r_responses a) = m_get key_eqb k (r_responses b)) by exact (E false).
  assert (E2 : forall k, m_get key_eqb k (r_fallbacks a) = m_get key_eqb k (r_fallbacks b)) by exact (E true).
  assert (G : forall p l r, get_asset_for_request cs a p l r = get_asset_for_request cs b p l r).
  { intros p l r. unfold get_asset_for_request. rewrite (encoded_alike _ _ E1), E1, E1, (loop_alike _ _ E2). reflexivity. }
  unfold serve_asset. destruct (get_path up rq); cbn [out_bind]; try reflexivity. destruct (maybe_get_range_begin um rq); cbn [out_bind]; try reflexivity.
  rewrite G, T. reflexivity.
Qed.

(** ** Steps without effect *)
Section Noop.
  Variable (H : bytes -> bytes).
  Lemma puts_noop (P D : write) (F : key -> Prop) a b : steps H P D F False a b -> (forall f k x, ~ D f k x) -> (forall k, ~ F k) -> tok H a ->
    (forall f k x, P f k x -> at_place a f k = Some x /\ nget (ep x) (r_tree a) = Some []) ->
    r_tree b = r_tree a /\ forall f k, at_place b f k = at_place a f k.
  Proof.
    induction 1 as [st|a b c S _ IH]; intros ND NF K X; [auto|]. inversion S as [f k x st t p I|f k x st t d I|k st f|st []]; subst; [|destruct (ND _ _ _ d)|destruct (NF _ f)].
    destruct (X f k x p) as [AP G]. rewrite (ninsert_noop H (entry_tree_path (ca_entry x)) [] (r_tree a) (proj1 K) G) in I. injection I as <-.
    assert (R : r_tree (put f k x (r_tree a) a) = r_tree a) by apply tree_put.
    assert (Q : forall f' k', at_place (put f k x (r_tree a) a) f' k' = at_place a f' k').
    { intros f' k'. rewrite at_put. destruct (same_place f k f' k') eqn:Z; [|reflexivity]. apply same_place_spec in Z. destruct Z as [-> ->]. symmetry. exact AP. }
    destruct (IH ND NF) as [A B].
    - exact (step_tok H P D F False a _ S K).
    - intros f' k' x' p'. rewrite R, Q. apply X. exact p'.
    - rewrite A, R. split; [reflexivity|]. intros f' k'. rewrite B. apply Q.
  Qed.
  Lemma drops_noop (P D : write) (F : key -> Prop) a b : steps H P D F False a b -> (forall f k x, ~ P f k x) -> tok H a ->
    (forall f k x, D f k x -> at_place a f k = None /\ forall q, nget (ep x ++ q) (r_tree a) = None) -> (forall k, F k -> at_place a false k = None) ->
    r_tree b = r_tree a /\ forall f k, at_place b f k = at_place a f k.
  Proof.
    induction 1 as [st|a b c S _ IH]; intros NP K X Y; [auto|]. inversion S as [f k x st t p I|f k x st t d I|k st f|st []]; subst; [destruct (NP _ _ _ p)| |].
    - destruct (X f k x d) as [AP G]. rewrite (ndelete_noop H (entry_tree_path (ca_entry x)) (r_tree a) (proj1 K) (proj2 K) G) in I. injection I as <-.
      assert (R : r_tree (drop f k (r_tree a) a) = r_tree a) by apply tree_drop.
      assert (Q : forall f' k', at_place (drop f k (r_tree a) a) f' k' = at_place a f' k').
      { intros f' k'. rewrite at_drop. destruct (same_place f k f' k') eqn:Z; [|reflexivity]. apply same_place_spec in Z. destruct Z as [-> ->]. symmetry. exact AP. }
      destruct (IH NP) as [A B].
      + exact (step_tok H P D F False a _ S K).
      + intros f' k' x' p'. rewrite R, Q. apply (X f' k' x' p').
      + intros k' p'. rewrite Q. apply Y. exact p'.
      + rewrite A, R. split; [reflexivity|]. intros f' k'. rewrite B. apply Q.
    - assert (R : r_tree (drop false k (r_tree a) a) = r_tree a) by apply tree_drop.
      assert (Q : forall f' k', at_place (drop false k (r_tree a) a) f' k' = at_place a f' k').
      { intros f' k'. rewrite at_drop. destruct (same_place false k f' k') eqn:Z; [|reflexivity]. apply same_place_spec in Z. destruct Z as [<- <-]. symmetry. apply Y. exact f. }
      destruct (IH NP) as [A B].
      + exact (step_tok H P D F False a _ S K).
      + intros f' k' x' p'. rewrite R, Q. apply (X f' k' x' p').
      + intros k' p'. rewrite Q. apply Y. exact p'.
      + rewrite A, R. split; [reflexivity|]. intros f' k'. rewrite B. apply Q.
  Qed.
End Noop.

(** ** C154 *)
(** A call whose responses are all stored and certified already changes nothing. *)
Theorem C154_certifying_what_is_certified :
  forall (cs : N) (H : bytes -> bytes) uri_query glob (st : router) order (assets : list asset) (configs : list asset_config),
  0 < cs -> reachable cs H uri_query glob st -> (forall l, Permutation (order l) l) ->
  (forall f k x, written cs H uri_query glob assets configs f k x -> stored st f k x /\ certifies st (ca_entry x)) ->
  answers_alike H (fst (certify_assets cs H uri_query glob order assets configs st)) st.
Proof.
  intros cs H uq glob st order assets configs CS R O W. assert (K := reachable_tok _ _ _ _ _ CS R).
  destruct (certify_assets_sound cs H uq glob CS order assets configs O st K) as [S _].
  destruct (puts_noop H _ _ _ _ _ S (fun _ _ _ X => X) (fun _ X => X) K) as [A B]; [|exact (alike H _ _ A B)].
  intros f k x w. destruct (W f k x w) as [X Y]. rewrite stored_at in X. auto.
Qed.
Print Assumptions C154_certifying_what_is_certified.
(** In particular certifying the same assets again, whatever order their map is iterated in. *)
Theorem C154_certifying_twice :
  forall (cs : N) (H : bytes -> bytes) uri_query glob (st : router) order order' (assets : list asset) (configs : list asset_config),
  0 < cs -> reachable cs H uri_query glob st -> (forall l, Permutation (order l) l) -> (forall l, Permutation (order' l) l) ->
  valid_input uri_query glob assets configs ->
  (* one response for each place, and no entry inside another one *)
  (forall f k x y, written cs H uri_query glob assets configs f k x -> written cs H uri_query glob assets configs f k y -> x = y) ->
  (forall f k x f' k' x', written cs H uri_query glob assets configs f k x -> written cs H uri_query glob assets configs f' k' x' ->
     overlapping (entry_tree_path (ca_entry x')) (entry_tree_path (ca_entry x)) -> entry_tree_path (ca_entry x') = entry_tree_path (ca_entry x)) ->
  exists st1 st2,
  certify_assets cs H uri_query glob order assets configs st = (st1, OOk tt) /\
  certify_assets cs H uri_query glob order' assets configs st1 = (st2, OOk tt) /\
  answers_alike H st2 st1.
Proof.
  intros cs H uq glob st order order' assets configs CS R O O' V U N.
  destruct (C67_valid_calls_succeed cs H uq glob st order assets configs CS R O V) as [OK _].
  destruct (certify_assets cs H uq glob order assets configs st) as [st1 o] eqn:E1. cbn [snd] in OK. subst o.
  assert (R1 : reachable cs H uq glob st1).
  { replace st1 with (fst (run_call cs H uq glob (CallCertify order assets configs) st)) by (cbn [run_call]; rewrite E1; reflexivity). apply ReachCall; [exact R|exact O]. }
  destruct (C67_valid_calls_succeed cs H uq glob st1 order' assets configs CS R1 O' V) as [OK _].
  destruct (certify_assets cs H uq glob order' assets configs st1) as [st2 o] eqn:E2. cbn [snd] in OK. subst o.
  exists st1, st2. split; [reflexivity|]. split; [exact E2|].
  destruct (C67_certify_stores_and_certifies cs H uq glob st st1 order assets configs CS R O E1) as (A & _ & _ & B & _).
  assert (X := C154_certifying_what_is_certified cs H uq glob st1 order' assets configs CS R1 O'). rewrite E2 in X. apply X.
  intros f k x w. destruct (A f k x w) as (y & w' & Y). rewrite (U f k x y w w'). split; [exact Y|]. apply (B f k y w'). intros f' k' x' w''. exact (N f k y f' k' x' w' w'').
Qed.
Print Assumptions C154_certifying_twice.
(** Deleting what is not there changes nothing. *)
Theorem C154_deleting_what_is_not_there :
  forall (cs : N) (H : bytes -> bytes) uri_query glob (st : router) order (assets : list asset) (configs : list asset_config),
  0 < cs -> reachable cs H uri_query glob st -> (forall l, Permutation (order l) l) -> valid_input uri_query glob assets configs ->
  (forall f k x y, written cs H uri_query glob assets configs f k x -> ~ stored st f k y) ->
  (forall f k x, whole_written cs H uri_query glob assets configs f k x -> forall q, nget (entry_tree_path (ca_entry x) ++ q) (r_tree st) = None) ->
  answers_alike H (fst (delete_assets cs H uri_query glob order assets configs st)) st.
Proof.
  intros cs H uq glob st order assets configs CS R O V W G. assert (K := reachable_tok _ _ _ _ _ CS R).
  destruct (delete_assets_sound cs H uq glob CS order assets configs O st K) as [S _].
  assert (Z : forall f k, (forall y, ~ stored st f k y) -> at_place st f k = None).
  { intros f k Y. destruct (at_place st f k) as [y|] eqn:Q; [|reflexivity]. exfalso. apply (Y y). rewrite stored_at. exact Q. }
  destruct (drops_noop H _ _ _ _ _ S (fun _ _ _ X => X) K) as [A B]; [| |exact (alike H _ _ A B)].
  - intros f k x w. split; [|exact (G f k x w)]. apply Z. intro y. apply (W f k x y). left. exact w.
  - intros k (cfgs & a & c & enc & N & Va & (u & i & U & L1 & L2 & Q)). apply Z. intro y.
    destruct (variant_valid uq glob assets configs cfgs a c enc V N Va) as (NE & AL & PU).
    assert (PP : parses uq u) by (destruct U as [->|U]; [exact PU|rewrite Forall_forall in AL; exact (AL u U)]). destruct PP as (q & PP).
    destruct (prepare_static_ok cs H uq (aliased a u) (content_type_of c) (headers_of c) enc (Some (i * cs)) q NE PP) as (x & Ex).
    apply (W false k x y). right. subst k. eapply WrittenChunk; [exact N|exact Va|]. apply ChunkStatic; assumption.
Qed.
Print Assumptions C154_deleting_what_is_not_there.
Theorem C154_deleting_twice :
  forall (cs : N) (H : bytes -> bytes) uri_query glob (st : router) order order' (assets : list asset) (configs : list asset_config),
  0 < cs -> reachable cs H uri_query glob st -> (forall l, Permutation (order l) l) -> (forall l, Permutation (order' l) l) ->
  valid_input uri_query glob assets configs ->
  exists st1 st2,
  delete_assets cs H uri_query glob order assets configs st = (st1, OOk tt) /\
  delete_assets cs H uri_query glob order' assets configs st1 = (st2, OOk tt) /\
  answers_alike H st2 st1.
Proof.
  intros cs H uq glob st order order' assets configs CS R O O' V. assert (K := reachable_tok _ _ _ _ _ CS R).
  destruct (C57_delete_removes_whole_responses_partial cs H uq glob st order assets configs CS R O V) as (st1 & E1 & _ & B & _).
  assert (R1 : reachable cs H uq glob st1).
  { replace st1 with (fst (run_call cs H uq glob (CallDelete order assets configs) st)) by (cbn [run_call]; rewrite E1; reflexivity). apply ReachCall; [exact R|exact O]. }
  destruct (C67_valid_calls_succeed cs H uq glob st1 order' assets configs CS R1 O' V) as [_ OK].
  destruct (delete_assets cs H uq glob order' assets configs st1) as [st2 o] eqn:E2. cbn [snd] in OK. subst o.
  exists st1, st2. split; [exact E1|]. split; [exact E2|].
  assert (X := C154_deleting_what_is_not_there cs H uq glob st1 order' assets configs CS R1 O' V). rewrite E2 in X. apply X; [exact B|].
  intros f k x w q. destruct (delete_assets_passes cs H uq glob CS order assets configs f k x O w st st1 K E1) as (s1 & s2 & A & (t & I & ->) & Bs).
  assert (K1 := steps_tok _ _ _ _ _ _ _ A K).
  assert (K2 : tok H (drop f k t s1)) by (exact (step_tok H nothing (whole_written cs H uq glob assets configs) (call_chunk_key cs glob assets configs) False s1 _ (SDrop H nothing (whole_written cs H uq glob assets configs) (call_chunk_key cs glob assets configs) False f k x s1 t w I) K1)).
  apply (steps_entry_gone H nothing (whole_written cs H uq glob assets configs) (call_chunk_key cs glob assets configs) _ _ (ep x ++ q)) in Bs; [exact Bs|intros f' k' x' []|exact K2|].
  rewrite tree_drop, (get_del H s1 x t K1 I). assert (P : pprefix (ep x) (ep x ++ q) = true) by (apply pprefix_spec; exists q; reflexivity). rewrite P. reflexivity.
Qed.
Print Assumptions C154_deleting_twice.

(** ** Examples *)
(** Two assets certified in a router that serves a page already: the conditions hold, and the first call is not without effect. *)
Definition pair_a : option certified := Eval vm_compute in prepare_static 8 toy ex_query (asset_new (bs "a") (bs "one")) None [] None None.
Definition pair_b : option certified := Eval vm_compute in prepare_static 8 toy ex_query (asset_new (bs "b") (bs "two")) None [] None None.
Definition path_of (o : option certified) : list bytes := match o with Some x => entry_tree_path (ca_entry x) | None => [] end.
Definition pair_path_a : list bytes := Eval vm_compute in path_of pair_a.
Definition pair_path_b : list bytes := Eval vm_compute in path_of pair_b.
Lemma pair_eq_a : prepare_static 8 toy ex_query (asset_new (bs "a") (bs "one")) None [] None None = pair_a. Proof. vm_compute. reflexivity. Qed.
Lemma pair_eq_b : prepare_static 8 toy ex_query (asset_new (bs "b") (bs "two")) None [] None None = pair_b. Proof. vm_compute. reflexivity. Qed.
Lemma pair_paths f k x : written 8 toy ex_query no_glob pair_assets [] f k x ->
  (k_path k = bs "/a" /\ Some x = pair_a /\ entry_tree_path (ca_entry x) = pair_path_a) \/ (k_path k = bs "/b" /\ Some x = pair_b /\ entry_tree_path (ca_entry x) = pair_path_b).
Proof.
  intro w. destruct (pair_written f k x w) as (_ & a & [<-|[<-|[]]] & -> & E).
  - left. rewrite pair_eq_a in E. split; [reflexivity|]. split; [symmetry; exact E|].
    replace pair_path_a with (path_of pair_a) by (vm_compute; reflexivity). rewrite E. reflexivity.
  - right. rewrite pair_eq_b in E. split; [reflexivity|]. split; [symmetry; exact E|].
    replace pair_path_b with (path_of pair_b) by (vm_compute; reflexivity). rewrite E. reflexivity.
Qed.
Theorem C154_hypotheses :
  reachable 8 toy ex_query no_glob page_state /\ valid_input ex_query no_glob pair_assets [] /\
  (forall f k x y, written 8 toy ex_query no_glob pair_assets [] f k x -> written 8 toy ex_query no_glob pair_assets [] f k y -> x = y) /\
  (forall f k x f' k' x', written 8 toy ex_query no_glob pair_assets [] f k x -> written 8 toy ex_query no_glob pair_assets [] f' k' x' ->
     overlapping (entry_tree_path (ca_entry x')) (entry_tree_path (ca_entry x)) -> entry_tree_path (ca_entry x') = entry_tree_path (ca_entry x)) /\
  router_root_hash toy (fst (certify_assets 8 toy ex_query no_glob (fun l => l) pair_assets [] page_state)) <> router_root_hash toy page_state /\
  router_root_hash toy (fst (delete_assets 8 toy ex_query no_glob (fun l => l) enc_assets enc_configs page_state)) <> router_root_hash toy page_state.
Proof.
  split; [exact page_reachable|]. split. { split; [repeat constructor; apply ex_parses|constructor]. }
  split; [|split; [|split; intro Z; vm_compute in Z; discriminate Z]].
  - intros f k x y w w'. destruct (pair_paths _ _ _ w) as [(P & E & _)|(P & E & _)], (pair_paths _ _ _ w') as [(P' & E' & _)|(P' & E' & _)]; try congruence;
      rewrite P in P'; discriminate P'.
  - intros f k x f' k' x' w w' OV. destruct (pair_paths _ _ _ w) as [(_ & _ & E)|(_ & _ & E)], (pair_paths _ _ _ w') as [(_ & _ & E')|(_ & _ & E')]; rewrite E, E' in *; try reflexivity;
      exfalso; destruct OV as [(r & Z)|(r & Z)]; vm_compute in Z; discriminate Z.
Qed.
Print Assumptions C154_hypotheses.
