(** C78: the asset maps of the router. *)
From Coq Require Import List Arith NArith Lia Bool Permutation.
From Verif Require Import Bytes Toy Text Nested Cbor HttpTypes HttpHash HttpSpec Cel Header Verify VerifySpec HttpTree HttpTreeSpec
  Props_Hash Props_Verify Props_HttpTree AssetRouter RangeSpec AssetSpec AssetProofs AssetEffect PreparedProofs Props_Router Props_Revoke ServeSpec Props_Serve Props_Encoding Props_Chunks AssetMap.
Import ListNotations.
Local Open Scope N_scope.

Lemma remove_nodup k (m : store) : NoDup (map fst m) -> NoDup (map fst (m_remove key_eqb k m)).
Proof.
  unfold m_remove. induction m as [|[p a] m IH]; intro ND; [constructor|]. cbn [filter fst map] in *.
  inversion ND as [|? ? NI ND']; subst. destruct (negb (key_eqb k p)); cbn [map fst]; [constructor|]; auto.
  intro I. apply NI. apply in_map_iff in I. destruct I as ([q b] & <- & I). apply filter_In in I. apply in_map_iff. exists (q, b). split; [reflexivity|apply I].
Qed.
Lemma remove_sub k (m : store) e : In e (m_remove key_eqb k m) -> In e m /\ k <> fst e.
Proof.
  unfold m_remove. intro I. apply filter_In in I. destruct I as [I N]. split; [exact I|]. intros ->. rewrite (proj2 (key_eqb_eq _ _) eq_refl) in N. discriminate N.
Qed.
Lemma insert_nodup k x (m : store) : NoDup (map fst m) -> NoDup (map fst (m_insert key_eqb k x m)).
Proof.
  intro ND. unfold m_insert. cbn [map fst]. constructor; [|apply remove_nodup; exact ND].
  intro I. apply in_map_iff in I. destruct I as (e & E & I). apply remove_sub in I. destruct I as [_ N]. congruence.
Qed.
Lemma get_in (m : store) k x : NoDup (map fst m) -> (m_get key_eqb k m = Some x <-> In (k, x) m).
Proof.
  induction m as [|[p a] m IH]; intro ND; cbn [m_get]; [split; [discriminate|intros []]|]. inversion ND as [|? ? NI ND']; subst.
  destruct (key_eqb k p) eqn:E.
  - apply key_eqb_eq in E. subst p. split; [intro Q; injection Q as <-; left; reflexivity|]. intros [Q|I]; [congruence|].
    exfalso. apply NI. apply in_map_iff. exists (k, x). split; [reflexivity|exact I].
  - rewrite (IH ND'). split; [right; assumption|]. intros [Q|I]; [|exact I]. injection Q as -> ->. rewrite (proj2 (key_eqb_eq _ _) eq_refl) in E. discriminate E.
Qed.

Definition named_encoding (k : key) : Prop := exists e, k_encoding k = option_map encoding_name e.
Lemma written_named cs H uq glob assets configs f k x : written cs H uq glob assets configs f k x -> named_encoding k.
Proof.
  intros [W|W].
  - inversion W as [cfgs b c enc f' k' z' NC VA WW|from to kind z' I]; subst; [|exists None; reflexivity]. inversion WW; subst; exists enc; reflexivity.
  - inversion W as [cfgs b c enc f' k' z' NC VA WW]; subst. inversion WW; subst; exists enc; reflexivity.
Qed.
Definition listed_well (m : store) : Prop := NoDup (map fst m) /\ forall e, In e m -> named_encoding (fst e).
Definition both_well (st : router) : Prop := listed_well (r_responses st) /\ listed_well (r_fallbacks st).
Lemma insert_well k x m : named_encoding k -> listed_well m -> listed_well (m_insert key_eqb k x m).
Proof.
  intros N [ND E]. split; [apply insert_nodup; exact ND|]. intros e [<-|I]; [exact N|]. apply remove_sub in I. apply E. apply I.
Qed.
Lemma remove_well k m : listed_well m -> listed_well (m_remove key_eqb k m).
Proof. intros [ND E]. split; [apply remove_nodup; exact ND|]. intros e I. apply remove_sub in I. apply E. apply I. Qed.
Lemma step_well H (P D : bool -> key -> certified -> Prop) F C a b : (forall f k x, P f k x -> named_encoding k) -> step H P D F C a b -> both_well a -> both_well b.
Proof.
  intros N S [A B]. inversion S as [f k x st t w E|f k x st t w E|k st|st]; subst.
  - unfold put, both_well. destruct f; cbn [r_responses r_fallbacks]; (split; [try exact A|try exact B]); (apply insert_well; [eapply N; exact w|assumption]).
  - unfold drop, both_well. destruct f; cbn [r_responses r_fallbacks]; (split; [try exact A|try exact B]); (apply remove_well; assumption).
  - unfold drop, both_well. cbn [r_responses r_fallbacks]. split; [apply remove_well|]; assumption.
  - split; (split; [constructor|intros e []]).
Qed.
Lemma steps_well H (P D : bool -> key -> certified -> Prop) F C a b : (forall f k x, P f k x -> named_encoding k) -> steps H P D F C a b -> both_well a -> both_well b.
Proof. intros N S. induction S as [|a b c S1 S2 IH]; [auto|]. intro W. apply IH. eapply step_well; eassumption. Qed.
Lemma reachable_well cs H uq glob st : 0 < cs -> reachable cs H uq glob st -> both_well st.
Proof.
  intros CS R. induction R as [ops t E|st c R IH O|st o t R IH E].
  - split; (split; [constructor|intros e []]).
  - destruct (run_call_steps cs H uq glob CS c st O (reachable_tok _ _ _ _ _ CS R)) as [S _].
    eapply steps_well; [|exact S|exact IH]. intros f k x. destruct c as [o a cf|o a cf|]; cbn [call_puts]; try contradiction. apply written_named.
  - exact IH.
Qed.

(** For every router, the maps list exactly the stored responses, each key once; [get] finds exactly what is listed;
    every listed response can be got (its encoding is one of the known ones); [len] and [is_empty] count. *)
Theorem C78_maps_list_what_is_stored :
  forall (cs : N) (H : bytes -> bytes) uri_query glob (st : router) (f : bool) (order : store -> store),
  0 < cs -> reachable cs H uri_query glob st -> (forall m, Permutation (order m) m) ->
  let m := if f then get_fallback_assets st else get_assets st in
  let l := asset_map_iter order m in
  NoDup (map fst l) /\
  (forall path enc range r, In ((path, enc, range), r) l <-> exists x, stored st f (mk_key path enc range) x /\ ca_response x = r) /\
  (forall path e range r, asset_map_get m path e range = Some r <-> In ((path, option_map encoding_name e, range), r) l) /\
  (forall path enc range r, In ((path, enc, range), r) l -> exists e, enc = option_map encoding_name e) /\
  asset_map_len m = N.of_nat (length l) /\
  (asset_map_is_empty m = true <-> forall path e range, asset_map_get m path e range = None).
Proof.
  intros cs H uq glob st f order CS R O m l. destruct (reachable_well _ _ _ _ _ CS R) as [WA WB].
  assert (W : listed_well m) by (unfold m; destruct f; assumption). destruct W as [ND NE]. clear WA WB.
  assert (PL : Permutation l (asset_map_iter (fun m => m) m)) by (apply Permutation_map; apply O).
  assert (IL : forall path enc range r, In ((path, enc, range), r) l <-> exists x, In (mk_key path enc range, x) m /\ ca_response x = r).
  { intros path enc range r. split.
    - intro I. apply (Permutation_in _ PL) in I. unfold asset_map_iter in I. apply in_map_iff in I. destruct I as ([k x] & Q & I). cbn [fst snd] in Q.
      destruct k as [p' e' r']. cbn [k_path k_encoding k_range] in Q. injection Q as -> -> -> <-. exists x. split; [exact I|reflexivity].
    - intros (x & I & <-). apply (Permutation_in _ (Permutation_sym PL)). unfold asset_map_iter. apply in_map_iff. exists (mk_key path enc range, x). split; [reflexivity|exact I]. }
  assert (SI : forall k x, stored st f k x <-> In (k, x) m).
  { intros k x. unfold stored. replace (if f then r_fallbacks st else r_responses st) with m by (unfold m; destruct f; reflexivity). apply get_in. exact ND. }
  assert (GI : forall path e range r, asset_map_get m path e range = Some r <-> In ((path, option_map encoding_name e, range), r) l).
  { intros path e range r. rewrite IL. unfold asset_map_get. destruct (m_get key_eqb (mk_key path (option_map encoding_name e) range) m) as [x|] eqn:E; cbn [option_map].
    - apply (get_in m _ _ ND) in E. split; [intro Q; injection Q as <-; exists x; auto|]. intros (y & I & <-). apply (get_in m _ _ ND) in E. apply (get_in m _ _ ND) in I. congruence.
    - split; [discriminate|]. intros (y & I & _). apply (get_in m _ _ ND) in I. congruence. }
  assert (EN : forall path enc range r, In ((path, enc, range), r) l -> exists e, enc = option_map encoding_name e).
  { intros path enc range r I. apply IL in I. destruct I as (x & I & _). exact (NE _ I). }
  split; [|split; [|split; [|split; [|split]]]].
  - eapply Permutation_NoDup; [apply Permutation_map; symmetry; exact PL|]. unfold asset_map_iter. rewrite map_map. cbn [fst].
    rewrite <- (map_map fst (fun k => (k_path k, k_encoding k, k_range k))). apply FinFun.Injective_map_NoDup; [|exact ND].
    intros [a1 a2 a3] [b1 b2 b3] Q. cbn in Q. injection Q as -> -> ->. reflexivity.
  - intros path enc range r. rewrite IL. split; intros (x & I & Q); exists x; (split; [apply SI; exact I|exact Q]).
  - exact GI.
  - exact EN.
  - rewrite (Permutation_length PL). unfold asset_map_len, asset_map_iter. rewrite map_length. reflexivity.
  - unfold asset_map_is_empty, asset_map_len. rewrite N.eqb_eq. split.
    + intros Z path e range. destruct (asset_map_get m path e range) as [r|] eqn:E; [|reflexivity]. apply GI in E. apply IL in E. destruct E as (x & I & _).
      destruct m; [destruct I|cbn in Z; lia].
    + intro Z. destruct m as [|[[p e r] x] m']; [reflexivity|]. exfalso. destruct (NE (mk_key p e r, x) (or_introl eq_refl)) as (e' & E). cbn [fst k_encoding] in E. subst e.
      assert (G : asset_map_get ((mk_key p (option_map encoding_name e') r, x) :: m') p e' r = Some (ca_response x)).
      { apply GI. apply IL. exists x. split; [left; reflexivity|reflexivity]. }
      rewrite Z in G. discriminate G.
Qed.
Print Assumptions C78_maps_list_what_is_stored.

(** After a successful certify_assets each of its assets can be got whole, with status 200, unless
    the call writes the url twice; a fallback likewise from the fallback map. *)
Theorem C78_certified_assets_can_be_got :
  forall (cs : N) (H : bytes -> bytes) uri_query glob (st : router) order (assets : list asset) (configs : list asset_config) cfgs a c enc,
  0 < cs -> reachable cs H uri_query glob st -> (forall l, Permutation (order l) l) -> valid_input uri_query glob assets configs ->
  normalize_all glob configs = Some cfgs -> variant assets cfgs a c enc ->
  exists st', certify_assets cs H uri_query glob order assets configs st = (st', OOk tt) /\
  (forall u, u = as_url a \/ In u (aliases_of c) ->
     (forall x y, written cs H uri_query glob assets configs false (mk_key u (encoding_str enc) None) x ->
        written cs H uri_query glob assets configs false (mk_key u (encoding_str enc) None) y -> x = y) ->
     exists r, asset_map_get (get_assets st') u enc None = Some r /\ rs_status r = 200 /\ rs_body r = as_content a) /\
  (forall fb, In fb (fallbacks_of c) ->
     (forall x y, written cs H uri_query glob assets configs true (mk_key (fb_scope fb) (encoding_str enc) None) x ->
        written cs H uri_query glob assets configs true (mk_key (fb_scope fb) (encoding_str enc) None) y -> x = y) ->
     exists r, asset_map_get (get_fallback_assets st') (fb_scope fb) enc None = Some r /\
       rs_status r = (match fb_status fb with Some s => s | None => 200 end) /\ rs_body r = as_content a).
Proof.
  intros cs H uq glob st order assets configs cfgs a c enc CS R O V NC VA.
  destruct (C67_valid_calls_succeed cs H uq glob st order assets configs CS R O V) as [OK _].
  destruct (certify_assets cs H uq glob order assets configs st) as [st' o] eqn:E. cbn [snd] in OK. subst o. exists st'. split; [reflexivity|].
  destruct (C67_certify_stores_and_certifies cs H uq glob st st' order assets configs CS R O E) as (ST & _).
  assert (NE : no_header (bs "IC-CertificateExpression") (headers_of c) /\ parses uq (as_url a) /\ forall u, In u (aliases_of c) -> parses uq u).
  { destruct V as [VA' VC]. destruct (valid_normalize uq glob configs VC) as (cfgs' & E' & VN). rewrite NC in E'. injection E' as <-.
    assert (P : forall a, last_asset assets a -> parses uq (as_url a)) by (intros b (l & r & -> & _); rewrite Forall_forall in VA'; apply VA'; apply in_or_app; right; left; reflexivity).
    inversion VA as [b c' L FC|b c' e suffix ea L FC I LE PE]; subst; destruct (valid_first uq cfgs _ c VN FC) as [N A]; rewrite Forall_forall in A; (split; [exact N|]); (split; [exact (P _ L)|exact A]). }
  destruct NE as (NE & PA & PL).
  split.
  - intros u U UN. assert (PU : parses uq u) by (destruct U as [->|U]; auto). destruct PU as (q & PU).
    destruct (prepare_static_ok cs H uq (aliased a u) (content_type_of c) (headers_of c) enc None q NE PU) as (x & Q).
    assert (W : written cs H uq glob assets configs false (mk_key u (encoding_str enc) None) x).
    { left. eapply WrittenWhole; [exact NC|exact VA|]. apply WholeStatic; assumption. }
    destruct (ST _ _ _ W) as (y & w & S). rewrite (UN _ _ w W) in S.
    exists (ca_response x). split; [unfold asset_map_get, get_assets; unfold stored in S; unfold encoding_str in S; rewrite S; reflexivity|].
    apply prepare_static_whole in Q. destruct Q as (-> & _). split; reflexivity.
  - intros fb F UN. destruct PA as (q & PA).
    destruct (prepare_fallback_ok cs H uq a (headers_of c) (content_type_of c) fb enc q NE PA) as (x & Q).
    assert (W : written cs H uq glob assets configs true (mk_key (fb_scope fb) (encoding_str enc) None) x).
    { left. eapply WrittenWhole; [exact NC|exact VA|]. apply WholeFallback; assumption. }
    destruct (ST _ _ _ W) as (y & w & S). rewrite (UN _ _ w W) in S.
    exists (ca_response x). split; [unfold asset_map_get, get_fallback_assets; unfold stored in S; unfold encoding_str in S; rewrite S; reflexivity|].
    apply prepare_fallback_spec in Q. destruct Q as (-> & _). split; reflexivity.
Qed.
Print Assumptions C78_certified_assets_can_be_got.

(** After delete_assets none of the responses of the given assets and configurations can be got any more, whole
    or in chunks; everything else can be got as before. *)
Theorem C78_deleted_assets_cannot_be_got :
  forall (cs : N) (H : bytes -> bytes) uri_query glob (st : router) order (assets : list asset) (configs : list asset_config),
  0 < cs -> reachable cs H uri_query glob st -> (forall l, Permutation (order l) l) -> valid_input uri_query glob assets configs ->
  exists st', delete_assets cs H uri_query glob order assets configs st = (st', OOk tt) /\
  forall (f : bool) path e range,
    let map_of st := if f then get_fallback_assets st else get_assets st in
    let about := exists x, written cs H uri_query glob assets configs f (mk_key path (option_map encoding_name e) range) x in
    (about -> asset_map_get (map_of st') path e range = None) /\
    (~ about -> asset_map_get (map_of st') path e range = asset_map_get (map_of st) path e range).
Proof.
  intros cs H uq glob st order assets configs CS R O V.
  destruct (C57_delete_removes_whole_responses_partial cs H uq glob st order assets configs CS R O V) as (st' & E & _ & D & _ & S & _ & K).
  exists st'. split; [exact E|]. intros f path e range map_of about.
  assert (MS : forall s, m_get key_eqb (mk_key path (option_map encoding_name e) range) (map_of s) = m_get key_eqb (mk_key path (option_map encoding_name e) range) (if f then r_fallbacks s else r_responses s)) by (intro; unfold map_of; destruct f; reflexivity).
  unfold stored in *. split.
  - intros (x & W). unfold asset_map_get. rewrite MS. destruct (m_get key_eqb _ _) as [y|] eqn:G; [|reflexivity]. destruct (D _ _ _ y W G).
  - intro NW. unfold asset_map_get. rewrite !MS. destruct (m_get key_eqb _ (if f then r_fallbacks st else r_responses st)) as [y|] eqn:G.
    + rewrite (K f _ y G); [reflexivity|]. intros x W. apply NW. exists x. exact W.
    + destruct (m_get key_eqb _ (if f then r_fallbacks st' else r_responses st')) as [y|] eqn:G'; [|reflexivity]. apply S in G'. congruence.
Qed.
Print Assumptions C78_deleted_assets_cannot_be_got.

(** The chunks listed for a url need not be chunks of its asset: certifying a small asset over a large one leaves
    the old chunks in the map, for every state and every asset. *)
Theorem C78_chunks_are_of_the_current_asset_refuted :
  forall (cs : N) (H : bytes -> bytes) uri_query glob (st : router) (a : asset) b old,
  0 < cs -> reachable cs H uri_query glob st -> parses uri_query (as_url a) -> N.of_nat (length (as_content a)) <= cs ->
  (* the url has a chunk of something larger *)
  asset_map_get (get_assets st) (as_url a) None (Some b) = Some old ->
  exists st' r, certify_assets cs H uri_query glob (fun l => l) [a] [] st = (st', OOk tt) /\
  asset_map_get (get_assets st') (as_url a) None None = Some r /\ rs_body r = as_content a /\
  asset_map_get (get_assets st') (as_url a) None (Some b) = Some old.
Proof.
  intros cs H uq glob st a b old CS R P L G.
  assert (V : valid_input uq glob [a] []) by (split; [constructor; [exact P|constructor]|constructor]).
  assert (VA : variant [a] [] a None None) by (constructor; [exists [], []; split; [reflexivity|intros y []]|intros y []]).
  destruct (C78_certified_assets_can_be_got cs H uq glob st (fun l => l) [a] [] [] a None None CS R (fun l => Permutation_refl l) V eq_refl VA) as (st' & E & S & _).
  destruct (S (as_url a) (or_introl eq_refl)) as (r & Gr & _ & B). { intros x y. apply single_unique. }
  exists st', r. split; [exact E|]. split; [exact Gr|]. split; [exact B|].
  destruct (C67_certify_stores_and_certifies cs H uq glob st st' (fun l => l) [a] [] CS R (fun l => Permutation_refl l) E) as (_ & _ & K & _).
  unfold asset_map_get, get_assets in *. cbn [option_map] in *. destruct (m_get key_eqb (mk_key (as_url a) None (Some b)) (r_responses st)) as [x|] eqn:X; [|discriminate G].
  destruct (K false _ x X) as [Y|(y & W)]; [unfold stored in Y; rewrite Y; exact G|]. exfalso.
  destruct W as [W|W].
  - inversion W as [cfgs b' c enc f' k' z' NC VA' WW|from to kind z' I]; subst. inversion WW.
  - inversion W as [cfgs b' c enc f' k' z' NC VA' WW]; subst. cbn in NC. injection NC as <-. destruct (single_variant _ _ _ _ VA') as (-> & -> & ->).
    inversion WW as [u i z' U B1 B2 Q]; subst. lia.
Qed.
Print Assumptions C78_chunks_are_of_the_current_asset_refuted.

(** A case: ten bytes in chunks of four at /big, one fallback below /. *)
Definition map_configs : list asset_config := [ConfigFile (bs "idx") None [] [mk_fallback (bs "/") (Some 404)] [] []].
Definition map_state : router := fst (run_call 4 toy ex_query no_glob (CallCertify (fun l => l) [asset_new (bs "big") (bs "0123456789"); asset_new (bs "idx") (bs "hi")] map_configs) router_new).
Definition shown (x : option response) : option (N * bytes) := option_map (fun r => (rs_status r, rs_body r)) x.
Example C78_ex :
  shown (asset_map_get (get_assets map_state) (bs "/big") None None) = Some (200, bs "0123456789") /\
  shown (asset_map_get (get_assets map_state) (bs "/big") None (Some 4)) = Some (206, bs "4567") /\
  shown (asset_map_get (get_assets map_state) (bs "/big") (Some Gzip) None) = None /\
  shown (asset_map_get (get_fallback_assets map_state) (bs "/") None None) = Some (404, bs "hi") /\
  asset_map_len (get_assets map_state) = 5 /\ asset_map_len (get_fallback_assets map_state) = 1 /\
  map (fun e => fst (fst (fst e))) (asset_map_iter (fun m => m) (get_fallback_assets map_state)) = [bs "/"].
Proof. vm_compute. repeat split. Qed.
