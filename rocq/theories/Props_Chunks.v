(** C60: the chunks of a large asset. *)
From Coq Require Import List Arith NArith Lia Bool Permutation.
From Verif Require Import Bytes Toy Text Nested Cbor HttpTypes HttpHash HttpSpec Cel Header Verify VerifySpec HttpTree HttpTreeSpec
  Props_Hash Props_Verify Props_HttpTree AssetRouter RangeSpec AssetSpec AssetProofs AssetEffect PreparedProofs Props_Router ServeSpec Props_Serve Props_Encoding.
Import ListNotations.
Local Open Scope N_scope.

Lemma skipn_add {A} (m n : nat) (l : list A) : skipn (m + n) l = skipn m (skipn n l).
Proof. revert l. induction n as [|n IH]; intro l; [rewrite Nat.add_0_r; reflexivity|]. rewrite Nat.add_succ_r. destruct l as [|x l]; [cbn [skipn]; destruct m; reflexivity|cbn [skipn]; apply IH]. Qed.
Lemma begins_concat cs (s : bytes) : 0 < cs -> forall fuel b, N.of_nat (length s) <= b + N.of_nat fuel * cs ->
  concat (map (fun b => slice b (chunk_end cs s b) s) (range_begins_f cs fuel b (N.of_nat (length s)))) = skipn (N.to_nat b) s.
Proof.
  intro CS. induction fuel as [|fuel IH]; intros b L; cbn [range_begins_f].
  - cbn [map concat]. symmetry. apply skipn_all2. lia.
  - destruct (b <? N.of_nat (length s)) eqn:E; [|apply N.ltb_ge in E; symmetry; apply skipn_all2; lia]. apply N.ltb_lt in E.
    cbn [map concat]. rewrite IH by lia. unfold slice, chunk_end.
    destruct (N.le_gt_cases (b + cs) (N.of_nat (length s))) as [G|G].
    + rewrite N.min_l by exact G. replace (N.to_nat (b + cs)) with (N.to_nat (b + cs - b) + N.to_nat b)%nat by lia. rewrite skipn_add. apply firstn_skipn.
    + rewrite N.min_r by lia. rewrite (skipn_all2 s (n := N.to_nat (b + cs))) by lia. rewrite app_nil_r. apply firstn_all2. rewrite skipn_length. lia.
Qed.
Lemma begins_nth cs len fuel : forall b i x, nth_error (range_begins_f cs fuel b len) i = Some x ->
  x = b + N.of_nat i * cs /\ x < len /\ ((S i < length (range_begins_f cs fuel b len))%nat -> x + cs < len).
Proof.
  induction fuel as [|fuel IH]; intros b i x; cbn [range_begins_f]; [destruct i; discriminate|].
  destruct (b <? len) eqn:E; [|destruct i; discriminate]. apply N.ltb_lt in E. destruct i as [|i]; cbn [nth_error length].
  - intro Q. injection Q as <-. split; [lia|]. split; [exact E|]. intro L. destruct fuel as [|fuel]; [cbn in L; lia|]. cbn [range_begins_f] in L. destruct (b + cs <? len) eqn:G; [apply N.ltb_lt in G; exact G|cbn in L; lia].
  - intro Q. apply IH in Q. destruct Q as (-> & L & M). split; [lia|]. split; [exact L|]. intro X. apply M. lia.
Qed.
Lemma collect {A B} (P : A -> B -> Prop) l : (forall a, In a l -> exists b, P a b) -> exists m, Forall2 P l m.
Proof.
  induction l as [|a l IH]; intro X; [exists []; constructor|]. destruct (X a (or_introl eq_refl)) as (b & Q). destruct IH as (m & F); [intros; apply X; right; assumption|]. exists (b :: m). constructor; assumption.
Qed.
Lemma Forall2_len {A B} (P : A -> B -> Prop) l m : Forall2 P l m -> length l = length m.
Proof. induction 1; cbn; congruence. Qed.
Lemma Forall2_nth {A B} (P : A -> B -> Prop) l m i b : Forall2 P l m -> nth_error m i = Some b -> exists a, nth_error l i = Some a /\ P a b.
Proof. intro F. revert i. induction F as [|x y l m Q F IH]; intros [|i] E; cbn in *; try discriminate; [injection E as <-; eauto|auto]. Qed.

(** After a successful call, the chunks stored for a large asset are the pieces of its content in order,
    each with its true content-range, unless the url is written twice. *)
Theorem C60_chunks_partition_content :
  forall (cs : N) (H : bytes -> bytes) uri_query glob (st : router) order (assets : list asset) (configs : list asset_config) cfgs a c enc u,
  0 < cs -> reachable cs H uri_query glob st -> (forall l, Permutation (order l) l) -> valid_input uri_query glob assets configs ->
  (* [a] is one of the assets (or an encoded variant), with configuration [c]; [u] its url or an alias *)
  normalize_all glob configs = Some cfgs -> variant assets cfgs a c enc -> u = as_url a \/ In u (aliases_of c) ->
  cs < N.of_nat (length (as_content a)) ->
  (forall range x y, written cs H uri_query glob assets configs false (mk_key u (encoding_str enc) range) x ->
     written cs H uri_query glob assets configs false (mk_key u (encoding_str enc) range) y -> x = y) ->
  exists (st' : router) (xs : list certified),
  certify_assets cs H uri_query glob order assets configs st = (st', OOk tt) /\
  concat (map (fun x => rs_body (ca_response x)) xs) = as_content a /\
  forall i x, nth_error xs i = Some x ->
    let b := N.of_nat i * cs in
    let body := rs_body (ca_response x) in
    stored st' false (mk_key u (encoding_str enc) (Some b)) x /\ rs_status (ca_response x) = 206 /\
    0 < N.of_nat (length body) <= cs /\ ((S i < length xs)%nat -> N.of_nat (length body) = cs) /\
    In (bs "content-range", range_header b (b + N.of_nat (length body)) (N.of_nat (length (as_content a)))) (rs_headers (ca_response x)) /\
    In (bs "content-length", dec (N.of_nat (length body))) (rs_headers (ca_response x)).
Proof.
  intros cs H uq glob st order assets configs cfgs a c enc u CS R O V NC VA U Big UN.
  destruct (C67_valid_calls_succeed cs H uq glob st order assets configs CS R O V) as [OK _].
  destruct (certify_assets cs H uq glob order assets configs st) as [st' o] eqn:E. cbn [snd] in OK. subst o. exists st'.
  destruct (C67_certify_stores_and_certifies cs H uq glob st st' order assets configs CS R O E) as (ST & _).
  assert (VF : no_header (bs "IC-CertificateExpression") (headers_of c) /\ parses uq u).
  { destruct V as [VA' VC]. destruct (valid_normalize uq glob configs VC) as (cfgs' & E' & VN). rewrite NC in E'. injection E' as <-.
    assert (P : forall a, last_asset assets a -> parses uq (as_url a)) by (intros b (l & r & -> & _); rewrite Forall_forall in VA'; apply VA'; apply in_or_app; right; left; reflexivity).
    inversion VA as [b c' L FC|b c' e suffix ea L FC I LE PE]; subst; destruct (valid_first uq cfgs _ c VN FC) as [N A]; (split; [exact N|]); (destruct U as [->|U]; [exact (P _ L)|rewrite Forall_forall in A; exact (A u U)]). }
  destruct VF as [NE (q & PU)].
  set (s := as_content a) in *. set (total := N.of_nat (length s)) in *.
  set (begins := range_begins cs total).
  destruct (collect (fun b x => prepare_static cs H uq (aliased a u) (content_type_of c) (headers_of c) enc (Some b) = Some x) begins) as (xs & F2).
  { intros b _. eapply prepare_static_ok; [exact NE|exact PU]. }
  exists xs. split; [reflexivity|].
  assert (BI : forall i b, nth_error begins i = Some b -> b = N.of_nat i * cs /\ b < total /\ ((S i < length begins)%nat -> b + cs < total)).
  { intros i b Q. unfold begins, range_begins in *. apply begins_nth in Q. destruct Q as (-> & Q). split; [lia|exact Q]. }
  assert (PR : forall b x, b < total -> prepare_static cs H uq (aliased a u) (content_type_of c) (headers_of c) enc (Some b) = Some x ->
     prepared H uq x (PExact u) u 206 (slice b (chunk_end cs s b) s) (headers_of c) (content_type_of c) (encoding_str enc) (Some (range_header b (chunk_end cs s b) total)) [bs "range"]).
  { intros b x L Q. exact (prepare_static_chunk cs H uq (aliased a u) _ _ _ b x CS L Q). }
  split.
  - transitivity (concat (map (fun b => slice b (chunk_end cs s b) s) begins)).
    + f_equal. clear - F2 PR BI. assert (BL : forall b, In b begins -> b < total).
      { intros b I. apply In_nth_error in I. destruct I as (i & I). apply (BI i b I). }
      clear BI. induction F2 as [|b x l m Q F IH]; [reflexivity|]. cbn [map]. rewrite IH by (intros; apply BL; right; assumption). f_equal.
      exact (prepared_body _ _ _ _ _ _ _ _ _ _ _ _ (PR b x (BL b (or_introl eq_refl)) Q)).
    + unfold begins, range_begins. rewrite (begins_concat cs s CS); [reflexivity|]. fold total. nia.
  - intros i x Nx b body. destruct (Forall2_nth _ _ _ _ _ F2 Nx) as (b' & Nb & Q). destruct (BI i b' Nb) as (Eb & Lb & Nxt). fold b in Eb. subst b'.
    assert (P := PR b x Lb Q). assert (PB := prepared_body _ _ _ _ _ _ _ _ _ _ _ _ P). fold body in PB.
    assert (SL : N.of_nat (length body) = chunk_end cs s b - b).
    { rewrite PB. destruct (slice_split b (chunk_end cs s b) s) as (_ & _ & _ & _ & -> & _); unfold chunk_end; fold total; lia. }
    assert (W : written cs H uq glob assets configs false (mk_key u (encoding_str enc) (Some b)) x).
    { right. eapply WrittenChunk; [exact NC|exact VA|]. apply ChunkStatic; [exact U|exact Big|exact Lb|exact Q]. }
    split; [|split; [|split; [|split; [|split]]]].
    + destruct (ST _ _ _ W) as (y & w & S). rewrite (UN _ _ _ W w). exact S.
    + destruct P as (-> & _). reflexivity.
    + unfold chunk_end in SL. fold total in SL. lia.
    + intro L. rewrite <- (Forall2_len _ _ _ F2) in L. specialize (Nxt L). unfold chunk_end in SL. fold total in SL. lia.
    + rewrite SL. replace (b + (chunk_end cs s b - b)) with (chunk_end cs s b) by (unfold chunk_end; fold total; lia).
      destruct P as (-> & _). cbn [rs_headers]. unfold content_headers. apply in_or_app; right. apply in_or_app; right. apply in_or_app; right. apply in_or_app; right. left. reflexivity.
    + rewrite PB. destruct P as (-> & _). left. reflexivity.
Qed.
Print Assumptions C60_chunks_partition_content.

(** With the chunk size the code ships: the chunk starting at byte [2000000 * i] is there for every [i] up to
    the end of the content, and holds the bytes from there on, 2000000 of them or as many as are left. *)
Theorem C60_shipped_chunks_hold_two_million_bytes :
  forall (H : bytes -> bytes) uri_query glob (st : router) order (assets : list asset) (configs : list asset_config) cfgs a c enc u i,
  reachable asset_chunk_size H uri_query glob st -> (forall l, Permutation (order l) l) -> valid_input uri_query glob assets configs ->
  normalize_all glob configs = Some cfgs -> variant assets cfgs a c enc -> u = as_url a \/ In u (aliases_of c) ->
  2000000 < N.of_nat (length (as_content a)) ->
  (forall range x y, written asset_chunk_size H uri_query glob assets configs false (mk_key u (encoding_str enc) range) x ->
     written asset_chunk_size H uri_query glob assets configs false (mk_key u (encoding_str enc) range) y -> x = y) ->
  2000000 * N.of_nat i < N.of_nat (length (as_content a)) ->
  exists (st' : router) (x : certified) before after,
  certify_assets asset_chunk_size H uri_query glob order assets configs st = (st', OOk tt) /\
  stored st' false (mk_key u (encoding_str enc) (Some (2000000 * N.of_nat i))) x /\
  as_content a = before ++ rs_body (ca_response x) ++ after /\
  N.of_nat (length before) = 2000000 * N.of_nat i /\
  (N.of_nat (length (rs_body (ca_response x))) = 2000000 \/ 0 < N.of_nat (length (rs_body (ca_response x))) < 2000000 /\ after = []).
Proof.
  intros H uq glob st order assets configs cfgs a c enc u i R O V NC VA U Big UN L.
  destruct (C60_chunks_partition_content asset_chunk_size H uq glob st order assets configs cfgs a c enc u eq_refl R O V NC VA U Big UN) as (st' & xs & E & CC & X).
  assert (G : forall pre post, xs = pre ++ post -> post <> [] -> N.of_nat (length (concat (map (fun x => rs_body (ca_response x)) pre))) = asset_chunk_size * N.of_nat (length pre)).
  { intro pre. induction pre as [|y pre IH] using rev_ind; intros post Q NE; [reflexivity|].
    rewrite <- app_assoc in Q. rewrite map_app, concat_app, app_length. cbn [map concat]. rewrite app_nil_r, Nat2N.inj_add, (IH _ Q) by discriminate.
    destruct (X (length pre) y) as (_ & _ & _ & F & _); [rewrite Q, nth_error_app2 by lia; rewrite Nat.sub_diag; reflexivity|].
    rewrite F; [|rewrite Q, app_length; cbn [app length]; destruct post; [congruence|cbn [length]; lia]]. rewrite app_length; cbn [length]. lia. }
  destruct (nth_error xs i) as [x|] eqn:Ni.
  - destruct (nth_error_split xs i Ni) as (pre & post & Q & LP).
    exists st', x, (concat (map (fun x => rs_body (ca_response x)) pre)), (concat (map (fun x => rs_body (ca_response x)) post)).
    destruct (X i x Ni) as (S & _ & B & F & _). change asset_chunk_size with 2000000 in *.
    split; [exact E|]. split; [rewrite N.mul_comm; exact S|]. split; [rewrite <- CC, Q, map_app, concat_app; reflexivity|].
    split; [rewrite (G pre (x :: post) Q) by discriminate; rewrite LP; reflexivity|].
    destruct post as [|y post]; [|left; apply F; rewrite Q, app_length; cbn [length]; lia].
    destruct (N.eq_dec (N.of_nat (length (rs_body (ca_response x)))) 2000000) as [Y|Y]; [left; exact Y|right; split; [lia|reflexivity]].
  - exfalso. apply nth_error_None in Ni. change asset_chunk_size with 2000000 in *.
    assert (T : N.of_nat (length (as_content a)) <= 2000000 * N.of_nat (length xs)).
    { rewrite <- CC. destruct xs as [|x0 xs0]; [cbn; lia|]. destruct (exists_last (l := x0 :: xs0)) as (pre & y & Q); [discriminate|].
      rewrite Q, map_app, concat_app, app_length. cbn [map concat]. rewrite app_nil_r, Nat2N.inj_add, (G pre [y] Q) by discriminate.
      destruct (X (length pre) y) as (_ & _ & B & _); [rewrite Q, nth_error_app2 by lia; rewrite Nat.sub_diag; reflexivity|]. rewrite app_length; cbn [length]. lia. }
    lia.
Qed.
Print Assumptions C60_shipped_chunks_hold_two_million_bytes.

(** A case: ten bytes in chunks of four. *)
Definition chunk_assets : list asset := [asset_new (bs "big") (bs "0123456789")].
Definition chunk_state : router := fst (run_call 4 toy ex_query no_glob (CallCertify (fun l => l) chunk_assets []) router_new).
Definition chunk_at (b : N) : option (N * bytes) := option_map (fun x => (rs_status (ca_response x), rs_body (ca_response x))) (m_get key_eqb (mk_key (bs "/big") None (Some b)) (r_responses chunk_state)).
Example C60_ex :
  valid_input ex_query no_glob chunk_assets [] /\ variant chunk_assets [] (asset_new (bs "big") (bs "0123456789")) None None /\
  chunk_at 0 = Some (206, bs "0123") /\ chunk_at 4 = Some (206, bs "4567") /\ chunk_at 8 = Some (206, bs "89") /\ chunk_at 12 = None.
Proof.
  split; [split; [constructor; [exists None; reflexivity|constructor]|constructor]|]. split.
  - constructor; [exists [], []; split; [reflexivity|intros b []]|intros y []].
  - vm_compute. repeat split.
Qed.

(** One asset without configuration writes no key twice. *)
Lemma single_variant a b c enc : variant [a] [] b c enc -> b = a /\ c = None /\ enc = None.
Proof.
  assert (L1 : forall b, last_asset [a] b -> b = a).
  { intros b' (l & r & E & _). destruct l as [|z l]; [injection E; intros; congruence|]. destruct l; discriminate E. }
  assert (FC : forall b c, first_config [] b c -> c = None).
  { intros b' [c'|] F; [|reflexivity]. destruct F as (l & r & E & _). destruct l; discriminate E. }
  intro VA. inversion VA as [b' c' L F|b' c' e suffix ea L F I]; subst.
  - rewrite (L1 _ L), (FC _ _ F). repeat split.
  - rewrite (FC _ _ F) in I. destruct I.
Qed.
Lemma single_unique cs H uq glob a f k x y : written cs H uq glob [a] [] f k x -> written cs H uq glob [a] [] f k y -> x = y.
Proof.
  assert (W : forall x, written cs H uq glob [a] [] f k x ->
     (k_range k = None /\ prepare_static cs H uq (aliased a (as_url a)) None [] None None = Some x) \/
     (exists i, k_range k = Some i /\ prepare_static cs H uq (aliased a (as_url a)) None [] None (Some i) = Some x)).
  { intros z [W|W].
    - inversion W as [cfgs b c enc f' k' z' NC VA WW|from to kind z' I]; subst; [|destruct I]. cbn in NC. injection NC as <-.
      destruct (single_variant _ _ _ _ VA) as (-> & -> & ->). inversion WW as [u z' U P|fb z' I P]; subst; [|destruct I].
      destruct U as [->|[]]. left. split; [reflexivity|exact P].
    - inversion W as [cfgs b c enc f' k' z' NC VA WW]; subst. cbn in NC. injection NC as <-.
      destruct (single_variant _ _ _ _ VA) as (-> & -> & ->). inversion WW as [u i z' U B1 B2 P]; subst.
      destruct U as [->|[]]. right. exists (i * cs). split; [reflexivity|exact P]. }
  intros Wx Wy. apply W in Wx, Wy.
  destruct Wx as [[K X]|(i & K & X)], Wy as [[K' Y]|(j & K' & Y)]; congruence.
Qed.
(** so the hypotheses of C60 hold for any such asset, for instance of 2000001 bytes in a new router *)
Definition large_asset : asset := asset_new (bs "big") (repeat x61 (N.to_nat 2000001)).
Example C60_shipped_ex : forall i, 2000000 * N.of_nat i < 2000001 ->
  exists st' x before after,
  certify_assets asset_chunk_size toy ex_query no_glob (fun l => l) [large_asset] [] router_new = (st', OOk tt) /\
  stored st' false (mk_key (bs "/big") None (Some (2000000 * N.of_nat i))) x /\
  as_content large_asset = before ++ rs_body (ca_response x) ++ after /\
  N.of_nat (length before) = 2000000 * N.of_nat i /\
  (N.of_nat (length (rs_body (ca_response x))) = 2000000 \/ 0 < N.of_nat (length (rs_body (ca_response x))) < 2000000 /\ after = []).
Proof.
  intros i L.
  assert (LL : N.of_nat (length (as_content large_asset)) = 2000001).
  { unfold large_asset, asset_new. cbn [as_content]. rewrite repeat_length. apply N2Nat.id. }
  apply (C60_shipped_chunks_hold_two_million_bytes toy ex_query no_glob router_new (fun l => l) [large_asset] [] [] large_asset None None (bs "/big") i).
  - apply (ReachStart _ _ _ _ [] _ eq_refl).
  - intro. apply Permutation_refl.
  - split; [constructor; [exists None; reflexivity|constructor]|constructor].
  - reflexivity.
  - constructor; [exists [], []; split; [reflexivity|intros b []]|intros y []].
  - left. reflexivity.
  - rewrite LL. reflexivity.
  - intros range x y. apply single_unique.
  - rewrite LL. exact L.
Qed.
