(** C99-C101: the assets example. *)
From Coq Require Import List Arith NArith Lia Bool Permutation.
From Verif Require Import Bytes Sha256 Text Utf8 HashTree HashTreeSpec RbTree Nested NestedSpec NestedProofs Cbor CborSpec HttpTypes HttpHash HttpSpec Cel CelSpec V2 Wildcard WildcardSpec WildcardProofs Verify VerifySpec Header HeaderSpec HttpTree HttpTreeSpec CertVerify CertSpec Props_Cert Props_Header
  Props_Hash Props_Wildcard Props_Verify Props_HttpTree AssetRouter AssetMap RangeSpec Props_Range AssetSpec AssetProofs AssetEffect PreparedProofs Props_Router Props_Backed ServeSpec Props_Serve Props_Accept Props_Only Props_Trip Props_Skip Props_Irrelevant Shared Props_Shared Props_SharedGet SiteExample.
Import ListNotations.
Local Open Scope N_scope.

Definition site_call (order : list asset -> list asset) (d : dir) : call := CallCertify order (collect_assets d) site_configs.
Definition site_events (H : bytes -> bytes) (order : list asset -> list asset) (d : dir) : list event :=
  [OnTree (HInsert (metrics_entry H)); OnRouter (site_call order d)].
Fixpoint dir_ind2 (P : dir -> Prop) (h : forall fs ds, Forall P ds -> P (Dir fs ds)) (d : dir) : P d :=
  match d with Dir fs ds => h fs ds ((fix go l := match l return Forall P l with [] => Forall_nil P | x :: r => Forall_cons x (dir_ind2 P h x) (go r) end) ds) end.
Lemma collected d a : In a (collect_assets d) <-> exists p c, file_of d p c /\ a = asset_new p c.
Proof.
  induction d as [fs ds IH] using dir_ind2. cbn [collect_assets]. rewrite in_app_iff, in_map_iff, in_flat_map. rewrite Forall_forall in IH. split.
  - intros [((p & c) & <- & I)|(d & I & J)]; [exists p, c; split; [apply FileHere; exact I|reflexivity]|].
    apply (IH d I) in J. destruct J as (p & c & F & ->). exists p, c. split; [eapply FileBelow; eassumption|reflexivity].
  - intros (p & c & F & ->). inversion F as [fs' ds' p' c' I|fs' ds' d p' c' I J]; subst.
    + left. exists (p, c). auto.
    + right. exists d. split; [exact I|]. apply (IH d I). eauto.
Qed.
Lemma site_names_exact d o u : In u (call_names false (site_call o d)) <-> site_name d u.
Proof.
  unfold site_call. cbn [call_names]. rewrite in_app_iff, in_map_iff. cbn [site_configs flat_map app In]. split.
  - intros [(a & <- & I)|[<-|[<-|[]]]]; [|right; left; reflexivity|right; right; reflexivity]. apply collected in I. destruct I as (p & c & F & ->). left. exists p, c. auto.
  - intros [(p & c & F & ->)|[-> | ->]]; [|right; left; reflexivity|right; right; left; reflexivity]. left. exists (asset_new p c). split; [reflexivity|]. apply collected. eauto.
Qed.
Lemma site_names_scope d o u : In u (call_names true (site_call o d)) <-> u = bs "/".
Proof. unfold site_call. cbn [call_names site_configs flat_map app map In fb_scope]. split; [intros [<-|[]]; reflexivity|intros ->; left; reflexivity]. Qed.
Lemma init_run cs H uq glob order d st root : certify_all_assets cs H uq glob order d = Some (st, root) ->
  run_shared cs H uq glob (site_events H order d) router_new = Some st /\ root = router_root_hash H st /\
  exists t, nstep H ndefault (http_nop (HInsert (metrics_entry H))) = Some t /\ certify_assets cs H uq glob order (collect_assets d) site_configs (router_with t) = (st, OOk tt).
Proof.
  unfold certify_all_assets, site_events, site_call. cbn [run_shared run_event]. change (r_tree router_new) with ndefault.
  destruct (nstep H ndefault (http_nop (HInsert (metrics_entry H)))) as [t|]; [|discriminate]. cbn [run_call]. change (mk_router t (r_responses router_new) (r_fallbacks router_new)) with (router_with t).
  destruct (certify_assets cs H uq glob order (collect_assets d) site_configs (router_with t)) as [st' [[]| | |]] eqn:E; try discriminate.
  intro X. injection X as <- <-. cbn [fst]. split; [reflexivity|]. split; [reflexivity|]. exists t. rewrite E. auto.
Qed.
Lemma site_order H order d : (forall l, Permutation (order l) l) -> Forall order_ok (site_events H order d).
Proof. intro O. repeat constructor. exact O. Qed.
Lemma base_plain extra : plain_headers extra -> plain_headers (get_asset_headers extra).
Proof.
  intros (A & B & C). unfold get_asset_headers. repeat split; apply Forall_app; (split; [|assumption]); unfold base_headers; repeat constructor; cbn [fst]; try (intro Z; apply eq_nocase_spec in Z; vm_compute in Z; discriminate Z); intro Z; discriminate Z.
Qed.
Lemma cache_plain v : plain_headers [(bs "cache-control", v)].
Proof. repeat split; repeat constructor; cbn [fst]; try (intro Z; apply eq_nocase_spec in Z; vm_compute in Z; discriminate Z); intro Z; discriminate Z. Qed.
Lemma site_plain_call order d : plain_call (site_call order d).
Proof. unfold site_call, plain_call, site_configs, immutable_cache. repeat (apply Forall_cons; [first [exact I|apply base_plain, cache_plain]|]). apply Forall_nil. Qed.
Lemma site_no_expression v : no_header (bs "IC-CertificateExpression") (get_asset_headers [(bs "cache-control", v)]).
Proof. unfold get_asset_headers, base_headers. repeat constructor; cbn [fst]; intro Z; apply eq_nocase_spec in Z; vm_compute in Z; discriminate Z. Qed.

(** ** C99: the canister starts *)
Theorem C99_site_starts :
  forall (cs : N) (H : bytes -> bytes) uri_query glob order (d : dir),
  0 < cs -> (forall l, Permutation (order l) l) ->
  (* the configured patterns compile, urls parse *)
  Forall (fun p => exists m, glob p = Some m) [bs "**/*.js"; bs "**/*.css"; bs "**/*.ico"; bs "**/*.svg"] ->
  (forall u, site_name d u -> exists q, uri_query u = Some q) ->
  exists st root, certify_all_assets cs H uri_query glob order d = Some (st, root).
Proof.
  intros cs H uq glob order d CS O G U. unfold certify_all_assets. destruct (nstep_live H ndefault (HInsert (metrics_entry H)) (proj1 (new_tok H))) as (t & E). rewrite E.
  assert (R : reachable cs H uq glob (router_with t)).
  { apply (ReachStart cs H uq glob [HInsert (metrics_entry H)] t). unfold http_run. cbn [map nrun]. rewrite E. reflexivity. }
  destruct (C67_valid_calls_succeed cs H uq glob (router_with t) order (collect_assets d) site_configs CS R O) as [S _].
  { split.
    - apply Forall_forall. intros a I. apply collected in I. destruct I as (p & c & F & ->). apply U. left. exists p, c. auto.
    - inversion G as [|? ? G1 G']; subst. inversion G' as [|? ? G2 G'']; subst. inversion G'' as [|? ? G3 G3']; subst. inversion G3' as [|? ? G4 _]; subst.
      unfold site_configs, immutable_cache.
      apply Forall_cons; [split; [apply site_no_expression|apply Forall_cons; [apply U; right; left; reflexivity|apply Forall_nil]]|].
      do 4 (apply Forall_cons; [split; [apply site_no_expression|assumption]|]).
      apply Forall_cons; [apply U; right; right; reflexivity|apply Forall_nil]. }
  destruct (certify_assets _ _ _ _ _ _ _ _) as [st o]. cbn [snd] in S. subst o. eauto.
Qed.
Print Assumptions C99_site_starts.

(** ** C99: the metrics endpoint *)
Lemma metrics_clean : clean_url (bs "/metrics").
Proof. split; intro Z; vm_compute in Z; destruct Z as [Z|[]]; discriminate Z. Qed.
Lemma tidy_clean umod uq d u : tidy umod uq d -> site_name d u -> clean_url u.
Proof. intros (_ & T & _) N. destruct (T u N) as (A & B & _). split; assumption. Qed.
Lemma root_clean : clean_url (bs "/").
Proof. split; intro Z; vm_compute in Z; destruct Z as [Z|[]]; discriminate Z. Qed.
Lemma site_plain_urls umod uq order d : tidy umod uq d -> plain_urls umod uq (site_call order d).
Proof.
  intros (T & _). unfold site_call, plain_urls. split.
  - apply Forall_forall. intros a I. apply collected in I. destruct I as (p & c & F & ->). apply T. left. exists p, c. auto.
  - unfold site_configs. apply Forall_cons.
    + split; [apply Forall_cons; [apply T; right; left; reflexivity|apply Forall_nil]|]. apply Forall_cons; [|apply Forall_nil]. exact (proj2 (T (bs "/") (or_intror (or_introl eq_refl)))).
    + do 4 (apply Forall_cons; [exact I|]). apply Forall_cons; [apply T; right; right; reflexivity|apply Forall_nil].
Qed.
Lemma metrics_short umod H : (forall x, length (H x) = 32%nat) -> 32 < umod -> Forall (short umod) (entry_tree_path (metrics_entry H)).
Proof.
  intros HL U. unfold metrics_entry, entry_tree_path, certify_skip. cbn [en_path en_certification cert_tree_path path_tree_path]. rewrite path_to_segments_parts.
  change (request_parts (bs "/metrics")) with [bs "metrics"]. cbn [app]. repeat constructor; unfold short; try rewrite HL; cbn [length]; simpl; lia.
Qed.
Lemma single_unambiguous name hs : (length (filter (fun n => eq_nocase n name) (map fst hs)) <= 1)%nat -> unambiguous name hs.
Proof.
  intros L n v n' v' I I' S S'. assert (G : exists a, forall m u, In (m, u) hs -> same_name m name -> u = a).
  { clear I I' S S' n v n' v'. induction hs as [|[m u] hs IH]; [exists []; intros m u []|]. cbn [map filter fst] in L. destruct (eq_nocase m name) eqn:E.
    - exists u. intros m' u' [Z|I] S; [congruence|]. exfalso. assert (F : In m' (filter (fun n => eq_nocase n name) (map fst hs))) by (apply filter_In; split; [exact (in_map fst _ _ I)|apply eq_nocase_spec; exact S]).
      cbn [length] in L. destruct (filter (fun n => eq_nocase n name) (map fst hs)); [destruct F|cbn [length] in L; lia].
    - destruct (IH L) as (a & A). exists a. intros m' u' [Z|I] S; [|exact (A m' u' I S)]. injection Z as -> ->. apply eq_nocase_spec in S. congruence. }
  destruct G as (a & A). rewrite (A _ _ I S), (A _ _ I' S'). reflexivity.
Qed.
Lemma metrics_certified cs H uq glob order umod d st : 0 < cs -> (forall l, Permutation (order l) l) -> tidy umod uq d ->
  run_shared cs H uq glob (site_events H order d) router_new = Some st -> certifies st (metrics_entry H).
Proof.
  intros CS O T R. destruct (C98_direct_entry_stays_partial cs H uq glob [] [OnRouter (site_call order d)] (metrics_entry H)) as (st' & R' & C); try assumption.
  - exact (Forall_inv_tail (site_order H order d O)).
  - exact metrics_clean.
  - intros c [Z|[]]. injection Z as <-. unfold site_call. intro Z; discriminate Z.
  - intros c f u [Z|[]] I. injection Z as <-. cbn [en_path metrics_entry is_wildcard]. destruct f.
    + apply site_names_scope in I. subst u. split; [exact root_clean|intro Z; discriminate Z].
    + apply site_names_exact in I. split; [exact (tidy_clean _ _ _ _ T I)|]. intro Z. injection Z as Z. destruct (proj1 (proj2 T) u I) as (_ & _ & N). exact (N Z).
  - intros o [Z|[]]. discriminate Z.
  - cbn [app] in R'. fold (site_events H order d) in R'. congruence.
Qed.
Theorem C99_metrics_is_accepted :
  forall (umod cap_max : N) (checked : bool) (H : bytes -> bytes) ple vs uri_path uri_query gunzip inflate glob (cs : N) sort
         order (d : dir) (st : router) (root : bytes) (rq : request) (balance : N) (data_certificate : bytes) (c : certificate) canister_id now offset key min_version,
  (forall y, length (H y) = 32%nat) -> 32 < umod <= 2 ^ 64 -> 0 < cs -> min_version <= 2 ->
  (forall l, Permutation (order l) l) -> tidy umod uri_query d ->
  certify_all_assets cs H uri_query glob order d = Some (st, root) ->
  (* a request for /metrics, whatever its method, query, headers and body *)
  path_of uri_path rq (bs "/metrics") ->
  cert_from_cbor umod cap_max data_certificate = OOk c ->
  verify_certificate umod cap_max checked H ple vs c canister_id key now offset = OOk tt ->
  lookup_path (certified_data_path canister_id) (c_tree c) = Found root ->
  exists rs i,
  site_http_request cs H uri_path umod sort st (Some data_certificate) balance rq = Some rs /\ rs_status rs = 200 /\
  rs_body rs = bs "{""num_assets"":" ++ dec (N.of_nat (length (r_responses st))) ++ bs ",""num_fallback_assets"":" ++ dec (N.of_nat (length (r_fallbacks st))) ++ bs ",""cycle_balance"":" ++ dec balance ++ bs "}" /\
  verify umod cap_max checked H ple vs uri_path uri_query gunzip inflate rq rs canister_id now offset key min_version = OOk i /\
  i_version i = 2 /\ i_response i = None.
Proof.
  intros umod cap ck H ple vs up uq gz df glob cs sort order d st root rq balance dc c cid now off key mv HL U CS MV O T E PO CB VC LK.
  destruct (init_run _ _ _ _ _ _ _ _ E) as (R & -> & _). assert (ME := metrics_certified cs H uq glob order umod d st CS O T R).
  destruct (shared_history cs H uq glob (fun e => Forall (short umod) (entry_tree_path e)) (site_events H order d) CS (site_order H order d O)) as (st' & R' & _ & (ops & RUN & SH) & _).
  { intros c' f' k' x' I w. eapply plain_short; [exact HL|exact (proj1 U)|]. refine (plain_put umod cs H uq glob c' f' k' x' CS _ w).
    destruct I as [Z|[Z|[]]]; [discriminate Z|]. injection Z as <-. exact (site_plain_urls umod uq order d T). }
  { intros en [Z|[Z|[]]]; [injection Z as <-; apply metrics_short; [exact HL|lia]|discriminate Z]. }
  assert (st' = st) by congruence. subst st'.
  assert (HE : held ops (metrics_entry H)) by (apply (held_get H ops (r_tree st) _ RUN); exact ME).
  assert (AN : answers ops (en_path (metrics_entry H)) (bs "/metrics")) by reflexivity.
  destruct (C51_certified_entry_verifies H ops (r_tree st) (metrics_entry H) (bs "/metrics") (bs "/metrics") RUN HE AN eq_refl I) as (w & Ew & _).
  set (body := metrics_json (N.of_nat (length (r_responses st))) (N.of_nat (length (r_fallbacks st))) balance).
  set (rs1 := mk_response 200 (get_asset_headers [(cert_expr_header_name, print_cel CelSkip)]) body).
  destruct (C51_certified_response_is_accepted umod cap ck H ple vs up uq gz df ops (r_tree st) (metrics_entry H) CelSkip rq rq rs1 (bs "/metrics") (bs "/metrics") dc c w cid now off key mv) as (i & V & V2 & NR); try assumption; try reflexivity; try lia.
  { constructor. }
  { constructor. }
  { intros _. unfold rs1, get_asset_headers. cbn [rs_headers]. apply last_header_snoc. apply eq_nocase_spec. reflexivity. }
  { cbn [path_text en_path metrics_entry]. change (length (bs "/metrics")) with 8%nat. lia. }
  unfold site_http_request. apply C63_request_path_exact in PO. rewrite PO. rewrite bytes_eqb_refl. unfold serve_metrics. rewrite Ew.
  eexists. exists (mk_info (i_response i) (i_version i)). split; [reflexivity|]. split; [reflexivity|]. split; [reflexivity|]. cbn [i_version i_response].
  split; [|split; [exact V2|exact NR]].
  set (h := (certificate_header_name, v2_certificate_header dc w (expr_path (PExact (bs "/metrics"))))).
  assert (SV := C72_header_order_is_irrelevant umod cap ck H ple vs up uq gz df rq 200 (rs_headers rs1 ++ [h]) (h :: rs_headers rs1) body cid now off key mv).
  assert (SV' : same_verdict (verify umod cap ck H ple vs up uq gz df rq (mk_response 200 (rs_headers rs1 ++ [h]) body) cid now off key mv)
                             (verify umod cap ck H ple vs up uq gz df rq (mk_response 200 (h :: rs_headers rs1) body) cid now off key mv)).
  { apply SV; [apply Permutation_sym, Permutation_cons_append|]. clearbody body. unfold rs1, h. clear. generalize (v2_certificate_header dc w (expr_path (PExact (bs "/metrics")))). intro hv. cbn [rs_headers].
    repeat (apply Forall_cons; [apply single_unambiguous; vm_compute; repeat constructor|]). apply Forall_nil. }
  unfold rs1 in V. change (add_v2_certificate_header dc (mk_response 200 (get_asset_headers [(cert_expr_header_name, print_cel CelSkip)]) body) w (expr_path (en_path (metrics_entry H))))
    with (mk_response 200 (rs_headers rs1 ++ [h]) body) in V. rewrite V in SV'.
  change (mk_response (rs_status _) (rs_headers _ ++ _) (rs_body _)) with (mk_response 200 (h :: rs_headers rs1) body).
  destruct (verify umod cap ck H ple vs up uq gz df rq (mk_response 200 (h :: rs_headers rs1) body) cid now off key mv) as [j| | |]; cbn [same_verdict] in SV'; try contradiction.
  destruct SV' as [A B]. destruct j as [jr jv]. cbn [i_version i_response] in *. rewrite NR in B |- *. destruct jr; [contradiction|]. congruence.
Qed.
Print Assumptions C99_metrics_is_accepted.

(** ** C100: pages *)
Definition index_config : config :=
  NFile (bs "index.html") (Some (bs "text/html")) (get_asset_headers [(bs "cache-control", bs "public, no-cache, no-store")]) [mk_fallback (bs "/") (Some 200)] [bs "/"] site_encodings.
Lemma site_cfgs glob cfgs : normalize_all glob site_configs = Some cfgs ->
  exists m1 m2 m3 m4, cfgs = [index_config; NPattern m1 (Some (bs "text/javascript")) immutable_cache site_encodings; NPattern m2 (Some (bs "text/css")) immutable_cache site_encodings;
    NPattern m3 (Some (bs "image/x-icon")) immutable_cache []; NPattern m4 (Some (bs "image/svg+xml")) immutable_cache []; NRedirect (bs "/old-url") (bs "/") Permanent].
Proof.
  unfold site_configs. cbn [normalize_all normalize]. destruct (glob (bs "**/*.js")) as [m1|]; [|discriminate]. destruct (glob (bs "**/*.css")) as [m2|]; [|discriminate].
  destruct (glob (bs "**/*.ico")) as [m3|]; [|discriminate]. destruct (glob (bs "**/*.svg")) as [m4|]; [|discriminate]. intro E. injection E as <-. exists m1, m2, m3, m4. reflexivity.
Qed.
(** which configuration an asset has *)
Lemma site_first glob cfgs a c : normalize_all glob site_configs = Some cfgs -> first_config cfgs a c ->
  no_expression (headers_of c) /\ (forall e s, In (e, s) (encodings_of c) -> s = bs ".br" \/ s = bs ".gz") /\
  (c = Some index_config /\ as_path a = bs "index.html" \/ as_path a <> bs "index.html" /\ aliases_of c = [] /\ fallbacks_of c = []).
Proof.
  intros N F. destruct (site_cfgs _ _ N) as (m1 & m2 & m3 & m4 & ->). clear N.
  assert (NI : matches_asset index_config a = false -> as_path a <> bs "index.html") by (cbn; intros Z X; rewrite X in Z; discriminate Z).
  assert (EN : forall e s, In (e, s) site_encodings -> s = bs ".br" \/ s = bs ".gz") by (intros e s [Z|[Z|[]]]; injection Z as _ <-; auto).
  destruct c as [x|].
  - destruct F as (l & r & E & M & B). destruct l as [|y l]; [injection E as <- _; split; [apply site_no_expression|split; [exact EN|left; split; [reflexivity|]]]; cbn in M; apply bytes_eqb_eq in M; symmetry; exact M|].
    injection E as <- E. assert (NI' := NI (B _ (or_introl eq_refl))). clear B NI.
    assert (X : In x (l ++ x :: r)) by (apply in_or_app; right; left; reflexivity). rewrite <- E in X. destruct X as [<-|[<-|[<-|[<-|[<-|[]]]]]]; cbn [headers_of encodings_of aliases_of fallbacks_of];
      (split; [first [apply site_no_expression|constructor]|]); (split; [first [exact EN|intros e s []]|right; auto]).
  - split; [constructor|]. split; [intros e s []|]. right. split; [apply NI, F; left; reflexivity|auto].
Qed.
Lemma last_collected d a : last_asset (collect_assets d) a -> file_of d (as_path a) (as_content a) /\ as_url a = path_to_url (as_path a).
Proof. intros (l & r & E & _). assert (I : In a (collect_assets d)) by (rewrite E; apply in_or_app; right; left; reflexivity). apply collected in I. destruct I as (p & c & F & ->). cbn. auto. Qed.
Lemma last_exists (l : list asset) a : In a l -> exists b, last_asset l b /\ as_path b = as_path a.
Proof.
  induction l as [|x l IH] using rev_ind; [intros []|]. intro I. destruct (bytes_eqb_spec (as_path x) (as_path a)) as [E|N].
  - exists x. split; [exists l, []; split; [reflexivity|intros b []]|exact E].
  - apply in_app_or in I. destruct I as [I|[->|[]]]; [|congruence]. destruct (IH I) as (b & (l' & r & -> & B) & E). exists b. split; [|exact E].
    exists l', (r ++ [x]). split; [rewrite <- app_assoc; reflexivity|]. intros y J. apply in_app_or in J. destruct J as [J|[<-|[]]]; [exact (B y J)|]. congruence.
Qed.
Lemma site_variant d glob cfgs a c enc : normalize_all glob site_configs = Some cfgs -> variant (collect_assets d) cfgs a c enc ->
  exists p, as_url a = path_to_url p /\ variant_of d p (as_content a) /\
    (c = Some index_config /\ p = bs "index.html" \/ p <> bs "index.html" /\ aliases_of c = [] /\ fallbacks_of c = []).
Proof.
  intros N V. inversion V as [a' c' L F|a' c' e s ea L F Ie Le Pe]; subst.
  - destruct (site_first _ _ _ _ N F) as (_ & _ & D). destruct (last_collected d a L) as [FO U]. exists (as_path a). split; [exact U|]. split; [left; exact FO|exact D].
  - destruct (site_first _ _ _ _ N F) as (_ & SF & D). destruct (last_collected d a' L) as [FO U]. destruct (last_collected d ea Le) as [FE _]. exists (as_path a'). cbn [aliased as_url as_content].
    split; [exact U|]. split; [|exact D]. rewrite Pe in FE. destruct (SF e s Ie) as [-> | ->]; [right; left; exact FE|right; right; exact FE].
Qed.
(** what is stored, in terms of the directory *)
Lemma site_static d cs H uq glob k x : 0 < cs -> configured cs H uq glob (collect_assets d) site_configs false k x ->
  k_range k = None /\ N.of_nat (length (rs_body (ca_response x))) <= cs \/ k_range k = Some 0 ->
  site_answer cs d (k_path k) (rs_status (ca_response x)) (rs_body (ca_response x)).
Proof.
  intros CS C R.
  assert (UP : forall cfgs a c enc u, normalize_all glob site_configs = Some cfgs -> variant (collect_assets d) cfgs a c enc -> u = as_url a \/ In u (aliases_of c) ->
    exists p, (u = path_to_url p \/ u = bs "/" /\ p = bs "index.html") /\ variant_of d p (as_content a)).
  { intros cfgs a c enc u N V U. destruct (site_variant d glob cfgs a c enc N V) as (p & E & VO & D). exists p. split; [|exact VO]. destruct U as [->|U]; [left; exact E|right].
    destruct D as [[-> ->]|(_ & Z & _)]; [|rewrite Z in U; destruct U]. destruct U as [<-|[]]. auto. }
  inversion C as [cfgs a c enc u x' N V U P|cfgs a c enc u i before body after x' N V U E L D B P| |from to kind x' I P]; subst; cbn [k_path k_range] in *; rewrite (proj1 P) in *; cbn [rs_status rs_body] in *.
  - destruct (UP _ _ _ _ _ N V U) as (p & PU & VO). destruct R as [[_ R]|R]; [|discriminate R]. exact (AnswerFile cs d u p _ PU VO R).
  - destruct (UP _ _ _ _ _ N V U) as (p & PU & VO). destruct R as [[R _]|R]; [discriminate R|]. injection R as R. rewrite R in L. destruct before; [|discriminate L]. cbn [app] in E. rewrite E in VO, B. rewrite app_length in B.
    destruct D as [D|[-> D]]; [|cbn [length] in B; lia]. apply (AnswerPart cs d u p _ _ after PU VO eq_refl D). intros ->. cbn [length] in B. lia.
  - unfold site_configs in I. destruct I as [I|[I|[I|[I|[I|[I|[]]]]]]]; try discriminate I. injection I as <- <- <-. apply AnswerMoved. reflexivity.
Qed.
Lemma site_fallback d cs H uq glob k x : configured cs H uq glob (collect_assets d) site_configs true k x ->
  k_path k = bs "/" /\ rs_status (ca_response x) = 200 /\ variant_of d (bs "index.html") (rs_body (ca_response x)).
Proof.
  intro C. inversion C as [| |cfgs a c enc fb x' N V I P|]; subst. destruct (site_variant d glob cfgs a c enc N V) as (p & E & VO & D). destruct D as [[-> ->]|(_ & _ & Z)]; [|rewrite Z in I; destruct I].
  destruct I as [<-|[]]. rewrite (proj1 P). cbn. auto.
Qed.
(** everything the directory has is stored *)
Lemma site_stored cs H uq glob order d t st umod : 0 < cs -> (forall l, Permutation (order l) l) -> tidy umod uq d -> reachable cs H uq glob (router_with t) ->
  certify_assets cs H uq glob order (collect_assets d) site_configs (router_with t) = (st, OOk tt) ->
  (exists c, file_of d (bs "index.html") c) ->
  (forall u, site_name d u -> exists y, stored st false (mk_key u None None) y) /\ (exists y, stored st true (mk_key (bs "/") None None) y) /\
  (forall f k x, stored st f k x -> configured cs H uq glob (collect_assets d) site_configs f k x).
Proof.
  intros CS O T R E (ci & FI). destruct (C67_certify_stores_and_certifies cs H uq glob (router_with t) st order (collect_assets d) site_configs CS R O E) as (W & S & _).
  assert (NA : exists cfgs, normalize_all glob site_configs = Some cfgs).
  { unfold certify_assets in E. destruct (normalize_all glob site_configs) as [cfgs|]; [eauto|]. cbn [attempt] in E. discriminate E. }
  destruct NA as (cfgs & N). destruct T as (TU & _ & _).
  assert (WS : forall f k x, written cs H uq glob (collect_assets d) site_configs f k x -> exists y, stored st f k y) by (intros f k x w; destruct (W f k x w) as (y & _ & Y); eauto).
  assert (A : forall p c, file_of d p c -> exists a, last_asset (collect_assets d) a /\ as_path a = p /\ as_url a = path_to_url p).
  { intros p c F. destruct (last_exists (collect_assets d) (asset_new p c)) as (b & L & P); [apply collected; eauto|]. exists b. destruct (last_collected d b L) as [_ U]. cbn in P. rewrite P in U. auto. }
  assert (IX : exists a, last_asset (collect_assets d) a /\ as_url a = bs "/index.html" /\ first_config cfgs a (Some index_config)).
  { destruct (A _ _ FI) as (a & L & P & U). exists a. split; [exact L|]. split; [exact U|]. assert (FC := find_first cfgs a). destruct (site_first _ _ _ _ N FC) as (_ & _ & [[Ef _]|[Z _]]); [|contradiction]. rewrite Ef in FC. exact FC. }
  assert (QI : uq (bs "/index.html") = Some None) by (apply TU; left; exists (bs "index.html"), ci; auto).
  split; [|split].
  - intros u [(p & c & F & ->)|[-> | ->]].
    + destruct (A p c F) as (a & L & P & U). assert (FC := find_first cfgs a). destruct (site_first _ _ _ _ N FC) as (NE & _).
      destruct (prepare_static_ok cs H uq (aliased a (path_to_url p)) (content_type_of (find (fun x => matches_asset x a) cfgs)) (headers_of (find (fun x => matches_asset x a) cfgs)) None None None NE) as (x & X).
      { cbn [aliased as_url]. apply TU. left. exists p, c. auto. }
      apply (WS false _ x). left. eapply WrittenWhole; [exact N|eapply VariantSelf; [exact L|exact FC]|]. apply (WholeStatic cs H uq a _ None (path_to_url p) x); [left; symmetry; exact U|exact X].
    + destruct IX as (a & L & U & FC). destruct (site_first _ _ _ _ N FC) as (NE & _).
      destruct (prepare_static_ok cs H uq (aliased a (bs "/")) (content_type_of (Some index_config)) (headers_of (Some index_config)) None None None NE) as (x & X).
      { cbn [aliased as_url]. apply TU. right. left. reflexivity. }
      apply (WS false _ x). left. eapply WrittenWhole; [exact N|eapply VariantSelf; [exact L|exact FC]|]. apply (WholeStatic cs H uq a _ None (bs "/") x); [right; left; reflexivity|exact X].
    + destruct (prepare_redirect_ok H uq (bs "/old-url") (bs "/") Permanent None) as (x & X); [apply TU; right; right; reflexivity|].
      apply (WS false _ x). left. eapply WrittenRedirect; [|exact X]. do 5 right. left. reflexivity.
  - destruct IX as (a & L & U & FC). destruct (site_first _ _ _ _ N FC) as (NE & _).
    destruct (prepare_fallback_ok cs H uq a (headers_of (Some index_config)) (content_type_of (Some index_config)) (mk_fallback (bs "/") (Some 200)) None None NE) as (x & X); [rewrite U; exact QI|].
    apply (WS true _ x). left. eapply WrittenWhole; [exact N|eapply VariantSelf; [exact L|exact FC]|]. apply (WholeFallback cs H uq a _ None (mk_fallback (bs "/") (Some 200)) x); [left; reflexivity|exact X].
  - intros f k x X. apply C67_written_is_configured; [exact CS|]. destruct (S f k x X) as [w|Z]; [exact w|]. destruct f; discriminate Z.
Qed.

Theorem C100_site_get_is_accepted_partial :
  forall (umod cap_max : N) (checked : bool) (H : bytes -> bytes) ple vs uri_path uri_query gunzip inflate glob (cs : N) sort
         order (d : dir) (st : router) (root : bytes) (rq : request) (path : bytes) (balance : N) (data_certificate : bytes) (c : certificate) canister_id now offset key min_version,
  (forall y, length (H y) = 32%nat) -> 32 < umod <= 2 ^ 64 -> 0 < cs -> min_version <= 2 ->
  (forall l, Permutation (order l) l) -> tidy umod uri_query d -> (exists content, file_of d (bs "index.html") content) ->
  certify_all_assets cs H uri_query glob order d = Some (st, root) ->
  (* a GET request without query, body and range, for any path that is not a spelling variant of a known one *)
  plain_get uri_query rq True -> path_of uri_path rq path -> path <> bs "/metrics" -> (exists rest, path = bs "/" ++ rest) ->
  (forall s, In s (request_parts path) -> s <> bs "<$>" /\ s <> bs "<*>") -> (forall r, request_parts path <> bs "http_expr" :: r) ->
  (forall u, site_name d u \/ u = bs "/metrics" -> request_parts u = request_parts path -> u = path) ->
  cert_from_cbor umod cap_max data_certificate = OOk c ->
  verify_certificate umod cap_max checked H ple vs c canister_id key now offset = OOk tt ->
  lookup_path (certified_data_path canister_id) (c_tree c) = Found root ->
  (* or two of the site's responses exhibit a collision of [H] *)
  (exists f k x f' k' x', configured cs H uri_query glob (collect_assets d) site_configs f k x /\ configured cs H uri_query glob (collect_assets d) site_configs f' k' x' /\ response_collision H x x') \/
  exists rs i v,
  site_http_request cs H uri_path umod sort st (Some data_certificate) balance rq = Some rs /\
  site_answer cs d path (rs_status rs) (rs_body rs) /\
  verify umod cap_max checked H ple vs uri_path uri_query gunzip inflate rq rs canister_id now offset key min_version = OOk i /\
  i_version i = 2 /\ i_response i = Some v /\ v_status v = Some (rs_status rs) /\ v_body v = rs_body rs.
Proof.
  intros umod cap ck H ple vs up uq gz df glob cs sort order d st root rq path balance dc c cid now off key mv HL U CS MV O T IX E PG PO NM (rest & PR) CP NH SL CB VC LK.
  destruct (init_run _ _ _ _ _ _ _ _ E) as (R & -> & t & Et & Ec).
  assert (RT : reachable cs H uq glob (router_with t)).
  { apply (ReachStart cs H uq glob [HInsert (metrics_entry H)] t). unfold http_run. cbn [map nrun]. rewrite Et. reflexivity. }
  destruct (site_stored cs H uq glob order d t st umod CS O T RT Ec IX) as (SN & (yf & SF) & SC).
  assert (RE : reachable cs H uq glob st) by (exact (shared_reachable cs H uq glob _ (site_order H order d O) router_new st (new_reachable cs H uq glob) R)).
  assert (CPU : clean_url path) by (split; intro I; [exact (proj1 (CP _ I) eq_refl)|exact (proj2 (CP _ I) eq_refl)]).
  assert (EN : forall f u, event_name (site_events H order d) f u -> if f then u = bs "/" else site_name d u \/ u = bs "/metrics").
  { intros f u [(c' & [Z|[Z|[]]] & I)|(en & [Z|[Z|[]]] & W & P)]; try discriminate Z.
    - injection Z as <-. destruct f; [apply site_names_scope in I; exact I|left; apply site_names_exact in I; exact I].
    - injection Z as <-. cbn in W, P. subst f. right. symmetry. exact P. }
  set (pref := get_preferred_encodings sort rq).
  destruct (C62_which_response cs H uq glob st path pref None CS RE) as (WA & WB & WC).
  destruct (get_asset_for_request cs st path pref None) as [[f x]|] eqn:G.
  2:{ exfalso. destruct (proj1 WC eq_refl) as [_ Z]. apply (Z (bs "/") None yf); [|left; reflexivity|exact SF]. exists [], rest. split; [exact PR|left; reflexivity]. }
  destruct (C96_shared_plain_get_is_accepted_partial umod cap ck H ple vs up uq gz df glob cs sort (site_events H order d) st rq path f x dc c cid now off key mv) as [(f' & k' & x' & (c' & Ic & w) & CO)|(rs & i & v & S & ST & BD & V & V2 & VR & VS & VB)]; try assumption.
  - intros e [<-|[<-|[]]]; [apply metrics_short; [exact HL|lia]|]. split; [exact O|]. split; [apply site_plain_call|apply site_plain_urls; exact T].
  - intros f0 u N. apply EN in N. destruct f0; [subst u; exact root_clean|]. destruct N as [N| ->]; [exact (tidy_clean _ _ _ _ T N)|exact metrics_clean].
  - intros f0 c1 u c2 u' [Z|[Z|[]]] I1 [Z'|[Z'|[]]] I2 EQ; try discriminate Z; try discriminate Z'. injection Z as <-. injection Z' as <-. destruct f0.
    + apply site_names_scope in I1, I2. congruence.
    + apply site_names_exact in I1, I2. exact (proj2 (proj2 T) u u' I1 I2 EQ).
  - intros o [Z|[Z|[]]]; [|discriminate Z]. injection Z as <-. cbn [keeps_apart metrics_entry en_path path_text is_wildcard]. split; [exact metrics_clean|].
    intros c' u [Z|[Z|[]]] I EQ; [discriminate Z|]. injection Z as <-. apply site_names_exact in I. destruct (proj1 (proj2 T) u I) as (_ & _ & N). exact (N EQ).
  - intros ->. split; [exact CPU|]. split; [exact NH|]. destruct (proj1 (WB x) eq_refl) as [_ NS]. split.
    + intros u N EQ. apply EN in N. assert (X := SL u N EQ). subst u. destruct N as [N|N]; [|contradiction]. destruct (SN path N) as (y & Y). exact (NS None y (or_introl eq_refl) Y).
    + intros u N [M SP]. apply EN in N. subst u. destruct (choice_stored _ _ _ _ _ _ _ _ _ _ CS RE G) as (k & Sk & _). destruct (site_fallback d cs H uq glob k x (SC true k x Sk)) as (KP & _).
      destruct (C95_shared_stored_is_certified cs H uq glob (site_events H order d) CS (site_order H order d O)) as (st' & R' & C95). assert (st' = st) by congruence. subst st'. destruct (C95 true k x Sk) as [(c' & Ic & w) _].
      rewrite (proj2 (written_at cs H uq glob c' true k x CS (or_introl w))) in SP. cbn [path_text] in SP. rewrite KP in SP. destruct SP as [SP|(_ & N1 & N2)]; [lia|contradiction].
  - left. destruct (choice_stored _ _ _ _ _ _ _ _ _ _ CS RE G) as (k & Sk & _). exists f, k, x, f', k', x'. split; [exact (SC f k x Sk)|]. split; [|exact CO].
    apply router_call_in in Ic. destruct Ic as [Z|[Z|[]]]; [discriminate Z|]. injection Z as <-. destruct w as [w|[]]. apply C67_written_is_configured; assumption.
  - right. exists rs, i, v. split.
    { unfold site_http_request. apply C63_request_path_exact in PO. rewrite PO. destruct (bytes_eqb_spec path (bs "/metrics")) as [Z|_]; [contradiction|]. unfold site_serve_asset. rewrite S. reflexivity. }
    split; [|repeat (split; [assumption|]); assumption]. rewrite ST, BD. destruct f.
    + destruct (proj1 (WB x) eq_refl) as [_ NS]. destruct (choice_stored _ _ _ _ _ _ _ _ _ _ CS RE G) as (k & Sk & _). destruct (site_fallback d cs H uq glob k x (SC true k x Sk)) as (_ & -> & VO).
      apply AnswerIndex; [|exact VO]. intro N. destruct (SN path N) as (y & Y). exact (NS None y (or_introl eq_refl) Y).
    + destruct (proj1 (WA x) eq_refl) as (e & y & (b & a & _ & Sy & _) & D).
      assert (K : exists k, k_path k = path /\ stored st false k x /\ (k_range k = None /\ N.of_nat (length (rs_body (ca_response x))) <= cs \/ k_range k = Some 0)).
      { destruct D as [[L ->]|[_ S0]]; [exists (mk_key path e None)|exists (mk_key path e (Some 0))]; cbn [k_path k_range]; auto. }
      destruct K as (k & <- & Sk & D'). exact (site_static d cs H uq glob k x CS (SC false k x Sk) D').
Qed.
Print Assumptions C100_site_get_is_accepted_partial.

(** ** C101: and nothing else *)
Definition site_src (en : entry) (ce : cel) (rq : request) (rs : response) : Prop := ce = CelSkip.
Lemma site_plain umod cs H uq order d : 0 < cs -> (forall l, Permutation (order l) l) -> tidy umod uq d -> Forall (shared_plain umod H uq site_src) (site_events H order d).
Proof.
  intros CS O T. unfold site_events. apply Forall_cons; [|apply Forall_cons; [|apply Forall_nil]].
  - exists CelSkip, (mk_request [] [] [] []), (mk_response 0 [] []). split; [reflexivity|]. split; [constructor|]. split; [constructor|]. split; constructor.
  - split; [exact O|]. split; [apply site_plain_call|apply site_plain_urls; exact T].
Qed.
Lemma site_configured_content d cs H uq glob k x path : 0 < cs -> configured cs H uq glob (collect_assets d) site_configs false k x -> request_parts (k_path k) = request_parts path ->
  site_content d path (rs_status (ca_response x)) (rs_body (ca_response x)).
Proof.
  intros CS C Q.
  assert (UP : forall cfgs a c enc u, normalize_all glob site_configs = Some cfgs -> variant (collect_assets d) cfgs a c enc -> u = as_url a \/ In u (aliases_of c) ->
    exists p, (u = path_to_url p \/ u = bs "/" /\ p = bs "index.html") /\ variant_of d p (as_content a)).
  { intros cfgs a c enc u N V U. destruct (site_variant d glob cfgs a c enc N V) as (p & E & VO & D). exists p. split; [|exact VO]. destruct U as [->|U]; [left; exact E|right].
    destruct D as [[-> ->]|(_ & Z & _)]; [|rewrite Z in U; destruct U]. destruct U as [<-|[]]. auto. }
  inversion C as [cfgs a c enc u x' N V U P|cfgs a c enc u i before body after x' N V U E L D B P| |from to kind x' I P]; subst; cbn [k_path k_range] in *; rewrite (proj1 P) in *; cbn [rs_status rs_body] in *.
  - destruct (UP _ _ _ _ _ N V U) as (p & PU & VO). exact (ContentFile d path u p _ Q PU VO).
  - destruct (UP _ _ _ _ _ N V U) as (p & PU & VO). exact (ContentPart d path u p _ before body after Q PU VO E).
  - unfold site_configs in I. destruct I as [I|[I|[I|[I|[I|[I|[]]]]]]]; try discriminate I. injection I as <- <- <-. apply ContentMoved. symmetry. exact Q.
Qed.
Lemma site_certified cs H uq glob order umod d st f k x : (forall x, length (H x) = 32%nat) -> 0 < cs -> (forall l, Permutation (order l) l) -> tidy umod uq d ->
  run_shared cs H uq glob (site_events H order d) router_new = Some st -> stored st f k x ->
  certifies st (ca_entry x) \/ exists f' k' x', configured cs H uq glob (collect_assets d) site_configs f' k' x' /\ response_collision H x x'.
Proof.
  intros HL CS O T R X.
  destruct (shared_certified cs H uq glob (site_events H order d) st f k x HL CS (site_order H order d O)) as [Y|(f' & k' & x' & (c' & Ic & w) & CO)]; auto.
  - intros c [Z|[Z|[]]]; [discriminate Z|]. injection Z as <-. apply site_plain_call.
  - intros f0 u [(c' & [Z|[Z|[]]] & I)|(en & [Z|[Z|[]]] & W & P)]; try discriminate Z.
    + injection Z as <-. destruct f0; [apply site_names_scope in I; subst u; exact root_clean|apply site_names_exact in I; exact (tidy_clean _ _ _ _ T I)].
    + injection Z as <-. cbn in P. subst u. exact metrics_clean.
  - intros f0 c1 u c2 u' [Z|[Z|[]]] I1 [Z'|[Z'|[]]] I2 EQ; try discriminate Z; try discriminate Z'. injection Z as <-. injection Z' as <-. destruct f0.
    + apply site_names_scope in I1, I2. congruence.
    + apply site_names_exact in I1, I2. exact (proj2 (proj2 T) u u' I1 I2 EQ).
  - intros o [Z|[Z|[]]]; [|discriminate Z]. injection Z as <-. cbn [keeps_apart metrics_entry en_path path_text is_wildcard]. split; [exact metrics_clean|].
    intros c' u [Z|[Z|[]]] I EQ; [discriminate Z|]. injection Z as <-. apply site_names_exact in I. destruct (proj1 (proj2 T) u I) as (_ & _ & N). exact (N EQ).
  - right. exists f', k', x'. split; [|exact CO].
    apply router_call_in in Ic. destruct Ic as [Z|[Z|[]]]; [discriminate Z|]. injection Z as <-. destruct w as [w|[]]. apply C67_written_is_configured; assumption.
Qed.
Theorem C101_only_site_content_is_accepted :
  forall (umod cap_max : N) (checked : bool) (H : bytes -> bytes) ple vs uri_path uri_query gunzip inflate key (Root : htree -> Prop) (Sub : bytes -> htree -> Prop),
  (forall x, length (H x) = 32%nat) -> unforgeable H vs key Root Sub ->
  forall glob (cs : N) order (d : dir) (st : router) (root : bytes) rq rs canister_id now offset min_version i,
  0 < cs -> (forall l, Permutation (order l) l) -> tidy umod uri_query d -> (exists content, file_of d (bs "index.html") content) ->
  certify_all_assets cs H uri_query glob order d = Some (st, root) ->
  (* the canister's certified data is what it set *)
  (forall St x, speaks_for umod cap_max ple Root Sub canister_id St -> at_path (certified_data_path canister_id) St (HLeaf x) -> x = root) ->
  no_pseudo (rq_headers rq) -> no_pseudo (rs_headers rs) ->
  (forall path, path_of uri_path rq path -> ordinary_path path) ->
  verify umod cap_max checked H ple vs uri_path uri_query gunzip inflate rq rs canister_id now offset key min_version = OOk i ->
  exists hv hd, last_header (bs "IC-Certificate") (rs_headers rs) hv /\ header_from umod cap_max hv = OOk hd /\
  (certificate_collision umod cap_max H Root Sub (h_cert hd) \/
   collision H (preimages H (HLabeled (bs "http_expr") (nhtree H (r_tree st)))) (preimages H (h_tree hd)) \/
   exists expr path, last_header (bs "IC-CertificateExpression") (rs_headers rs) expr /\ path_of uri_path rq path /\
   (collision H [expr] (print_cel CelSkip :: router_expressions) \/
    (* nothing is vouched for: only at /metrics *)
    i_response i = None /\ request_parts path = [bs "metrics"] \/
    (* or the response is one of the site's, and the request a plain GET *)
    exists f k x, configured cs H uri_query glob (collect_assets d) site_configs f k x /\
      same_response H (HeaderExclusions []) rs (ca_response x) /\ (request_collision H uri_query rq \/ plain_get uri_query rq (k_range k <> None)) /\
      ((exists f1 k1 x1 f2 k2 x2, configured cs H uri_query glob (collect_assets d) site_configs f1 k1 x1 /\ configured cs H uri_query glob (collect_assets d) site_configs f2 k2 x2 /\ response_collision H x1 x2) \/
       site_content d path (rs_status (ca_response x)) (rs_body (ca_response x))))).
Proof.
  intros umod cap ck H ple vs up uq gz df key Root Sub HL UF glob cs order d st root rq rs cid now off mv i CS O T IX E CD NQ NR OP V.
  destruct (init_run _ _ _ _ _ _ _ _ E) as (R & -> & t & Et & Ec).
  assert (RT : reachable cs H uq glob (router_with t)).
  { apply (ReachStart cs H uq glob [HInsert (metrics_entry H)] t). unfold http_run. cbn [map nrun]. rewrite Et. reflexivity. }
  assert (SP := site_plain umod cs H uq order d CS O T).
  assert (EXP : forall expr en ce rq0 rs0, origin umod cs H uq glob site_src (site_events H order d) en ce rq0 rs0 -> collision H [expr] [print_cel ce] -> collision H [expr] (print_cel CelSkip :: router_expressions)).
  { intros expr en ce rq0 rs0 OG (a & b & A & B & D). exists a, b. split; [exact A|]. split; [|exact D]. destruct B as [<-|[]]. destruct OG as [M|[_ S]].
    - destruct M as (f & k & x & url & names & _ & _ & _ & -> & _ & _ & _ & _ & IN). right. exact (in_map (fun n => print_cel (get_expression n)) _ _ IN).
    - left. rewrite S. reflexivity. }
  destruct (i_response i) as [v|] eqn:IR.
  - destruct (C97_shared_only_certified_is_accepted umod cap ck H ple vs up uq gz df key Root Sub HL UF cs glob site_src (site_events H order d) st rq rs cid now off mv i CS SP R CD NQ NR V) as (hv & hd & L & Hd & D); [rewrite IR; intro Z; discriminate Z|].
    exists hv, hd. split; [exact L|]. split; [exact Hd|]. destruct D as [D|[D|(_ & en & ce & rq0 & rs0 & expr & path & OG & CE & _ & LE & PO & AN & D)]]; [auto|auto|]. right; right.
    exists expr, path. split; [exact LE|]. split; [exact PO|]. destruct D as [D|[_ D]]; [left; exact (EXP _ _ _ _ _ OG D)|]. right; right.
    destruct OG as [M|[_ S]]; [|rewrite S in D; destruct D].
    destruct M as (f & k & x & url & names & (c' & Ic & w) & <- & EP & -> & -> & -> & UQ & KR & IN). destruct D as [SR SQ].
    assert (CF : configured cs H uq glob (collect_assets d) site_configs f k x).
    { apply router_call_in in Ic. destruct Ic as [Z|[Z|[]]]; [discriminate Z|]. injection Z as <-. apply C67_written_is_configured; assumption. }
    exists f, k, x. split; [exact CF|]. split; [exact SR|]. split.
    { destruct (same_get H uq names url rq IN UQ SQ) as [C|(P1 & P2 & P3 & P4)]; [left; exact C|]. right. split; [exact P1|]. split; [exact P2|]. split; [exact P3|]. intro K. exact (P4 (KR K)). }
    specialize (AN (OP _ PO)). rewrite EP in AN. destruct f; [|right; exact (site_configured_content d cs H uq glob k x path CS CF AN)].
    destruct (site_fallback d cs H uq glob k x CF) as (KP & -> & VO).
    destruct (site_stored cs H uq glob order d t st umod CS O T RT Ec IX) as (SN & _ & SC).
    assert (SW : forall y p, certifies st y -> en_path y = PExact p -> somewhere st (request_parts p ++ [bs "<$>"])).
    { intros y p Y Ey. exists (cert_tree_path (en_certification y)), []. unfold certifies, entry_tree_path in Y. rewrite Ey in Y. destruct (path_segments (PExact p)) as (t0 & E0 & _ & D0). rewrite E0, <- D0 in *. exact Y. }
    destruct AN as (_ & NS & _).
    destruct (existsb (fun u => peqb (request_parts u) (request_parts path)) (call_names false (site_call order d))) eqn:EB.
    + apply existsb_exists in EB. destruct EB as (u & IU & EU). apply site_names_exact in IU. assert (Q := proj1 (peqb_spec _ _) EU).
      destruct (SN u IU) as (y & Y). destruct (site_certified cs H uq glob order umod d st false _ y HL CS O T R Y) as [CY|(f' & k' & x' & Z & CO)].
      * exfalso. apply NS. rewrite <- Q. apply (SW _ _ CY).
        destruct (C95_shared_stored_is_certified cs H uq glob (site_events H order d) CS (site_order H order d O)) as (st' & R' & C95). assert (st' = st) by congruence. subst st'. destruct (C95 _ _ _ Y) as [(c2 & I2 & w2) _].
        exact (proj2 (written_at cs H uq glob c2 false _ y CS (or_introl w2))).
      * left. exists false, (mk_key u None None), y, f', k', x'. split; [exact (SC _ _ _ Y)|]. auto.
    + right. apply ContentIndex; [|exact VO]. intros u [N| ->] Q.
      * assert (X : existsb (fun u => peqb (request_parts u) (request_parts path)) (call_names false (site_call order d)) = true); [|congruence].
        apply existsb_exists. exists u. split; [apply site_names_exact; exact N|]. apply peqb_spec. exact Q.
      * apply NS. rewrite <- Q. exact (SW _ _ (metrics_certified cs H uq glob order umod d st CS O T R) eq_refl).
  - destruct (C97_shared_skips_only_direct umod cap ck H ple vs up uq gz df key Root Sub HL UF cs glob site_src (site_events H order d) st rq rs cid now off mv i CS SP R) as (hv & hd & L & Hd & D); auto.
    + intros f c u [Z|[Z|[]]] I; [discriminate Z|]. injection Z as <-. destruct f; [apply site_names_scope in I; subst u; exact root_clean|apply site_names_exact in I; exact (tidy_clean _ _ _ _ T I)].
    + intros en [Z|[Z|[]]]; [|discriminate Z]. injection Z as <-. exact metrics_clean.
    + exists hv, hd. split; [exact L|]. split; [exact Hd|]. destruct D as [D|[D|(expr & path & en & ce & rq0 & rs0 & LE & PO & CE & AN & OG & D)]]; [auto|auto|]. right; right.
      exists expr, path. split; [exact LE|]. split; [exact PO|]. destruct D as [D|(I & _)]; [left; exact (EXP _ _ _ _ _ OG D)|]. right; left. split; [reflexivity|].
      destruct I as [<-|[]]. symmetry. exact AN.
Qed.
Print Assumptions C101_only_site_content_is_accepted.
