(** C95-C97: an asset router that shares its certification tree. *)
From Coq Require Import List Arith NArith Lia Bool Permutation.
From Verif Require Import Bytes Sha256 Utf8 Utf8Split Text HashTree HashTreeSpec RbTree Nested NestedSpec NestedProofs Cbor CborSpec HttpTypes HttpHash HttpSpec Cel CelSpec V2 Wildcard WildcardSpec Verify VerifySpec Header HeaderSpec HttpTree HttpTreeSpec CertVerify CertSpec Props_Cert Props_Header
  Props_Hash Props_Wildcard Props_Verify Props_HttpTree AssetRouter RangeSpec Props_Range AssetSpec AssetProofs AssetEffect PreparedProofs Props_Router Props_Backed ServeSpec Props_Serve Props_Accept Props_Only Props_Trip Props_Skip Shared.
Import ListNotations.
Local Open Scope N_scope.

Lemma run_shared_app cs H uq glob a b st : run_shared cs H uq glob (a ++ b) st = match run_shared cs H uq glob a st with Some st' => run_shared cs H uq glob b st' | None => None end.
Proof. revert st. induction a as [|e a IH]; intro st; [reflexivity|]. cbn [app run_shared]. destruct (run_event _ _ _ _ e st); [apply IH|reflexivity]. Qed.
Lemma router_call_in events c : In c (router_calls events) <-> In (OnRouter c) events.
Proof.
  unfold router_calls. rewrite in_flat_map. split.
  - intros (e & I & J). destruct e as [c'|o]; [|destruct J]. destruct J as [->|[]]. exact I.
  - intro I. exists (OnRouter c). split; [exact I|left; reflexivity].
Qed.
Lemma direct_entry_in events en : In en (direct_entries events) <-> In (OnTree (HInsert en)) events.
Proof.
  unfold direct_entries. rewrite in_flat_map. split.
  - intros (e & I & J). destruct e as [c'|[x|x|]]; try destruct J. subst x. exact I. destruct H.
  - intro I. exists (OnTree (HInsert en)). split; [exact I|left; reflexivity].
Qed.
Lemma nstep_live H t o : nok H t -> exists t', nstep H t (http_nop o) = Some t'.
Proof.
  intro K. destruct o as [en|en|]; cbn [http_nop nstep].
  - destruct (ninsert_ok H (entry_tree_path en) [] t K) as (t' & E & _). eauto.
  - destruct (ndelete_ok H (entry_tree_path en) t K) as (t' & E & _). eauto.
  - eauto.
Qed.

(** One event keeps every property of the tree's entries. *)
Lemma shared_event cs H uq glob (Q : entry -> Prop) e st : 0 < cs -> tok H st ->
  match e with OnRouter c => any_order c | _ => True end ->
  (forall c f k x, e = OnRouter c -> call_puts cs H uq glob c f k x -> Q (ca_entry x)) ->
  (forall en, e = OnTree (HInsert en) -> Q en) ->
  exists st', run_event cs H uq glob e st = Some st' /\ tok H st' /\
    ((exists ops, http_run H ops = Some (r_tree st) /\ Forall (fun o => match o with HInsert e => Q e | _ => True end) ops) ->
     exists ops, http_run H ops = Some (r_tree st') /\ Forall (fun o => match o with HInsert e => Q e | _ => True end) ops) /\
    (forall f k x, stored st' f k x -> stored st f k x \/ exists c, e = OnRouter c /\ call_puts cs H uq glob c f k x).
Proof.
  intros CS K O QP QD. destruct e as [c|o]; cbn [run_event].
  - destruct (run_call_steps cs H uq glob CS c st O K) as [S _]. eexists. split; [reflexivity|].
    split; [exact (steps_tok H _ _ _ _ _ _ S K)|]. split.
    + apply (steps_history H Q _ _ _ _ _ _) with (2 := S). intros f k x w. exact (QP c f k x eq_refl w).
    + intros f k x X. destruct (steps_stored H _ _ _ _ _ _ f k x S X) as [w|Z]; [right; exists c; auto|left; exact Z].
  - destruct (nstep_live H (r_tree st) o (proj1 K)) as (t & E). rewrite E. eexists. split; [reflexivity|].
    split; [exact (nstep_tok H (r_tree st) o t K E)|]. split; [|intros f k x X; left; exact X].
    intros (ops & R & F). exists (ops ++ [o]). cbn [r_tree]. split.
    + unfold http_run in *. rewrite map_app, nrun_app, R. cbn [map nrun obind]. rewrite E. reflexivity.
    + apply Forall_app. split; [exact F|]. constructor; [|constructor]. destruct o as [en|en|]; auto.
Qed.
Definition order_ok (e : event) : Prop := match e with OnRouter c => any_order c | _ => True end.
Lemma shared_history cs H uq glob (Q : entry -> Prop) events : 0 < cs -> Forall order_ok events ->
  (forall c f k x, In (OnRouter c) events -> call_puts cs H uq glob c f k x -> Q (ca_entry x)) ->
  (forall en, In (OnTree (HInsert en)) events -> Q en) ->
  exists st, run_shared cs H uq glob events router_new = Some st /\ tok H st /\
    (exists ops, http_run H ops = Some (r_tree st) /\ Forall (fun o => match o with HInsert e => Q e | _ => True end) ops) /\
    (forall f k x, stored st f k x -> exists c, In (OnRouter c) events /\ call_puts cs H uq glob c f k x).
Proof.
  intros CS. induction events as [|e events IH] using rev_ind; intros O QP QD.
  - exists router_new. split; [reflexivity|]. split; [apply new_tok|]. split; [exists []; split; [reflexivity|constructor]|]. intros [|] k x Z; discriminate Z.
  - apply Forall_app in O. destruct O as [O Oe]. inversion Oe as [|? ? Oe' _]; subst.
    destruct IH as (st & R & K & Hs & S); [exact O|intros; eapply QP; [apply in_or_app; left; eassumption|eassumption]|intros; apply QD; apply in_or_app; left; assumption|].
    destruct (shared_event cs H uq glob Q e st CS K Oe') as (st' & R' & K' & Hs' & S').
    { intros c f k x -> w. eapply QP; [apply in_or_app; right; left; reflexivity|exact w]. }
    { intros en ->. apply QD. apply in_or_app. right. left. reflexivity. }
    exists st'. split; [rewrite run_shared_app, R; cbn [run_shared]; rewrite R'; reflexivity|]. split; [exact K'|]. split; [exact (Hs' Hs)|].
    intros f k x X. destruct (S' f k x X) as [Y|(c & -> & w)].
    + destruct (S f k x Y) as (c & I & w). exists c. split; [apply in_or_app; left; exact I|exact w].
    + exists c. split; [apply in_or_app; right; left; reflexivity|exact w].
Qed.
Lemma shared_reachable cs H uq glob events : Forall order_ok events -> forall st st', reachable cs H uq glob st -> run_shared cs H uq glob events st = Some st' -> reachable cs H uq glob st'.
Proof.
  induction 1 as [|e events O F IH]; intros st st' R E; cbn [run_shared] in E; [congruence|].
  destruct (run_event cs H uq glob e st) as [s|] eqn:E1; [|discriminate]. apply (IH s st'); [|exact E].
  destruct e as [c|o]; cbn [run_event] in E1.
  - injection E1 as <-. apply ReachCall; assumption.
  - destruct (nstep H (r_tree st) (http_nop o)) as [t|] eqn:E2; [|discriminate]. injection E1 as <-. apply (ReachOther _ _ _ _ st o t); assumption.
Qed.

(** ** C95: what the router stores stays certified unless somebody else's operation overlaps it *)
(** The operation on the tree takes away or replaces what is at tree path [p]. *)
Definition disturbs (o : http_op) (p : list bytes) : Prop :=
  match o with
  | HInsert en => overlapping (entry_tree_path en) p
  | HDelete en => is_prefix (entry_tree_path en) p
  | HClear => True
  end.
Lemma steps_backed_or H (Bad : bool -> key -> certified -> Prop) (W P D : write) F C a b : (forall f k x, P f k x -> W f k x) -> (forall f k x, D f k x -> W f k x) ->
  steps H P D F C a b -> tok H a ->
  (forall f k x, stored a f k x -> certifies a (ca_entry x) \/ overlapped W f k x \/ Bad f k x) ->
  forall f k x, stored b f k x -> certifies b (ca_entry x) \/ overlapped W f k x \/ Bad f k x.
Proof.
  intros PW DW. induction 1 as [st|a b c S Ss IH]; [auto|]. intros K B. apply IH; [exact (step_tok H _ _ _ _ _ _ S K)|]. clear IH Ss c. intros f k x X. rewrite stored_at in X. unfold certifies in *. fold (ep x).
  inversion S as [f' k' x' st t w E|f' k' x' st t w E|k' st w|st w]; subst.
  - rewrite at_put in X. rewrite tree_put, (get_ins H a x' t K E). destruct (same_place f' k' f k) eqn:Q.
    + injection X as ->. left. rewrite peqb_refl. reflexivity.
    + destruct (B f k x X) as [Y|Y]; [|right; exact Y]. destruct (overlapb (ep x') (ep x)) eqn:O.
      * right. left. exists f', k', x'. split; [apply PW; exact w|]. split; [|apply overlapping_sym, overlapb_spec, O].
        intro Z. injection Z as -> ->. rewrite (proj2 (same_place_spec f k f k) (conj eq_refl eq_refl)) in Q. discriminate.
      * left. destruct (peqb (ep x') (ep x)) eqn:Q2; [reflexivity|exact Y].
  - rewrite at_drop in X. rewrite tree_drop, (get_del H a x' t K E). destruct (same_place f' k' f k) eqn:Q; [discriminate|].
    destruct (B f k x X) as [Y|Y]; [|right; exact Y]. destruct (pprefix (ep x') (ep x)) eqn:O.
    + right. left. exists f', k', x'. split; [apply DW; exact w|]. split; [|right; apply pprefix_spec, O].
      intro Z. injection Z as -> ->. rewrite (proj2 (same_place_spec f k f k) (conj eq_refl eq_refl)) in Q. discriminate.
    + left. exact Y.
  - rewrite at_drop in X. rewrite tree_drop. destruct (same_place false k' f k); [discriminate|]. exact (B f k x X).
  - destruct f; discriminate X.
Qed.

Theorem C95_shared_stored_is_certified :
  forall (cs : N) (H : bytes -> bytes) uri_query glob (events : list event),
  0 < cs -> Forall (fun e => match e with OnRouter c => any_order c | _ => True end) events ->
  exists st, run_shared cs H uri_query glob events router_new = Some st /\
  forall f k x, stored st f k x ->
  (exists c, In (OnRouter c) events /\ call_puts cs H uri_query glob c f k x) /\
  (certifies st (ca_entry x) \/
   (exists f' k' x', history_written cs H uri_query glob (router_calls events) f' k' x' /\ (f', k') <> (f, k) /\
      overlapping (entry_tree_path (ca_entry x)) (entry_tree_path (ca_entry x'))) \/
   exists o, In (OnTree o) events /\ disturbs o (entry_tree_path (ca_entry x))).
Proof.
  intros cs H uq glob events CS O.
  destruct (shared_history cs H uq glob (fun _ => True) events CS O (fun _ _ _ _ _ _ => I) (fun _ _ => I)) as (st & R & K & _ & S).
  exists st. split; [exact R|]. intros f k x X. split; [exact (S f k x X)|].
  set (W := history_written cs H uq glob (router_calls events)).
  set (Bad := fun (f : bool) (k : key) (x : certified) => exists o, In (OnTree o) events /\ disturbs o (entry_tree_path (ca_entry x))).
  change (certifies st (ca_entry x) \/ overlapped W f k x \/ Bad f k x).
  assert (G : forall evs, incl evs events -> Forall order_ok evs -> forall a b, tok H a -> run_shared cs H uq glob evs a = Some b ->
    (forall f k x, stored a f k x -> certifies a (ca_entry x) \/ overlapped W f k x \/ Bad f k x) ->
    forall f k x, stored b f k x -> certifies b (ca_entry x) \/ overlapped W f k x \/ Bad f k x).
  { clear - CS. induction evs as [|e evs IH]; intros IN O a b K E B; cbn [run_shared] in E; [injection E as <-; exact B|].
    inversion O as [|? ? Oe O']; subst. destruct (run_event cs H uq glob e a) as [s|] eqn:E1; [|discriminate].
    destruct e as [c|o]; cbn [run_event] in E1.
    - injection E1 as <-. destruct (run_call_steps cs H uq glob CS c a Oe K) as [St _].
      assert (Ic : In c (router_calls events)) by (apply router_call_in, IN; left; reflexivity).
      refine (IH _ O' _ b _ E _).
      + intros y I. apply IN. right. exact I.
      + exact (steps_tok H _ _ _ _ _ _ St K).
      + eapply (steps_backed_or H Bad W); [| |exact St|exact K|exact B]; intros f k x w; exists c; auto.
    - destruct (nstep H (r_tree a) (http_nop o)) as [t|] eqn:E2; [|discriminate]. injection E1 as <-.
      refine (IH _ O' _ b _ E _).
      + intros y I. apply IN. right. exact I.
      + exact (nstep_tok H (r_tree a) o t K E2).
      + intros f k x X. assert (Io : In (OnTree o) events) by (apply IN; left; reflexivity).
        destruct (B f k x X) as [Y|Y]; [|right; exact Y]. unfold certifies in *. cbn [r_tree].
        destruct o as [en|en|]; cbn [http_nop nstep] in E2.
        * destruct (ninsert_ok H (entry_tree_path en) [] _ (proj1 K)) as (t' & E' & _ & Gt & _). rewrite E2 in E'. injection E' as <-. rewrite Gt.
          destruct (peqb (entry_tree_path en) (entry_tree_path (ca_entry x))) eqn:Q; [left; reflexivity|].
          destruct (pprefix (entry_tree_path en) (entry_tree_path (ca_entry x)) || pprefix (entry_tree_path (ca_entry x)) (entry_tree_path en)) eqn:OV; [|left; exact Y].
          right. right. exists (HInsert en). split; [exact Io|]. cbn [disturbs]. apply overlapb_spec. exact OV.
        * destruct (ndelete_ok H (entry_tree_path en) _ (proj1 K)) as (t' & E' & _ & Gt & _). rewrite E2 in E'. injection E' as <-. rewrite Gt.
          destruct (pprefix (entry_tree_path en) (entry_tree_path (ca_entry x))) eqn:OV; [|left; exact Y].
          right. right. exists (HDelete en). split; [exact Io|]. cbn [disturbs]. apply pprefix_spec. exact OV.
        * right. right. exists HClear. split; [exact Io|exact I]. }
  apply (G events (fun y I => I) O router_new st (new_tok H) R); [|exact X].
  intros [|] k' x' Z; discriminate Z.
Qed.
Print Assumptions C95_shared_stored_is_certified.

(** ** C96: the router's responses verify although the tree is shared *)
Theorem C96_shared_served_response_is_accepted_partial :
  forall (umod cap_max : N) (checked : bool) (H : bytes -> bytes) ple vs uri_path uri_query gunzip inflate glob (cs : N) sort
         (events : list event) (st : router) (rq : request) (path : bytes) (range : option N) (f : bool) (x : certified)
         (data_certificate : bytes) (c : certificate) canister_id now offset key min_version,
  (forall y, length (H y) = 32%nat) -> 32 < umod <= 2 ^ 64 -> 0 < cs -> min_version <= 2 ->
  (* any history of calls on the router, whose urls have no query component, and of operations on the tree *)
  Forall (fun e => match e with
                   | OnRouter c => any_order c /\ plain_urls umod uri_query c
                   | OnTree (HInsert en) => Forall (short umod) (entry_tree_path en)
                   | OnTree _ => True
                   end) events ->
  run_shared cs H uri_query glob events router_new = Some st ->
  (* a GET request without query, for which the router finds [x] *)
  rq_method rq = bs "GET" -> rq_body rq = [] -> uri_query (rq_url rq) = Some None ->
  path_of uri_path rq path -> wants_range umod (rq_headers rq) range ->
  get_asset_for_request cs st path (get_preferred_encodings sort rq) range = Some (f, x) ->
  (* the tree certifies it (see C95) *)
  certifies st (ca_entry x) ->
  match f with
  | false => no_header (bs "range") (rq_headers rq)
  | true => most_specific st (path_text (en_path (ca_entry x))) path /\ unreserved (en_path (ca_entry x)) path
  end ->
  (* the certificate is valid and certifies the root hash *)
  cert_from_cbor umod cap_max data_certificate = OOk c ->
  verify_certificate umod cap_max checked H ple vs c canister_id key now offset = OOk tt ->
  lookup_path (certified_data_path canister_id) (c_tree c) = Found (router_root_hash H st) ->
  exists rs i v,
  serve_asset cs H uri_path umod sort st data_certificate rq = OOk rs /\
  rs_status rs = rs_status (ca_response x) /\ rs_body rs = rs_body (ca_response x) /\
  verify umod cap_max checked H ple vs uri_path uri_query gunzip inflate rq rs canister_id now offset key min_version = OOk i /\
  i_version i = 2 /\ i_response i = Some v /\ v_status v = Some (rs_status rs) /\ v_body v = rs_body rs.
Proof.
  intros umod cap_max checked H ple vs up uq gunzip inflate glob cs sort events st rq path range f x dc c cid now offset key mv HL U CS MV EV R M B Q PO W E CE F CB VC LK.
  assert (O : Forall order_ok events) by (eapply Forall_impl; [|exact EV]; intros [c'|o] X; cbn; [apply X|exact I]).
  rewrite Forall_forall in EV.
  assert (PU : forall c', In (OnRouter c') events -> plain_urls umod uq c') by (intros c' I; exact (proj2 (EV _ I))).
  destruct (shared_history cs H uq glob (fun e => Forall (short umod) (entry_tree_path e)) events CS O) as (st' & R' & K & Hs & S).
  { intros c' f' k' x' I w. eapply plain_short; [exact HL|exact (proj1 U)|]. exact (plain_put umod cs H uq glob c' f' k' x' CS (PU c' I) w). }
  { intros en I. exact (EV _ I). }
  assert (st' = st) by congruence. subst st'.
  apply (served_accepted umod cap_max checked H ple vs up uq gunzip inflate glob cs sort st rq path range f x dc c cid now offset key mv); try assumption.
  - apply (shared_reachable cs H uq glob events O router_new st (new_reachable cs H uq glob) R).
  - intros f' k' x' St. destruct (S f' k' x' St) as (c' & I & w). exists c'. split; [exact (PU c' I)|exact w].
Qed.
Print Assumptions C96_shared_served_response_is_accepted_partial.

(** ** C97: and nothing else verifies *)
Lemma answers_now_of H ops st p path : http_run H ops = Some (r_tree st) -> answers_or_slash ops p path -> answers_now st p path.
Proof.
  intros R A. destruct p as [p|p]; cbn [answers_or_slash answers_now] in *; [exact A|]. destruct A as (A1 & A2 & A3). split; [exact A1|]. split.
  - intro X. apply A2. apply (somewhere_occupied H ops st _ R). exact X.
  - intros u Mu Su X. apply (A3 u Mu Su). apply (somewhere_occupied H ops st _ R). exact X.
Qed.
(** Where an entry came from: a call on the router, which made it for [rs0]; or directly. *)
Definition origin umod cs H uq glob (Src : entry -> cel -> request -> response -> Prop) (events : list event) (en : entry) (ce : cel) (rq0 : request) (rs0 : response) : Prop :=
  router_made umod cs H uq glob (router_calls events) en ce rq0 rs0 \/ In en (direct_entries events) /\ Src en ce rq0 rs0.
Definition shared_plain (umod : N) (H : bytes -> bytes) uri_query (Src : entry -> cel -> request -> response -> Prop) (e : event) : Prop :=
  match e with
  | OnRouter c => any_order c /\ plain_call c /\ plain_urls umod uri_query c
  | OnTree (HInsert en) => honest H uri_query Src en
  | OnTree _ => True
  end.
Lemma shared_calls umod H uq Src events : Forall (shared_plain umod H uq Src) events ->
  Forall order_ok events /\ Forall plain_call (router_calls events) /\ Forall (plain_urls umod uq) (router_calls events).
Proof.
  intro F. split; [eapply Forall_impl; [|exact F]; intros [c|o] X; cbn; [apply X|exact I]|]. rewrite Forall_forall in F.
  split; apply Forall_forall; intros c I; apply router_call_in in I; apply (F _ I).
Qed.
Theorem C97_shared_only_certified_is_accepted :
  forall umod cap_max checked (H : bytes -> bytes) ple vs uri_path uri_query gunzip inflate key (Root : htree -> Prop) (Sub : bytes -> htree -> Prop),
  (forall x, length (H x) = 32%nat) -> unforgeable H vs key Root Sub ->
  forall cs glob (Src : entry -> cel -> request -> response -> Prop) (events : list event) (st : router) rq rs canister_id now offset min_version i,
  0 < cs -> Forall (shared_plain umod H uri_query Src) events -> run_shared cs H uri_query glob events router_new = Some st ->
  (* the canister certified the root hash of this router, and nothing else *)
  (forall St d, speaks_for umod cap_max ple Root Sub canister_id St -> at_path (certified_data_path canister_id) St (HLeaf d) -> d = router_root_hash H st) ->
  no_pseudo (rq_headers rq) -> no_pseudo (rs_headers rs) ->
  verify umod cap_max checked H ple vs uri_path uri_query gunzip inflate rq rs canister_id now offset key min_version = OOk i ->
  i_response i <> None ->
  exists hv hd, last_header (bs "IC-Certificate") (rs_headers rs) hv /\ header_from umod cap_max hv = OOk hd /\
  (certificate_collision umod cap_max H Root Sub (h_cert hd) \/
   collision H (preimages H (HLabeled (bs "http_expr") (nhtree H (r_tree st)))) (preimages H (h_tree hd)) \/
   i_version i = 2 /\
   exists en ce rq0 rs0 expr path, origin umod cs H uri_query glob Src events en ce rq0 rs0 /\ certifies st en /\
     made H uri_query ce rq0 rs0 (en_certification en) /\
     last_header (bs "IC-CertificateExpression") (rs_headers rs) expr /\ path_of uri_path rq path /\
     (ordinary_path path -> answers_now st (en_path en) path) /\
     (collision H [expr] [print_cel ce] \/
      expr = print_cel ce /\
      match ce with
      | CelSkip => False
      | CelResponseOnly rc => same_response H rc rs rs0
      | CelFull qc rc => same_response H rc rs rs0 /\ same_request H uri_query qc rq rq0
      end)).
Proof.
  intros umod cap ck H ple vs up uq gz df key Root Sub HL UF cs glob Src events st rq rs cid now off mv i CS EV R CD NQ NR V NN.
  destruct (shared_calls umod H uq Src events EV) as (O & PC & PU). rewrite Forall_forall in EV.
  destruct (shared_history cs H uq glob (fun e => exists ce rq0 rs0, origin umod cs H uq glob Src events e ce rq0 rs0 /\ made H uq ce rq0 rs0 (en_certification e) /\
    Forall token (cel_names ce) /\ no_pseudo (rq_headers rq0) /\ no_pseudo (rs_headers rs0)) events CS O) as (st' & R' & _ & (ops & RUN & HON) & _).
  { intros c f k x I w. destruct (put_made umod cs H uq glob (router_calls events) f k x CS PC PU) as (ce & rq0 & rs0 & M & P).
    - exists c. split; [apply router_call_in; exact I|exact w].
    - exists ce, rq0, rs0. split; [left; exact M|exact P]. }
  { intros en I. destruct (EV _ I) as (ce & rq0 & rs0 & Sr & P). exists ce, rq0, rs0. split; [right; split; [apply direct_entry_in; exact I|exact Sr]|exact P]. }
  assert (st' = st) by congruence. subst st'.
  destruct (accepted_entry umod cap ck H ple vs up uq gz df key Root Sub HL UF (origin umod cs H uq glob Src events) ops (r_tree st) rq rs cid now off mv i RUN HON CD NQ NR V NN) as (hv & hd & L & Hd & D).
  exists hv, hd. split; [exact L|]. split; [exact Hd|]. destruct D as [D|[D|(V2 & en & ce & rq0 & rs0 & expr & path & M & He & Ma & LE & PO & AN & D)]]; [auto|auto|].
  right; right. split; [exact V2|]. exists en, ce, rq0, rs0, expr, path. split; [exact M|]. split; [apply (held_get H ops (r_tree st) _ RUN); exact He|].
  split; [exact Ma|]. split; [exact LE|]. split; [exact PO|]. split; [|exact D]. intro OP. exact (answers_now_of H ops st _ path RUN (AN OP)).
Qed.
Print Assumptions C97_shared_only_certified_is_accepted.
(** responses without certified content: only where others certified to skip *)
Theorem C97_shared_skips_only_direct :
  forall umod cap_max checked (H : bytes -> bytes) ple vs uri_path uri_query gunzip inflate key (Root : htree -> Prop) (Sub : bytes -> htree -> Prop),
  (forall x, length (H x) = 32%nat) -> unforgeable H vs key Root Sub ->
  forall cs glob (Src : entry -> cel -> request -> response -> Prop) (events : list event) (st : router) rq rs canister_id now offset min_version i,
  0 < cs -> Forall (shared_plain umod H uri_query Src) events -> run_shared cs H uri_query glob events router_new = Some st ->
  (* no path uses the segments "<$>" and "<*>" *)
  (forall f c u, In (OnRouter c) events -> In u (call_names f c) -> clean_url u) ->
  (forall en, In (OnTree (HInsert en)) events -> clean_url (path_text (en_path en))) ->
  (forall St d, speaks_for umod cap_max ple Root Sub canister_id St -> at_path (certified_data_path canister_id) St (HLeaf d) -> d = router_root_hash H st) ->
  (forall path, path_of uri_path rq path -> ordinary_path path) ->
  verify umod cap_max checked H ple vs uri_path uri_query gunzip inflate rq rs canister_id now offset key min_version = OOk i ->
  i_response i = None ->
  exists hv hd, last_header (bs "IC-Certificate") (rs_headers rs) hv /\ header_from umod cap_max hv = OOk hd /\
  (certificate_collision umod cap_max H Root Sub (h_cert hd) \/
   collision H (preimages H (HLabeled (bs "http_expr") (nhtree H (r_tree st)))) (preimages H (h_tree hd)) \/
   exists expr path en ce rq0 rs0, last_header (bs "IC-CertificateExpression") (rs_headers rs) expr /\ path_of uri_path rq path /\
     certifies st en /\ answers_now st (en_path en) path /\ origin umod cs H uri_query glob Src events en ce rq0 rs0 /\
     (collision H [expr] [print_cel ce] \/
      In en (direct_entries events) /\ ce = CelSkip /\ en_certification en = certify_skip H /\ expr = print_cel CelSkip)).
Proof.
  intros umod cap ck H ple vs up uq gz df key Root Sub HL UF cs glob Src events st rq rs cid now off mv i CS EV R CLN CLD CD OP V NN.
  destruct (shared_calls umod H uq Src events EV) as (O & PC & PU). rewrite Forall_forall in EV.
  destruct (shared_history cs H uq glob (fun e => clean_url (path_text (en_path e)) /\ exists ce rq0 rs0, origin umod cs H uq glob Src events e ce rq0 rs0 /\ made H uq ce rq0 rs0 (en_certification e) /\
    Forall token (cel_names ce)) events CS O) as (st' & R' & _ & (ops & RUN & HON) & _).
  { intros c f k x I w. destruct (put_clean umod cs H uq glob (router_calls events) f k x CS PC PU) as (C & ce & rq0 & rs0 & M & P).
    - intros f' c' u I' J. apply router_call_in in I'. exact (CLN f' c' u I' J).
    - exists c. split; [apply router_call_in; exact I|exact w].
    - split; [exact C|]. exists ce, rq0, rs0. split; [left; exact M|exact P]. }
  { intros en I. split; [exact (CLD en I)|]. destruct (EV _ I) as (ce & rq0 & rs0 & Sr & P & T & _). exists ce, rq0, rs0. split; [right; split; [apply direct_entry_in; exact I|exact Sr]|]. auto. }
  assert (st' = st) by congruence. subst st'.
  destruct (skip_entry umod cap ck H ple vs up uq gz df key Root Sub HL UF (origin umod cs H uq glob Src events) ops (r_tree st) rq rs cid now off mv i RUN HON CD V NN) as (hv & hd & L & Hd & D).
  exists hv, hd. split; [exact L|]. split; [exact Hd|]. destruct D as [D|[D|(V2 & expr & path & LE & PO & D)]]; [auto|auto|]. right; right.
  destruct (D (OP _ PO)) as (en & ce & rq0 & rs0 & MG & He & Ma & AN & D'). exists expr, path, en, ce, rq0, rs0. split; [exact LE|]. split; [exact PO|].
  split; [apply (held_get H ops (r_tree st) _ RUN); exact He|]. split; [exact (answers_now_of H ops st _ path RUN AN)|]. split; [exact MG|].
  destruct D' as [C|[-> E]]; [left; exact C|]. right. destruct MG as [MG|[MG _]].
  - exfalso. destruct MG as (f & k & x & url & names & _ & _ & _ & Z & _). discriminate Z.
  - split; [exact MG|]. split; [reflexivity|]. split; [inversion Ma; reflexivity|exact E].
Qed.
Print Assumptions C97_shared_skips_only_direct.

(** ** C98: entries of others survive the router's calls, except delete_all_assets *)
Definition is_wildcard (p : cert_path) : bool := match p with PWildcard _ => true | PExact _ => false end.
Lemma written_at cs H uq glob c f k x : 0 < cs -> call_puts cs H uq glob c f k x \/ call_drops cs H uq glob c f k x ->
  In (k_path k) (call_names f c) /\ en_path (ca_entry x) = (if f then PWildcard (k_path k) else PExact (k_path k)).
Proof.
  intros CS W. split.
  - destruct (history_name cs H uq glob [c] f k x CS) as (c' & [<-|[]] & J); [exists c; split; [left; reflexivity|exact W]|exact J].
  - destruct c as [o A C|o A C|]; cbn [call_puts call_drops] in W; [destruct W as [w|[]]|destruct W as [[]|w]|destruct W as [[]|[]]].
    + destruct (stored_place _ _ _ _ _ _ _ _ _ CS w) as (url2 & status2 & body2 & hs2 & ct2 & enc2 & rg2 & names2 & P2 & _). exact (proj1 (proj2 P2)).
    + destruct (stored_place _ _ _ _ _ _ _ _ _ CS (or_introl w)) as (url2 & status2 & body2 & hs2 & ct2 & enc2 & rg2 & names2 & P2 & _). exact (proj1 (proj2 P2)).
Qed.
Lemma apart p p' c c' : clean_url (path_text p) -> clean_url (path_text p') ->
  overlapping (entry_tree_path (mk_entry p c)) (entry_tree_path (mk_entry p' c')) ->
  is_wildcard p = is_wildcard p' /\ request_parts (path_text p) = request_parts (path_text p').
Proof.
  intros U U' OV. unfold entry_tree_path in OV. cbn [en_path en_certification] in OV.
  destruct (path_segments p) as (t & E & T & D). destruct (path_segments p') as (t' & E' & T' & D'). rewrite E, E', <- !app_assoc in OV. cbn [app] in OV.
  apply (cut_at terminator) in OV; [| | |exact T|exact T'].
  - destruct OV as (-> & <- & _). split; [|reflexivity]. destruct p, p'; try reflexivity; subst t; discriminate D'.
  - intros s I [->| ->]; [apply (proj1 U), I|apply (proj2 U), I].
  - intros s I [->| ->]; [apply (proj1 U'), I|apply (proj2 U'), I].
Qed.
Theorem C98_direct_entry_stays_partial :
  forall (cs : N) (H : bytes -> bytes) uri_query glob (before after : list event) (en : entry),
  0 < cs -> Forall (fun e => match e with OnRouter c => any_order c | _ => True end) (before ++ after) ->
  clean_url (path_text (en_path en)) ->
  (* since the insertion: no delete_all_assets, no response at the entry's path, no operation on the tree that overlaps the entry *)
  (forall c, In (OnRouter c) after -> c <> CallDeleteAll) ->
  (forall c f u, In (OnRouter c) after -> In u (call_names f c) ->
     clean_url u /\ (f, request_parts u) <> (is_wildcard (en_path en), request_parts (path_text (en_path en)))) ->
  (forall o, In (OnTree o) after -> ~ disturbs o (entry_tree_path en)) ->
  exists st, run_shared cs H uri_query glob (before ++ OnTree (HInsert en) :: after) router_new = Some st /\ certifies st en.
Proof.
  intros cs H uq glob before after en CS O CL ND NP NT. apply Forall_app in O. destruct O as [O1 O2].
  destruct (shared_history cs H uq glob (fun _ => True) before CS O1 (fun _ _ _ _ _ _ => I) (fun _ _ => I)) as (st & R & K & _).
  destruct (ninsert_ok H (entry_tree_path en) [] _ (proj1 K)) as (t & E & _ & Gt & _).
  rewrite run_shared_app, R. cbn [run_shared run_event http_nop nstep]. rewrite E.
  set (s0 := mk_router t (r_responses st) (r_fallbacks st)).
  assert (K0 : tok H s0) by (exact (nstep_tok H (r_tree st) (HInsert en) t K E)).
  assert (C0 : certifies s0 en) by (unfold certifies, s0; cbn [r_tree]; rewrite Gt, peqb_refl; reflexivity).
  clearbody s0. clear Gt E t R K O1 st before. revert s0 K0 C0. induction after as [|e after IH]; intros s0 K0 C0; cbn [run_shared].
  - exists s0. auto.
  - inversion O2 as [|? ? Oe O2']; subst.
    assert (IH' : forall s1, tok H s1 -> certifies s1 en -> exists st, run_shared cs H uq glob after s1 = Some st /\ certifies st en).
    { intros s1 K1 C1. apply IH; [exact O2'|intros; apply ND; right; assumption|intros; eapply NP; [right; eassumption|eassumption]|intros; apply NT; right; assumption|exact K1|exact C1]. }
    clear IH. destruct e as [c|o]; cbn [run_event].
    + destruct (run_call_steps cs H uq glob CS c s0 Oe K0) as [S _]. apply IH'; [exact (steps_tok H _ _ _ _ _ _ S K0)|].
      assert (S' : steps H (call_puts cs H uq glob c) (call_drops cs H uq glob c) any_key False s0 (fst (run_call cs H uq glob c s0))).
      { eapply steps_mono; [| | | |exact S]; [apply sub_refl|apply sub_refl|intros k X; exact X|]. intro Z. exact (ND c (or_introl eq_refl) Z). }
      assert (Ap : forall f k x, call_puts cs H uq glob c f k x \/ call_drops cs H uq glob c f k x -> ~ overlapping (ep x) (entry_tree_path en)).
      { intros f k x W OV. destruct (written_at cs H uq glob c f k x CS W) as [J EP]. destruct (NP c f (k_path k) (or_introl eq_refl) J) as [CU NE].
        unfold ep in OV. destruct (ca_entry x) as [p' c'] eqn:EX. destruct en as [p0 c0]. cbn [en_path] in *. apply apart in OV; [|rewrite EP; destruct f; exact CU|exact CL].
        destruct OV as [W1 W2]. apply NE. rewrite EP in W1, W2. rewrite <- W1, <- W2. destruct f; reflexivity. }
      eapply (steps_entry_kept H); [| |exact S'|exact K0|exact C0].
      * intros f k x w OV. exfalso. exact (Ap f k x (or_introl w) OV).
      * intros f k x w Pf. exact (Ap f k x (or_intror w) (or_introl Pf)).
    + destruct (nstep_live H (r_tree s0) o (proj1 K0)) as (t & E). rewrite E. apply IH'; [exact (nstep_tok H (r_tree s0) o t K0 E)|].
      assert (NO := NT o (or_introl eq_refl)). unfold certifies in *. cbn [r_tree]. destruct o as [e|e|]; cbn [http_nop nstep disturbs] in *.
      * destruct (ninsert_ok H (entry_tree_path e) [] _ (proj1 K0)) as (t' & E' & _ & Gt & _). rewrite E in E'. injection E' as <-. rewrite Gt.
        destruct (peqb (entry_tree_path e) (entry_tree_path en)); [reflexivity|]. destruct (pprefix _ _ || pprefix _ _) eqn:OV; [|exact C0]. exfalso. apply NO. apply overlapb_spec. exact OV.
      * destruct (ndelete_ok H (entry_tree_path e) _ (proj1 K0)) as (t' & E' & _ & Gt & _). rewrite E in E'. injection E' as <-. rewrite Gt.
        destruct (pprefix _ _) eqn:OV; [|exact C0]. exfalso. apply NO. apply pprefix_spec. exact OV.
      * exfalso. exact (NO I).
Qed.
Print Assumptions C98_direct_entry_stays_partial.
(** delete_all_assets is documented to delete "all assets from the router, including any certification for those
    assets"; it removes every entry of the shared tree. *)
Theorem C98_delete_all_assets_clears_shared_tree_refuted :
  forall (cs : N) (H : bytes -> bytes) uri_query glob (events : list event),
  0 < cs -> Forall (fun e => match e with OnRouter c => any_order c | _ => True end) events ->
  exists st, run_shared cs H uri_query glob (events ++ [OnRouter CallDeleteAll]) router_new = Some st /\ forall en, ~ certifies st en.
Proof.
  intros cs H uq glob events CS O. destruct (shared_history cs H uq glob (fun _ => True) events CS O (fun _ _ _ _ _ _ => I) (fun _ _ => I)) as (st & R & _).
  rewrite run_shared_app, R. cbn [run_shared run_event run_call delete_all_assets fst]. eexists. split; [reflexivity|].
  intros en Z. unfold certifies in Z. cbn [r_tree] in Z. destruct (entry_tree_path en); discriminate Z.
Qed.
Print Assumptions C98_delete_all_assets_clears_shared_tree_refuted.
