(** C59: requests for which what serve_asset returns is rejected, and some for which it is accepted. *)
From Coq Require Import List Arith NArith Lia Bool Permutation.
From Verif Require Import Bytes Toy Text HashTree HashTreeSpec RbTree Nested NestedSpec NestedProofs Cbor CborSpec HttpTypes HttpHash HttpSpec Cel V2 Wildcard WildcardSpec WildcardProofs Verify VerifySpec Header HeaderSpec HttpTree HttpTreeSpec CertVerify CertSpec Props_Cert Props_Header
  Props_Hash Props_Wildcard Props_Verify Props_HttpTree AssetRouter RangeSpec Props_Range AssetSpec AssetProofs AssetEffect PreparedProofs Props_Router Props_Backed ServeSpec Props_Serve Props_Encoding Props_Chunks Props_Accept Props_Only Props_Trip.
Import ListNotations.
Local Open Scope N_scope.

(** A canister that certified the root hash of the router, and its responses as the verifier sees them:
    [Some None] for a response that is served but rejected. *)
Definition trip_state (cs : N) (calls : list call) : router := run_calls cs toy ex_query no_glob calls router_new.
Definition trip_root (st : router) : bytes := router_root_hash toy st.
Definition trip_serve (cs : N) (st : router) (rq : request) : out response := serve_asset cs toy ex_uri (2 ^ 64) isort st (ex_certificate (trip_root st)) rq.
Definition trip_verify (st : router) (rq : request) (rs : response) : out info :=
  verify (2 ^ 64) (2 ^ 60) true toy ex_ple (toy_signer (ex_state (trip_root st))) ex_uri ex_query ex_none ex_none rq rs (bs "e") 1010 20 (ex_key x01) 2.
Definition trip (cs : N) (st : router) (rq : request) : option (option (option (N * bytes))) :=
  match trip_serve cs st rq with
  | OOk rs => match trip_verify st rq rs with
              | OOk i => Some (Some (match i_response i with Some v => Some (match v_status v with Some s => s | None => 0 end, v_body v) | None => None end))
              | _ => Some None
              end
  | _ => None
  end.
Definition get (url : bytes) (hs : list (bytes * bytes)) : request := mk_request (bs "GET") url hs [].
Definition page_calls : list call :=
  [CallCertify (fun l => l) enc_assets enc_configs; CallCertify (fun l => l) chunk_assets [];
   CallCertify (fun l => l) [asset_new (bs "/c/d") (bs "cd"); asset_new (bs "e") (bs "ee")] [ConfigFile (bs "e") None [] [mk_fallback (bs "/f") None] [] []; ConfigRedirect (bs "/old") (bs "/new") Permanent]].
Example page_calls_plain : Forall any_order page_calls /\ Forall plain_call page_calls /\ Forall (plain_urls (2 ^ 64) ex_query) page_calls.
Proof.
  split; [repeat constructor; intro l; apply Permutation_refl|]. split.
  - assert (X : forall l, plain_headers l -> plain_headers l) by auto. repeat constructor; cbn [fst]; try (intro Z; apply eq_nocase_spec in Z; vm_compute in Z; discriminate Z); try (intro Z; discriminate Z).
  - repeat constructor; vm_compute; reflexivity.
Qed.
Definition page_state : router := Eval vm_compute in trip_state 8 page_calls.
Lemma page_state_eq : run_calls 8 toy ex_query no_glob page_calls router_new = page_state.
Proof. vm_cast_no_check (eq_refl page_state). Qed.
(** accepted: plain GET requests *)
Example C59_ex_accepted :
  trip 8 page_state (get (bs "/a") [(bs "Accept-Encoding", bs "br")]) = Some (Some (Some (200, bs "br"))) /\
  trip 8 page_state (get (bs "/b") []) = Some (Some (Some (200, bs "plain"))) /\
  trip 8 page_state (get (bs "/big") []) = Some (Some (Some (206, bs "01234567"))).
Proof. vm_compute. repeat split. Qed.
(** C59 is false: the same requests with a query string; another method; a Range header for a
    chunk; a scope's own path, and a path that differs in slashes (served by a wider fallback). *)
Theorem C59_served_response_is_rejected_refuted :
  Forall any_order page_calls /\ run_calls 8 toy ex_query no_glob page_calls router_new = page_state /\
  trip 8 page_state (get (bs "/b?q=1") []) = Some None /\
  trip 8 page_state (mk_request (bs "HEAD") (bs "/b") [] []) = Some None /\
  trip 8 page_state (get (bs "/big") [(bs "Range", bs "bytes=0-")]) = Some None /\
  trip 8 page_state (get (bs "/big") [(bs "Range", bs "bytes=8-")]) = Some None /\
  trip 8 page_state (get (bs "/f") []) = Some None /\
  trip 8 page_state (get (bs "/c//d") []) = Some None /\
  trip 8 page_state (get (bs "/a") [(bs "Range", bs "bytes=0-")]) = Some None.
Proof. split; [exact (proj1 page_calls_plain)|]. split; [exact page_state_eq|]. vm_compute. repeat split. Qed.
Print Assumptions C59_served_response_is_rejected_refuted.
(** [page_calls] meets the conditions of C59_plain_get_is_accepted_partial. *)
Definition page_names (f : bool) : list bytes := flat_map (call_names f) page_calls.
Lemma page_names_in f c u : In c page_calls -> In u (call_names f c) -> In u (page_names f).
Proof. intros I J. apply in_flat_map. exists c. auto. Qed.
Definition clean_b (u : bytes) : bool := forallb (fun s => negb (bytes_eqb s (bs "<$>")) && negb (bytes_eqb s (bs "<*>"))) (request_parts u).
Lemma clean_b_ok u : clean_b u = true -> clean_url u.
Proof.
  unfold clean_b. rewrite forallb_forall. intro F. split; intro I; specialize (F _ I); rewrite bytes_eqb_refl in F; cbn in F; discriminate F.
Qed.
Example C59_plain_get_hypotheses :
  (forall f c u, In c page_calls -> In u (call_names f c) -> clean_url u) /\
  (forall f c u c' u', In c page_calls -> In u (call_names f c) -> In c' page_calls -> In u' (call_names f c') -> request_parts u = request_parts u' -> u = u') /\
  clean_url (bs "/x/y") /\ (forall r, request_parts (bs "/x/y") <> bs "http_expr" :: r) /\ never_more_specific page_calls (bs "/") (bs "/x/y") /\
  plain_get ex_query (get (bs "/x/y") []) True /\ trip 8 page_state (get (bs "/x/y") []) = Some (Some (Some (404, bs "plain"))).
Proof.
  split.
  { intros f c u I J. apply clean_b_ok. apply (page_names_in f c u I) in J. assert (A : forallb clean_b (page_names f) = true) by (destruct f; vm_compute; reflexivity). rewrite forallb_forall in A. exact (A u J). }
  split.
  { intros f c u c' u' I J I' J' E. apply (page_names_in f c u I) in J. apply (page_names_in f c' u' I') in J'.
    assert (A : forallb (fun u => forallb (fun u' => negb (peqb (request_parts u) (request_parts u')) || bytes_eqb u u') (page_names f)) (page_names f) = true) by (destruct f; vm_compute; reflexivity).
    rewrite forallb_forall in A. specialize (A u J). rewrite forallb_forall in A. specialize (A u' J'). apply peqb_spec in E. rewrite E in A. apply bytes_eqb_eq. exact A. }
  split; [apply clean_b_ok; vm_compute; reflexivity|]. split; [intros r Z; vm_compute in Z; discriminate Z|]. split.
  { split.
    - intros c u I J E. apply (page_names_in false c u I) in J.
      assert (A : forallb (fun u => negb (peqb (request_parts u) (request_parts (bs "/x/y")))) (page_names false) = true) by (vm_compute; reflexivity).
      rewrite forallb_forall in A. specialize (A u J). apply peqb_spec in E. rewrite E in A. discriminate A.
    - intros c u I J [M S]. apply (page_names_in true c u I) in J. assert (P : page_names true = [bs "/"; bs "/f"]) by (vm_compute; reflexivity). rewrite P in J. destruct J as [<-|[<-|[]]].
      + destruct S as [S|(_ & N & D)]; [lia|contradiction].
      + change (request_parts (bs "/f")) with [bs "f"] in M. change (request_parts (bs "/x/y")) with [bs "x"; bs "y"] in M. destruct M as [(t & Z)|(p & y & t & Z & _)]; [discriminate Z|]. destruct p as [|p0 [|]]; discriminate Z. }
  split; [repeat split; constructor|]. vm_compute. reflexivity.
Qed.
(** C62: a fallback registered for a path without trailing slash does not answer requests for that path itself. *)
Lemma not_own_scope path : ends_with_slash path = false -> ~ scope_of path path.
Proof.
  intros E (s & r & P & D). destruct D as [D|D].
  - rewrite D in E. rewrite ends_slash_app in E. discriminate E.
  - apply (f_equal (@length byte)) in P. rewrite D, !app_length in P. cbn [length] in P. change (length (bs "/")) with 1%nat in P. lia.
Qed.
Theorem C62_scope_itself_refuted :
  forall (cs : N) (H : bytes -> bytes) uri_query glob (st : router) (path : bytes) (preferred : list bytes) (range : option N),
  0 < cs -> reachable cs H uri_query glob st -> ends_with_slash path = false ->
  (forall k x, stored st false k x -> k_path k <> path) -> (forall k x, stored st true k x -> k_path k = path) ->
  get_asset_for_request cs st path preferred range = None.
Proof.
  intros cs H uq glob st path pref range CS R ES A B. apply (C62_which_response cs H uq glob st path pref range CS R). split.
  - intros e y _ S. exact (A _ _ S eq_refl).
  - intros sc e y SC _ S. assert (X := B _ _ S). cbn [k_path] in X. subst sc. exact (not_own_scope path ES SC).
Qed.
Print Assumptions C62_scope_itself_refuted.
Definition own_calls : list call := [CallCertify (fun l => l) [asset_new (bs "e") (bs "ee")] [ConfigFile (bs "e") None [] [mk_fallback (bs "/f") None] [] []]].
Definition own_state : router := Eval vm_compute in trip_state 8 own_calls.
Lemma own_state_eq : run_calls 8 toy ex_query no_glob own_calls router_new = own_state.
Proof. vm_cast_no_check (eq_refl own_state). Qed.
Example C62_scope_itself_ex :
  reachable 8 toy ex_query no_glob own_state /\
  (forall k x, stored own_state false k x -> k_path k <> bs "/f") /\ (forall k x, stored own_state true k x -> k_path k = bs "/f") /\
  matches (request_parts (bs "/f")) (request_parts (bs "/f")) /\
  get_asset_for_request 8 own_state (bs "/f") [] None = None /\ option_map fst (get_asset_for_request 8 own_state (bs "/f/x") [] None) = Some true.
Proof.
  split. { rewrite <- own_state_eq. apply calls_reachable; [repeat constructor; intro l; apply Permutation_refl|apply new_reachable]. }
  assert (K : forall k m (x : certified), m_get key_eqb k m = Some x -> exists k', In (k', x) m /\ key_eqb k k' = true).
  { intros k m x. induction m as [|[k' y] m IH]; [discriminate|]. cbn [m_get]. destruct (key_eqb k k') eqn:E; [intro Z; injection Z as ->; exists k'; split; [left; reflexivity|exact E]|]. intro Z. destruct (IH Z) as (k2 & I & E2). exists k2. split; [right; exact I|exact E2]. }
  split. { intros k x S. apply K in S. destruct S as (k' & [S|[]] & E). apply key_eqb_eq in E. subst k'. injection S as <- _. intro Z; discriminate Z. }
  split. { intros k x S. apply K in S. destruct S as (k' & [S|[]] & E). apply key_eqb_eq in E. subst k'. injection S as <- _. reflexivity. }
  split; [left; exists []; reflexivity|]. vm_compute. split; reflexivity.
Qed.
(** [page_calls] and an accepted response meet the conditions of C70. *)
Lemma ex_speaks root St d : speaks_for (2 ^ 64) (2 ^ 60) ex_ple (fun t => t = ex_state root) (fun _ _ => False) (bs "e") St ->
  at_path (certified_data_path (bs "e")) St (HLeaf d) -> d = root.
Proof. intros [->|(r & s & enc & rg & lo & hi & _ & _ & _ & _ & _ & _ & [])] A. exact (ex_state_certifies _ _ A). Qed.
Lemma trip_accepted cs st rq r : trip cs st rq = Some (Some (Some r)) ->
  exists rs i, trip_serve cs st rq = OOk rs /\ trip_verify st rq rs = OOk i /\ i_response i <> None.
Proof.
  unfold trip. destruct (trip_serve cs st rq) as [rs| | |]; try discriminate. destruct (trip_verify st rq rs) as [i| | |] eqn:E; try discriminate.
  intro X. exists rs, i. split; [reflexivity|]. split; [exact E|]. destruct (i_response i); [intro Z; discriminate Z|discriminate X].
Qed.
Definition no_colon_b (o : out response) : bool :=
  match o with OOk rs => forallb (fun h => match fst h with b :: _ => negb (byte_eqb b ":"%byte) | [] => true end) (rs_headers rs) | _ => false end.
Lemma no_colon_ok o rs : no_colon_b o = true -> o = OOk rs -> no_pseudo (rs_headers rs).
Proof.
  intros Y ->. cbn [no_colon_b] in Y. rewrite forallb_forall in Y. apply Forall_forall. intros h I. specialize (Y h I).
  destruct (fst h) as [|b l]; [exact Logic.I|]. intros ->. discriminate Y.
Qed.
Definition page_root : bytes := trip_root page_state.
Lemma page_root_eq : router_root_hash toy (run_calls 8 toy ex_query no_glob page_calls router_new) = page_root.
Proof. unfold page_root, trip_root. rewrite page_state_eq. reflexivity. Qed.
Lemma page_no_colon : no_colon_b (trip_serve 8 page_state (get (bs "/b") [])) = true.
Proof. vm_compute. reflexivity. Qed.
Example C70_hypotheses :
  unforgeable toy (toy_signer (ex_state page_root)) (ex_key x01) (fun t => t = ex_state page_root) (fun _ _ => False) /\
  (forall St d, speaks_for (2 ^ 64) (2 ^ 60) ex_ple (fun t => t = ex_state page_root) (fun _ _ => False) (bs "e") St ->
     at_path (certified_data_path (bs "e")) St (HLeaf d) -> d = router_root_hash toy (run_calls 8 toy ex_query no_glob page_calls router_new)) /\
  exists rs i, trip_serve 8 page_state (get (bs "/b") []) = OOk rs /\ trip_verify page_state (get (bs "/b") []) rs = OOk i /\ i_response i <> None /\ no_pseudo (rs_headers rs).
Proof.
  split; [apply toy_signer_unforgeable|]. split.
  - rewrite page_root_eq. exact (ex_speaks page_root).
  - destruct (trip_accepted _ _ _ _ (proj1 (proj2 C59_ex_accepted))) as (rs & i & E & V & N). exists rs, i.
    split; [exact E|]. split; [exact V|]. split; [exact N|]. exact (no_colon_ok _ rs page_no_colon E).
Qed.
