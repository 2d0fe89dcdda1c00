(** Concrete data that meets the hypotheses of the theorems about the asset router (C56-C58, C62, C66-C68). *)
From Coq Require Import List Arith NArith Lia Bool Permutation.
From Verif Require Import Bytes Toy Text HashTree HashTreeSpec RbTree Nested NestedSpec NestedProofs Cbor CborSpec HttpTypes HttpHash HttpSpec Cel V2 Wildcard WildcardSpec WildcardProofs Verify VerifySpec Header HeaderSpec HttpTree HttpTreeSpec CertVerify CertSpec Props_Cert Props_Header
  Props_Hash Props_Wildcard Props_Verify Props_HttpTree AssetRouter RangeSpec Props_Range AssetSpec AssetProofs AssetEffect PreparedProofs Props_Router Props_Backed Props_Revoke ServeSpec Props_Serve Props_Encoding Props_Chunks Props_Accept Props_Only Props_Trip Props_Roundtrip.
Import ListNotations.
Local Open Scope N_scope.

Lemma page_reachable : reachable 8 toy ex_query no_glob page_state.
Proof. rewrite <- page_state_eq. apply calls_reachable; [exact (proj1 page_calls_plain)|apply new_reachable]. Qed.
Definition is_stored (st : router) (f : bool) (k : key) : bool :=
  match m_get key_eqb k (if f then r_fallbacks st else r_responses st) with
  | Some x => match nget (entry_tree_path (ca_entry x)) (r_tree st) with Some [] => true | _ => false end
  | None => false
  end.
Lemma is_stored_ok st f k : is_stored st f k = true -> exists x, stored st f k x /\ certifies st (ca_entry x).
Proof.
  unfold is_stored, stored, certifies. destruct (m_get key_eqb k _) as [x|]; [|discriminate].
  destruct (nget (entry_tree_path (ca_entry x)) (r_tree st)) as [[|]|] eqn:E; try discriminate. intros _. exists x. split; [reflexivity|exact E].
Qed.

(** C56: the three calls of [page_calls] (a page with two encodings, alias and fallback; an asset in chunks; a second
    fallback and a redirect) meet the conditions, and responses of each kind are stored and certified. *)
Example C56_hypotheses :
  Forall any_order page_calls /\ Forall plain_call page_calls /\
  (forall f k x, history_written 8 toy ex_query no_glob page_calls f k x -> clean_url (k_path k)) /\
  (forall f k x k' x', history_written 8 toy ex_query no_glob page_calls f k x -> history_written 8 toy ex_query no_glob page_calls f k' x' ->
     request_parts (k_path k) = request_parts (k_path k') -> k_path k = k_path k') /\
  (exists x, stored page_state false (mk_key (bs "/b") (Some (bs "br")) None) x /\ certifies page_state (ca_entry x)) /\
  (exists x, stored page_state false (mk_key (bs "/big") None (Some 8)) x /\ certifies page_state (ca_entry x)) /\
  (exists x, stored page_state false (mk_key (bs "/old") None None) x /\ certifies page_state (ca_entry x)) /\
  (exists x, stored page_state true (mk_key (bs "/f") None None) x /\ certifies page_state (ca_entry x)).
Proof.
  destruct page_calls_plain as (A & B & _). destruct C59_plain_get_hypotheses as (C & D & _).
  split; [exact A|]. split; [exact B|]. split.
  { intros f k x w. destruct (history_name 8 _ _ _ _ _ _ _ eq_refl w) as (c & I & J). exact (C f c _ I J). }
  split.
  { intros f k x k' x' w w' E. destruct (history_name 8 _ _ _ _ _ _ _ eq_refl w) as (c & I & J). destruct (history_name 8 _ _ _ _ _ _ _ eq_refl w') as (c' & I' & J'). exact (D f c _ c' _ I J I' J' E). }
  repeat split; apply is_stored_ok; vm_compute; reflexivity.
Qed.

(** C57, C67: inputs without errors, in a state where the deletion has something to delete. *)
Lemma ex_parses u : parses ex_query u.
Proof. eexists. reflexivity. Qed.
Lemma enc_valid : valid_input ex_query no_glob enc_assets enc_configs.
Proof.
  split; [repeat constructor; apply ex_parses|]. constructor; [|constructor]. split; [|constructor; [apply ex_parses|constructor]].
  constructor; [|constructor]. cbn [fst]. intro Z. apply eq_nocase_spec in Z. vm_compute in Z. discriminate Z.
Qed.
Definition enc_cfgs : list config := Eval vm_compute in match normalize_all no_glob enc_configs with Some c => c | None => [] end.
Lemma enc_variant : exists c, variant enc_assets enc_cfgs (aliased (asset_new (bs "a.br") (bs "br")) (bs "/a")) (Some c) (Some Brotli) /\ In (bs "/b") (aliases_of (Some c)) /\ content_type_of (Some c) = Some (bs "text/plain").
Proof.
  exists (hd (NRedirect [] [] Permanent) enc_cfgs). split; [|split; [|reflexivity]].
  - apply (VariantEncoded enc_assets enc_cfgs (asset_new (bs "a") (bs "plain")) _ Brotli (bs ".br") (asset_new (bs "a.br") (bs "br"))).
    + exists [], (tl enc_assets). split; [reflexivity|]. intros b [<-|[<-|[]]] Z; vm_compute in Z; discriminate Z.
    + exists [], []. split; [reflexivity|]. split; [vm_compute; reflexivity|]. intros y [].
    + right; left; reflexivity.
    + exists (firstn 2 enc_assets), []. split; [reflexivity|]. intros b [].
    + reflexivity.
  - left; reflexivity.
Qed.
(** the whole response for the Brotli variant at the alias "/b" is one of those the call is about *)
Lemma enc_written : exists x, whole_written 8 toy ex_query no_glob enc_assets enc_configs false (mk_key (bs "/b") (Some (bs "br")) None) x.
Proof.
  destruct enc_variant as (c & V & I & _).
  destruct (prepare_static_ok 8 toy ex_query (aliased (aliased (asset_new (bs "a.br") (bs "br")) (bs "/a")) (bs "/b")) (content_type_of (Some c)) (headers_of (Some c)) (Some Brotli) None None) as (x & E).
  - destruct (variant_valid ex_query no_glob enc_assets enc_configs enc_cfgs _ _ _ enc_valid eq_refl V) as [A _]. exact A.
  - reflexivity.
  - exists x. eapply WrittenWhole; [reflexivity|exact V|]. exact (WholeStatic 8 toy ex_query _ (Some c) (Some Brotli) (bs "/b") x (or_intror I) E).
Qed.
Example C57_hypotheses :
  reachable 8 toy ex_query no_glob page_state /\ valid_input ex_query no_glob enc_assets enc_configs /\
  Forall (fun a => N.of_nat (length (as_content a)) <= 8) enc_assets /\
  (exists x, written 8 toy ex_query no_glob enc_assets enc_configs false (mk_key (bs "/b") (Some (bs "br")) None) x) /\
  exists st', delete_assets 8 toy ex_query no_glob (fun l => l) enc_assets enc_configs page_state = (st', OOk tt) /\
    is_stored page_state false (mk_key (bs "/b") (Some (bs "br")) None) = true /\ is_stored st' false (mk_key (bs "/b") (Some (bs "br")) None) = false /\
    is_stored page_state true (mk_key (bs "/") None None) = true /\ is_stored st' true (mk_key (bs "/") None None) = false /\
    is_stored st' false (mk_key (bs "/e") None None) = true /\ is_stored st' false (mk_key (bs "/big") None (Some 8)) = true.
Proof.
  split; [exact page_reachable|]. split; [exact enc_valid|]. split; [repeat constructor; intro Z; discriminate Z|].
  split. { destruct enc_written as (x & w). exists x. left. exact w. }
  destruct (delete_assets 8 toy ex_query no_glob (fun l => l) enc_assets enc_configs page_state) as [st' o] eqn:E. exists st'.
  replace st' with (fst (st', o)) by reflexivity. rewrite <- E. split; [f_equal; replace o with (snd (st', o)) by reflexivity; rewrite <- E; vm_compute; reflexivity|].
  clear E. vm_compute. repeat split.
Qed.
(** C57: an asset longer than the chunk size; C58: a path to certify twice. *)
Example C57_C58_hypotheses :
  reachable 8 toy ex_query no_glob page_state /\ (forall l : list asset, Permutation ((fun l => l) l) l) /\
  parses ex_query (as_url (asset_new (bs "new") (bs "0123456789"))) /\ 8 < N.of_nat (length (as_content (asset_new (bs "new") (bs "0123456789")))) /\
  parses ex_query (path_to_url (bs "new")).
Proof. split; [exact page_reachable|]. split; [intro l; apply Permutation_refl|]. repeat split; apply ex_parses. Qed.

(** C67: certifying the page again in [page_state], in another order, succeeds, and something is written. *)
Example C67_hypotheses :
  (forall l : list asset, Permutation (rev l) l) /\ reachable 8 toy ex_query no_glob page_state /\
  exists st', certify_assets 8 toy ex_query no_glob (@rev asset) enc_assets enc_configs page_state = (st', OOk tt) /\
  (exists x, written 8 toy ex_query no_glob enc_assets enc_configs false (mk_key (bs "/b") (Some (bs "br")) None) x) /\
  is_stored st' false (mk_key (bs "/b") (Some (bs "br")) None) = true.
Proof.
  split; [intro l; apply Permutation_sym, Permutation_rev|]. split; [exact page_reachable|].
  destruct (certify_assets 8 toy ex_query no_glob (@rev asset) enc_assets enc_configs page_state) as [st' o] eqn:E. exists st'.
  replace st' with (fst (st', o)) by reflexivity. rewrite <- E. split; [f_equal; replace o with (snd (st', o)) by reflexivity; rewrite <- E; vm_compute; reflexivity|].
  split; [destruct enc_written as (x & w); exists x; left; exact w|]. clear E. vm_compute. reflexivity.
Qed.

(** C68: small assets with different urls and no configuration meet the conditions, in a new router. *)
Definition pair_assets : list asset := [asset_new (bs "a") (bs "one"); asset_new (bs "b") (bs "two")].
Lemma pair_written f k x : written 8 toy ex_query no_glob pair_assets [] f k x ->
  f = false /\ exists a, In a pair_assets /\ k = mk_key (as_url a) None None /\ prepare_static 8 toy ex_query a None [] None None = Some x.
Proof.
  intro w. assert (Va : forall a c enc, variant pair_assets [] a c enc -> In a pair_assets /\ c = None /\ enc = None).
  { intros a c enc V. assert (N : forall b c', first_config [] b c' -> c' = None) by (intros b [y|] FC; [destruct FC as (l & r & E & _); destruct l; discriminate E|reflexivity]).
    inversion V as [b c' L FC|b c' e suffix ea L FC I LE PE]; subst.
    - destruct L as (l & r & E & _). split; [rewrite E; apply in_or_app; right; left; reflexivity|]. split; [exact (N _ _ FC)|reflexivity].
    - rewrite (N _ _ FC) in I. destruct I. }
  destruct w as [w|w].
  - destruct w as [cfgs a c enc f k x N V w|from to kind x I E]; [|destruct I]. injection N as <-. destruct (Va _ _ _ V) as (I & -> & ->).
    destruct w as [u x [->|[]] E|fb x [] E]. split; [reflexivity|]. exists a. rewrite aliased_self in E. auto.
  - destruct w as [cfgs a c enc f k x N V w]. injection N as <-. destruct (Va _ _ _ V) as (I & -> & ->). destruct w as [u i x U L _ _]. exfalso.
    destruct I as [<-|[<-|[]]]; vm_compute in L; discriminate L.
Qed.
Example C68_hypotheses :
  reachable 8 toy ex_query no_glob router_new /\ (forall l : list asset, Permutation (rev l) l) /\ valid_input ex_query no_glob pair_assets [] /\
  (forall f k x y, written 8 toy ex_query no_glob pair_assets [] f k x -> written 8 toy ex_query no_glob pair_assets [] f k y -> x = y) /\
  (forall f k x f' k' y, written 8 toy ex_query no_glob pair_assets [] f k x -> written 8 toy ex_query no_glob pair_assets [] f' k' y ->
     is_prefix (entry_tree_path (ca_entry x)) (entry_tree_path (ca_entry y)) -> entry_tree_path (ca_entry x) = entry_tree_path (ca_entry y)) /\
  (forall f k x en, written 8 toy ex_query no_glob pair_assets [] f k x -> certifies router_new en ->
     overlapping (entry_tree_path (ca_entry x)) (entry_tree_path en) -> entry_tree_path (ca_entry x) = entry_tree_path en) /\
  exists x, written 8 toy ex_query no_glob pair_assets [] false (mk_key (bs "/b") None None) x.
Proof.
  split; [apply new_reachable|]. split; [intro l; apply Permutation_sym, Permutation_rev|].
  split; [split; [repeat constructor; apply ex_parses|constructor]|]. split; [|split; [|split]].
  - intros f k x y w w'. apply pair_written in w, w'. destruct w as (_ & a & I & -> & E). destruct w' as (_ & b & J & K & E'). cut (a = b); [congruence|].
    destruct I as [<-|[<-|[]]]; destruct J as [<-|[<-|[]]]; try reflexivity; vm_compute in K; discriminate K.
  - intros f k x f' k' y w w' P. apply C69_unrelated_unless_equal; [|left; exact P].
    apply pair_written in w, w'. destruct w as (_ & a & I & _ & E). destruct w' as (_ & b & J & _ & E').
    apply prepare_static_whole in E, E'. destruct (prepared_path _ _ _ _ _ _ _ _ _ _ _ _ E) as (r & P1 & _). destruct (prepared_path _ _ _ _ _ _ _ _ _ _ _ _ E') as (r' & P2 & _).
    unfold ep in *. rewrite P1, P2, !app_length. f_equal. destruct I as [<-|[<-|[]]]; destruct J as [<-|[<-|[]]]; reflexivity.
  - intros f k x en _ C. exfalso. unfold certifies in C. cbn [router_new r_tree] in C. destruct (entry_tree_path en); discriminate C.
  - destruct (prepare_static_ok 8 toy ex_query (asset_new (bs "b") (bs "two")) None [] None None None (Forall_nil _) eq_refl) as (x & E). exists x. left.
    eapply WrittenWhole; [reflexivity| |].
    + apply VariantSelf with (c := None); [exists [asset_new (bs "a") (bs "one")], []; split; [reflexivity|intros b []]|intros y []].
    + apply (WholeStatic 8 toy ex_query (asset_new (bs "b") (bs "two")) None None (bs "/b") x); [left; reflexivity|exact E].
Qed.

(** C62: all three outcomes occur. *)
Definition found_body (path : bytes) (pref : list bytes) (range : option N) : option (bool * bytes) :=
  option_map (fun p => (fst p, rs_body (ca_response (snd p)))) (get_asset_for_request 8 page_state path pref range).
Example C62_outcomes :
  found_body (bs "/b") [bs "br"] None = Some (false, bs "br") /\ found_body (bs "/b") [] None = Some (false, bs "plain") /\
  found_body (bs "/big") [] None = Some (false, bs "01234567") /\ found_body (bs "/big") [] (Some 8) = Some (false, bs "89") /\
  found_body (bs "/f/x") [] None = Some (true, bs "ee") /\ found_body (bs "/g") [bs "gzip"] None = Some (true, bs "zipped") /\
  get_asset_for_request 8 page_state (bs "b") [] None = None.
Proof. vm_compute. repeat split. Qed.
(** C66: serve_asset returns a response; fails for a url that is no url, a bad Range, nothing found. *)
Definition rejecting_uri (u : bytes) : option bytes := if bytes_eqb u (bs "//") then None else ex_uri u.
Example C66_outcomes :
  reachable 8 toy ex_query no_glob page_state /\
  (exists rs, serve_asset 8 toy rejecting_uri (2 ^ 64) isort page_state (bs "cert") (get (bs "/b") []) = OOk rs /\ rs_body rs = bs "plain") /\
  serve_asset 8 toy rejecting_uri (2 ^ 64) isort page_state (bs "cert") (get (bs "//") []) = OErr /\
  serve_asset 8 toy rejecting_uri (2 ^ 64) isort page_state (bs "cert") (get (bs "/b") [(bs "Range", bs "bytes=x-")]) = OErr /\
  serve_asset 8 toy rejecting_uri (2 ^ 64) isort page_state (bs "cert") (get (bs "b") []) = OErr.
Proof.
  split; [exact page_reachable|]. split.
  - destruct (serve_asset 8 toy rejecting_uri (2 ^ 64) isort page_state (bs "cert") (get (bs "/b") [])) as [rs| | |] eqn:E.
    + exists rs. split; [reflexivity|]. cut (match OOk rs with OOk r => rs_body r | _ => [] end = bs "plain"); [exact (fun X => X)|]. rewrite <- E. vm_compute. reflexivity.
    + exfalso. revert E. vm_compute. intro Z; discriminate Z.
    + exfalso. revert E. vm_compute. intro Z; discriminate Z.
    + exfalso. revert E. vm_compute. intro Z; discriminate Z.
  - vm_compute. repeat split.
Qed.
