(** C59: what serve_asset returns is accepted by the verifier. *)
From Coq Require Import List Arith NArith Lia Bool Permutation.
From Verif Require Import Bytes Sha256 Utf8 Utf8Split Text HashTree HashTreeSpec RbTree Nested NestedSpec NestedProofs Cbor CborSpec HttpTypes HttpHash HttpSpec Cel CelSpec V2 Wildcard WildcardSpec Verify VerifySpec HeaderSpec HttpTree HttpTreeSpec CertVerify CertSpec
  Props_Hash Props_Wildcard Props_Verify Props_HttpTree AssetRouter RangeSpec Props_Range AssetSpec AssetProofs AssetEffect PreparedProofs Props_Router ServeSpec Props_Serve.
Import ListNotations.
Local Open Scope N_scope.

Lemma utf8_app_n n : forall a b, (length a <= n)%nat -> utf8_valid a = true -> utf8_valid b = true -> utf8_valid (a ++ b) = true.
Proof.
  induction n as [|n IH]; intros a b L A B; [destruct a; [exact B|cbn in L; lia]|]. destruct a as [|x a]; [exact B|]. cbn [length] in L.
  cbn [app]. rewrite utf8_step in A |- *. destruct (b2n x <? 128); [apply IH; [lia|exact A|exact B]|].
  destruct a as [|y a]; [discriminate A|]. cbn [app]. cbn [length] in L. destruct (ok2 x y); [apply IH; [lia|exact A|exact B]|].
  destruct a as [|z a]; [discriminate A|]. cbn [app]. cbn [length] in L. destruct (ok3 x y z); [apply IH; [lia|exact A|exact B]|].
  destruct a as [|w a]; [discriminate A|]. cbn [app]. cbn [length] in L. destruct (ok4 x y z w); [apply IH; [lia|exact A|exact B]|discriminate A].
Qed.
Lemma utf8_app a b : utf8_valid a = true -> utf8_valid b = true -> utf8_valid (a ++ b) = true.
Proof. apply (utf8_app_n (length a)). lia. Qed.
Lemma utf8_join l : Forall (fun p => utf8_valid p = true) l -> utf8_valid (join ["/"%byte] l) = true.
Proof.
  induction 1 as [|p l P F IH]; [reflexivity|]. destruct l as [|q l]; [exact P|]. change (join ["/"%byte] (p :: q :: l)) with (p ++ ["/"%byte] ++ join ["/"%byte] (q :: l)).
  apply utf8_app; [exact P|]. apply utf8_app; [reflexivity|exact IH].
Qed.
Lemma utf8_scope path sc : scope_of path sc -> utf8_valid path = true -> utf8_valid sc = true.
Proof.
  intros (s & r & -> & D) V. apply (utf8_split "/") in V; [|reflexivity]. change (s ++ bs "/" ++ r) with (s ++ "/"%byte :: r) in V. rewrite split_app_slash in V. apply Forall_app in V. destruct V as [V _].
  apply utf8_join in V. rewrite join_split in V. destruct D as [-> | ->]; [apply utf8_app; [exact V|reflexivity]|exact V].
Qed.

(** ** The request hash *)
Lemma no_header_filter names hs : (forall n, In n names -> no_header n hs) -> filter (fun h => listed names (fst h)) hs = [].
Proof.
  intro N. induction hs as [|[n v] hs IH]; [reflexivity|]. cbn [filter fst]. destruct (listed names n) eqn:L.
  - exfalso. unfold listed in L. apply existsb_exists in L. destruct L as (m & I & E). specialize (N m I). unfold no_header in N. inversion N as [|? ? X _]; subst. apply X. cbn [fst]. apply same_name_lower.
    unfold eq_nocase in E. apply bytes_eqb_eq in E. symmetry. exact E.
  - apply IH. intros m I. specialize (N m I). inversion N; assumption.
Qed.
Lemma same_get_hash H uq rq url names : rq_method rq = bs "GET" -> rq_body rq = [] -> uq (rq_url rq) = Some None -> uq url = Some None ->
  (forall n, In n names -> no_header n (rq_headers rq)) ->
  request_hash H uq rq (mk_request_cert names []) = request_hash H uq (mk_request (bs "GET") url [] []) (mk_request_cert names []).
Proof.
  intros M B Q Q' N. unfold request_hash, request_entries, filtered_request_headers. cbn [rq_url rq_body rq_method rq_headers rc_headers]. rewrite Q, Q', M, B, (no_header_filter names _ N). reflexivity.
Qed.

(** ** What the calls put into the tree *)
Definition plain_norm (umod : N) (uq : bytes -> option (option bytes)) (c : config) : Prop :=
  match c with
  | NFile _ _ _ fbs als _ => Forall (plain_url umod uq) als /\ Forall (fun fb => N.of_nat (length (fb_scope fb)) + 4 < umod) fbs
  | NPattern _ _ _ _ => True
  | NRedirect from _ _ => plain_url umod uq from
  end.
Definition plain_entry (umod : N) (H : bytes -> bytes) (uq : bytes -> option (option bytes)) (x : certified) : Prop :=
  exists p url status body hs ct enc range names, prepared H uq x p url status body hs ct enc range names /\
    plain_url umod uq url /\ N.of_nat (length (path_text p)) + 4 < umod /\ (names = [] \/ names = [bs "range"]).
Lemma plain_put umod cs H uq glob c f k x : 0 < cs -> plain_urls umod uq c -> call_puts cs H uq glob c f k x -> plain_entry umod H uq x.
Proof.
  intros CS P w. destruct c as [o assets configs|o assets configs|]; try contradiction. cbn [call_puts plain_urls] in *. destruct P as [PA PC].
  apply C67_written_is_configured in w; [|exact CS]. unfold plain_entry.
  assert (UA : forall cfgs a c enc, variant assets cfgs a c enc -> plain_url umod uq (as_url a)).
  { intros cfgs a c enc V. rewrite Forall_forall in PA. assert (LA : forall b, last_asset assets b -> plain_url umod uq (as_url b)).
    { intros b (l & r & -> & _). apply PA. apply in_or_app. right. left. reflexivity. }
    inversion V; subst; cbn [aliased as_url]; auto. }
  assert (NC : forall cfgs, normalize_all glob configs = Some cfgs -> Forall (plain_norm umod uq) cfgs).
  { clear w. induction PC as [|cf configs P F IH]; intros cfgs N; cbn [normalize_all] in N; [injection N as <-; constructor|].
    destruct (normalize glob cf) as [n|] eqn:E; [|discriminate N]. destruct (normalize_all glob configs) as [ns|]; [|discriminate N]. injection N as <-. constructor; [|apply IH; reflexivity].
    destruct cf as [p ct hs fbs als encs|p ct hs encs|from to kind]; cbn [normalize] in E; [injection E as <-; exact P| |injection E as <-; exact P].
    destruct (glob p); [injection E as <-; exact I|discriminate E]. }
  assert (CF : forall cfgs a c enc, normalize_all glob configs = Some cfgs -> variant assets cfgs a c enc ->
     Forall (plain_url umod uq) (aliases_of c) /\ Forall (fun fb => N.of_nat (length (fb_scope fb)) + 4 < umod) (fallbacks_of c)).
  { intros cfgs a c enc N V. apply NC in N. assert (X : forall b, first_config cfgs b c -> Forall (plain_url umod uq) (aliases_of c) /\ Forall (fun fb => N.of_nat (length (fb_scope fb)) + 4 < umod) (fallbacks_of c)).
    { intros b FC. destruct c as [cc|]; [|split; constructor]. destruct FC as (l & r & -> & _). rewrite Forall_forall in N. specialize (N cc ltac:(apply in_or_app; right; left; reflexivity)).
      destruct cc; cbn in *; [exact N|split; constructor|split; constructor]. }
    inversion V; subst; eauto. }
  assert (US : forall cfgs a c enc u, normalize_all glob configs = Some cfgs -> variant assets cfgs a c enc -> u = as_url a \/ In u (aliases_of c) -> plain_url umod uq u).
  { intros cfgs a c enc u N V [->|I]; [eauto|]. destruct (CF _ _ _ _ N V) as [A _]. rewrite Forall_forall in A. auto. }
  destruct w as [cfgs a c enc u x N V U P|cfgs a c enc u i before body after x N V U E L D B P|cfgs a c enc fb x N V I P|from to kind x I P].
  - do 9 eexists. split; [exact P|]. assert (X := US _ _ _ _ _ N V U). split; [exact X|]. split; [exact (proj2 X)|auto].
  - do 9 eexists. split; [exact P|]. assert (X := US _ _ _ _ _ N V U). split; [exact X|]. split; [exact (proj2 X)|auto].
  - do 9 eexists. split; [exact P|]. split; [exact (UA _ _ _ _ V)|]. split; [|auto]. destruct (CF _ _ _ _ N V) as [_ X]. rewrite Forall_forall in X. exact (X fb I).
  - do 9 eexists. split; [exact P|]. rewrite Forall_forall in PC. assert (X := PC _ I). split; [exact X|]. split; [exact (proj2 X)|auto].
Qed.
Lemma plain_short umod H uq x : (forall y, length (H y) = 32%nat) -> 32 < umod -> plain_entry umod H uq x -> Forall (short umod) (entry_tree_path (ca_entry x)).
Proof.
  intros HL U (p & url & status & body & hs & ct & enc & range & names & P & _ & L & _). destruct (prepared_path _ _ _ _ _ _ _ _ _ _ _ _ P) as (q & E & Q). rewrite E.
  assert (S32 : forall y, short umod (H y)) by (intro y; unfold short; rewrite HL; lia).
  apply Forall_app. split.
  - assert (S : Forall (short umod) (request_parts (path_text p))).
    { unfold request_parts. apply Forall_app. split.
      - apply Forall_forall. intros s I. apply filter_In in I. destruct I as [I _]. assert (B := split_short "/" (path_text p)). rewrite Forall_forall in B. specialize (B s I). unfold short. lia.
      - destruct (ends_with_slash (path_text p)); constructor; [unfold short; cbn; lia|constructor]. }
    destruct p as [u|u]; unfold path_tree_path; rewrite path_to_segments_parts; (apply Forall_app; split; [exact S|]); constructor; try constructor; unfold short; cbn; lia.
  - constructor; [apply S32|]. constructor; [|constructor; [|constructor]].
    + unfold request_hash in Q. destruct (uq _) as [q'|]; [|discriminate Q]. injection Q as <-. apply S32.
    + apply S32.
Qed.
Lemma calls_history umod cs H uq glob calls : (forall y, length (H y) = 32%nat) -> 32 < umod -> 0 < cs -> Forall any_order calls -> Forall (plain_urls umod uq) calls ->
  exists ops, http_run H ops = Some (r_tree (run_calls cs H uq glob calls router_new)) /\
    Forall (fun o => match o with HInsert e => Forall (short umod) (entry_tree_path e) | _ => True end) ops.
Proof.
  intros HL U CS O P. assert (S := run_calls_steps cs H uq glob CS calls O router_new (new_tok H)).
  apply (steps_history H (fun e => Forall (short umod) (entry_tree_path e)) _ _ _ _ _ _) with (2 := S).
  - intros f k x (c & I & w). rewrite Forall_forall in P. eapply plain_short; [exact HL|exact U|]. exact (plain_put umod cs H uq glob c f k x CS (P c I) w).
  - exists []. split; [reflexivity|constructor].
Qed.
Lemma somewhere_occupied H ops st p : http_run H ops = Some (r_tree st) -> (somewhere st p <-> occupied ops p).
Proof.
  intro R. destruct (http_run_ok H ops) as (t & R' & _ & _ & Q). assert (t = r_tree st) by congruence. subst t. unfold somewhere, occupied. split; intros (q & v & X); exists q, v; apply Q; exact X.
Qed.

(** ** C59 *)
Lemma history_prepared cs H uq glob umod calls f k x : 0 < cs -> Forall any_order calls -> Forall (plain_urls umod uq) calls ->
  stored (run_calls cs H uq glob calls router_new) f k x -> exists c, In c calls /\ call_puts cs H uq glob c f k x.
Proof.
  intros CS O P S. assert (X := run_calls_steps cs H uq glob CS calls O router_new (new_tok H)).
  destruct (steps_stored H _ _ _ _ _ _ f k x X S) as [w|Z]; [exact w|]. destruct f; discriminate Z.
Qed.
Lemma calls_reachable cs H uq glob calls : Forall any_order calls -> forall st, reachable cs H uq glob st -> reachable cs H uq glob (run_calls cs H uq glob calls st).
Proof. induction 1 as [|c calls P F IH]; intros st R; [exact R|]. cbn [run_calls]. apply IH. apply ReachCall; assumption. Qed.
Lemma new_reachable cs H uq glob : reachable cs H uq glob router_new.
Proof. exact (ReachStart cs H uq glob [] ndefault eq_refl). Qed.
Lemma names_plain names : names = [] \/ names = [bs "range"] -> Forall plain_name (cel_names (get_expression names)).
Proof. intros [->| ->]; cbn [get_expression cel_names rc_headers rc_query app]; repeat constructor; vm_compute; try (intro Z; discriminate Z); intuition discriminate. Qed.
Lemma cel_names_eq names names' : (names = [] \/ names = [bs "range"]) -> (names' = [] \/ names' = [bs "range"]) ->
  print_cel (get_expression names) = print_cel (get_expression names') -> names = names'.
Proof. intros [->| ->] [->| ->] E; try reflexivity; exfalso; vm_compute in E; discriminate E. Qed.
Lemma names_agree names names' st st' body body' b b' hs hs' ct ct' enc enc' rg rg' r : (names = [] \/ names = [bs "range"]) -> (names' = [] \/ names' = [bs "range"]) ->
  r = mk_response st (content_headers b hs ct enc rg (print_cel (get_expression names))) body -> r = mk_response st' (content_headers b' hs' ct' enc' rg' (print_cel (get_expression names'))) body' -> names = names'.
Proof.
  intros NN NN' -> E. apply (f_equal (fun r => last (rs_headers r) ([], []))) in E. cbn [rs_headers] in E.
  assert (LL : forall body hs ct enc rg e, last (content_headers body hs ct enc rg e) ([], []) = (bs "IC-CertificateExpression", e)) by (intros; unfold content_headers; cbv zeta; rewrite !app_assoc; apply last_last).
  rewrite !LL in E. remember (print_cel (get_expression names)) as x. remember (print_cel (get_expression names')) as y. injection E as E. subst. exact (cel_names_eq _ _ NN NN' E).
Qed.
Lemma served_accepted :
  forall (umod cap_max : N) (checked : bool) (H : bytes -> bytes) ple vs uri_path uri_query gunzip inflate glob (cs : N) sort
         (st : router) (rq : request) (path : bytes) (range : option N) (f : bool) (x : certified)
         (data_certificate : bytes) (c : certificate) canister_id now offset key min_version,
  (forall y, length (H y) = 32%nat) -> 32 < umod <= 2 ^ 64 -> 0 < cs -> min_version <= 2 ->
  reachable cs H uri_query glob st ->
  (forall f k x, stored st f k x -> exists c, plain_urls umod uri_query c /\ call_puts cs H uri_query glob c f k x) ->
  (exists ops, http_run H ops = Some (r_tree st) /\
     Forall (fun o => match o with HInsert e => Forall (short umod) (entry_tree_path e) | _ => True end) ops) ->
  (* a GET request without query, for which the router finds [x] *)
  rq_method rq = bs "GET" -> rq_body rq = [] -> uri_query (rq_url rq) = Some None ->
  path_of uri_path rq path -> wants_range umod (rq_headers rq) range ->
  get_asset_for_request cs st path (get_preferred_encodings sort rq) range = Some (f, x) ->
  (* the tree certifies it *)
  certifies st (ca_entry x) ->
  (* an ordinary response: the request has no Range header; a fallback: nothing more specific is certified, and the path is not a reserved one *)
  match f with
  | false => no_header (bs "range") (rq_headers rq)
  | true => most_specific st (path_text (en_path (ca_entry x))) path /\ unreserved (en_path (ca_entry x)) path
  end ->
  (* the certificate is valid and certifies the router's root hash *)
  cert_from_cbor umod cap_max data_certificate = OOk c ->
  verify_certificate umod cap_max checked H ple vs c canister_id key now offset = OOk tt ->
  lookup_path (certified_data_path canister_id) (c_tree c) = Found (router_root_hash H st) ->
  exists rs i v,
  serve_asset cs H uri_path umod sort st data_certificate rq = OOk rs /\
  rs_status rs = rs_status (ca_response x) /\ rs_body rs = rs_body (ca_response x) /\
  verify umod cap_max checked H ple vs uri_path uri_query gunzip inflate rq rs canister_id now offset key min_version = OOk i /\
  i_version i = 2 /\ i_response i = Some v /\ v_status v = Some (rs_status rs) /\ v_body v = rs_body rs.
Proof.
  intros umod cap_max checked H ple vs up uq gunzip inflate glob cs sort st rq path range f x dc c cid now offset key mv HL U CS MV R HP HT M B Q PO W E CE F CB VC LK.
  destruct (choice_stored _ _ _ _ _ _ _ _ _ _ CS R E) as (k & S & KP & _ & KR).
  destruct (HP f k x S) as (cl & PU & w).
  assert (PE : plain_entry umod H uq x) by exact (plain_put umod cs H uq glob cl f k x CS PU w).
  destruct cl as [o assets configs|o assets configs|]; try contradiction. cbn [call_puts] in w.
  destruct (stored_place _ _ _ _ _ _ _ _ _ CS w) as (url & status & body & hs & ct & enc & rg & names & P & _ & _ & D).
  destruct PE as (p & url' & status' & body' & hs' & ct' & enc' & rg' & names' & P' & PUR & PL & NN').
  assert (NN : names = [] \/ names = [bs "range"]) by (destruct (k_range k); intuition).
  assert (EP : en_path (ca_entry x) = (if f then PWildcard (k_path k) else PExact (k_path k))) by exact (proj1 (proj2 P)).
  assert (EP' : en_path (ca_entry x) = p) by exact (proj1 (proj2 P')).
  destruct HT as (ops & RUN & SH).
  destruct (C66_serve_asset_result cs H up uq glob umod sort st dc rq CS ltac:(lia) R) as [(path' & range' & f' & x' & wt & PO' & W' & E' & EW & SV)|[_ D']].
  2:{ exfalso. destruct D' as [X|[X|(path' & range' & PO' & W' & E')]]; [exact (X path PO)|exact (X range W)|].
      apply C63_request_path_exact in PO. apply C63_request_path_exact in PO'. assert (path' = path) by congruence. subst path'.
      assert (RB := range_begin_spec umod rq ltac:(lia)). destruct (maybe_get_range_begin umod rq) as [r0| | |]; try contradiction; [|exact (RB _ W)]. apply RB in W. apply RB in W'. congruence. }
  assert (path' = path). { apply C63_request_path_exact in PO. apply C63_request_path_exact in PO'. congruence. } subst path'.
  assert (range' = range). { assert (RB := range_begin_spec umod rq ltac:(lia)). destruct (maybe_get_range_begin umod rq) as [r0| | |]; try contradiction; [|exfalso; exact (RB _ W)]. apply RB in W. apply RB in W'. congruence. } subst range'.
  rewrite E in E'. injection E' as <- <-.
  assert (UT : utf8_valid path = true) by (destruct PO as (? & _ & _ & X); exact X).
  (* the prepared data, once with its url's query *)
  destruct P' as (RS & _ & MD).
  assert (EQ : names' = names).
  { destruct P as (RS1 & _ & _). eapply names_agree; [exact NN'|exact NN|exact RS|exact RS1]. }
  subst names'.
  destruct (C51_certified_response_is_accepted umod cap_max checked H ple vs up uq gunzip inflate ops (r_tree st) (ca_entry x) (get_expression names)
     (mk_request (bs "GET") url' [] []) rq (ca_response x) path path dc c wt cid now offset key mv) as (i & V & V2 & VR); try assumption.
  all: try (exact (names_plain names NN)).
  - apply (held_get H ops (r_tree st) _ RUN). exact CE.
  - intro Z; discriminate Z.
  - intros qc rc Z. injection Z as <- _. apply same_get_hash; [exact M|exact B|exact Q|exact (proj1 PUR)|]. intros n I. destruct (k_range k) as [b|] eqn:KK.
    + destruct D as (-> & -> & _). destruct I as [<-|[]]. exact F.
    + destruct D as (-> & _). destruct I.
  - rewrite EP. destruct f; cbn [answers].
    + split; [apply scope_matches; exact KP|]. destruct F as [[F1 F2] _]. rewrite EP in F2. cbn [path_text] in F2. split.
      * intro X. apply F1. apply (somewhere_occupied H ops st _ RUN). exact X.
      * intros u Mu Su X. apply (F2 u Mu Su). apply (somewhere_occupied H ops st _ RUN). exact X.
    + rewrite KP. reflexivity.
  - reflexivity.
  - destruct f; [exact (proj2 F)|rewrite EP; exact I].
  - rewrite EP. destruct f; cbn [path_text]; [exact (utf8_scope _ _ KP UT)|rewrite KP; exact UT].
  - rewrite EP'. exact PL.
  - destruct VR as (v & hs0 & hv & IR & VS & VB & _). eexists _, i, v. split; [exact SV|]. split; [reflexivity|]. split; [reflexivity|]. split; [exact V|]. split; [exact V2|]. split; [exact IR|]. split; [exact VS|exact VB].
Qed.
Theorem C59_served_response_is_accepted_partial :
  forall (umod cap_max : N) (checked : bool) (H : bytes -> bytes) ple vs uri_path uri_query gunzip inflate glob (cs : N) sort
         (calls : list call) (rq : request) (path : bytes) (range : option N) (f : bool) (x : certified)
         (data_certificate : bytes) (c : certificate) canister_id now offset key min_version,
  (forall y, length (H y) = 32%nat) -> 32 < umod <= 2 ^ 64 -> 0 < cs -> min_version <= 2 ->
  (* any history of calls, whose urls have no query component *)
  Forall any_order calls -> Forall (plain_urls umod uri_query) calls ->
  let st := run_calls cs H uri_query glob calls router_new in
  (* a GET request without query, for which the router finds [x] *)
  rq_method rq = bs "GET" -> rq_body rq = [] -> uri_query (rq_url rq) = Some None ->
  path_of uri_path rq path -> wants_range umod (rq_headers rq) range ->
  get_asset_for_request cs st path (get_preferred_encodings sort rq) range = Some (f, x) ->
  (* the tree certifies it *)
  certifies st (ca_entry x) ->
  (* an ordinary response: the request has no Range header; a fallback: nothing more specific is certified, and the path is not a reserved one *)
  match f with
  | false => no_header (bs "range") (rq_headers rq)
  | true => most_specific st (path_text (en_path (ca_entry x))) path /\ unreserved (en_path (ca_entry x)) path
  end ->
  (* the certificate is valid and certifies the router's root hash *)
  cert_from_cbor umod cap_max data_certificate = OOk c ->
  verify_certificate umod cap_max checked H ple vs c canister_id key now offset = OOk tt ->
  lookup_path (certified_data_path canister_id) (c_tree c) = Found (router_root_hash H st) ->
  exists rs i v,
  serve_asset cs H uri_path umod sort st data_certificate rq = OOk rs /\
  rs_status rs = rs_status (ca_response x) /\ rs_body rs = rs_body (ca_response x) /\
  verify umod cap_max checked H ple vs uri_path uri_query gunzip inflate rq rs canister_id now offset key min_version = OOk i /\
  i_version i = 2 /\ i_response i = Some v /\ v_status v = Some (rs_status rs) /\ v_body v = rs_body rs.
Proof.
  intros umod cap_max checked H ple vs up uq gunzip inflate glob cs sort calls rq path range f x dc c cid now offset key mv HL U CS MV O PU st M B Q PO W E CE F CB VC LK.
  apply (served_accepted umod cap_max checked H ple vs up uq gunzip inflate glob cs sort st rq path range f x dc c cid now offset key mv); try assumption.
  - apply calls_reachable; [exact O|apply new_reachable].
  - intros f' k' x' S. destruct (history_prepared cs H uq glob umod calls f' k' x' CS O PU S) as (cl & IC & w). exists cl. split; [|exact w]. rewrite Forall_forall in PU. exact (PU cl IC).
  - exact (calls_history umod cs H uq glob calls HL (proj1 U) CS O PU).
Qed.
Print Assumptions C59_served_response_is_accepted_partial.
