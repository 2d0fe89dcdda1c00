(** C59 in terms of the history alone: what serve_asset returns for a plain GET is accepted. *)
From Coq Require Import List Arith NArith Lia Bool Permutation.
From Verif Require Import Bytes Sha256 Text HashTree HashTreeSpec RbTree Nested NestedSpec Cbor CborSpec HttpTypes HttpHash HttpSpec Cel V2 Wildcard WildcardSpec WildcardProofs Verify VerifySpec Header HeaderSpec HttpTree HttpTreeSpec CertVerify CertSpec Props_Cert Props_Header
  Props_Hash Props_Wildcard Props_Verify Props_HttpTree AssetRouter RangeSpec Props_Range AssetSpec AssetProofs AssetEffect PreparedProofs Props_Router Props_Backed ServeSpec Props_Serve Props_Accept.
Import ListNotations.
Local Open Scope N_scope.

Lemma written_name cs H uq glob A C f k x o : 0 < cs -> written cs H uq glob A C f k x -> In (k_path k) (call_names f (CallCertify o A C)).
Proof.
  intros CS w. apply C67_written_is_configured in w; [|exact CS]. cbn [call_names].
  assert (LA : forall b, last_asset A b -> In (as_url b) (map as_url A)) by (intros b (l & r & -> & _); apply in_map, in_or_app; right; left; reflexivity).
  assert (UA : forall cfgs a c enc, variant A cfgs a c enc -> In (as_url a) (map as_url A)) by (intros cfgs a c enc V; inversion V; subst; cbn [aliased as_url]; auto).
  assert (CF : forall cfgs a c enc, normalize_all glob C = Some cfgs -> variant A cfgs a c enc ->
    exists p ct hs encs, (aliases_of c = [] /\ fallbacks_of c = []) \/ In (ConfigFile p ct hs (fallbacks_of c) (aliases_of c) encs) C).
  { intros cfgs a c enc N V. assert (X : forall b, first_config cfgs b c -> exists p ct hs encs, (aliases_of c = [] /\ fallbacks_of c = []) \/ In (ConfigFile p ct hs (fallbacks_of c) (aliases_of c) encs) C).
    { intros b FC. destruct c as [[p ct hs fbs als encs| |]|]; try (exists [], None, [], []; left; split; reflexivity). exists p, ct, hs, encs. right. cbn [aliases_of fallbacks_of].
      destruct FC as (l & r & -> & _). clear - N. revert l N. induction C as [|cf C IH]; intros l N; cbn [normalize_all] in N; [destruct l; discriminate N|].
      destruct (normalize glob cf) as [n|] eqn:E; [|discriminate N]. destruct (normalize_all glob C) as [ns|]; [|discriminate N]. injection N as N. destruct l as [|n' l].
      - injection N as -> _. left. destruct cf as [p' ct' hs' fbs' als' encs'|p' ct' hs' encs'|from to kind]; cbn [normalize] in E; [congruence|destruct (glob p'); discriminate E|discriminate E].
      - injection N as _ N. right. apply (IH l). congruence. }
    inversion V; subst; eauto. }
  assert (US : forall cfgs a c enc u, normalize_all glob C = Some cfgs -> variant A cfgs a c enc -> u = as_url a \/ In u (aliases_of c) -> In u (call_names false (CallCertify o A C))).
  { intros cfgs a c enc u N V [->|I]; cbn [call_names]; apply in_or_app; [left; eauto|right]. destruct (CF _ _ _ _ N V) as (p & ct & hs & encs & [[Z _]|J]); [rewrite Z in I; destruct I|].
    apply in_flat_map. eexists. split; [exact J|]. exact I. }
  destruct w as [cfgs a c enc u x N V U P|cfgs a c enc u i before body after x N V U E L D B P|cfgs a c enc fb x N V I P|from to kind x I P]; cbn [k_path].
  - exact (US _ _ _ _ _ N V U).
  - exact (US _ _ _ _ _ N V U).
  - cbn [app]. destruct (CF _ _ _ _ N V) as (p & ct & hs & encs & [[_ Z]|J]); [rewrite Z in I; destruct I|]. apply in_flat_map. eexists. split; [exact J|]. apply in_map. exact I.
  - apply in_or_app. right. apply in_flat_map. eexists. split; [exact I|]. left. reflexivity.
Qed.
Lemma history_name cs H uq glob calls f k x : 0 < cs -> history_written cs H uq glob calls f k x -> exists c, In c calls /\ In (k_path k) (call_names f c).
Proof.
  intros CS (c & I & D). exists c. split; [exact I|]. destruct c as [o A C|o A C|]; cbn [call_puts call_drops] in D.
  - destruct D as [w|[]]. exact (written_name cs H uq glob A C f k x o CS w).
  - destruct D as [[]|w]. exact (written_name cs H uq glob A C f k x o CS (or_introl w)).
  - destruct D as [[]|[]].
Qed.
(** Whatever is certified comes from a response some call put. *)
Lemma somewhere_put cs H uq glob calls parts t : 0 < cs -> Forall any_order calls ->
  (forall f k x, history_written cs H uq glob calls f k x -> clean_url (k_path k)) ->
  (forall s, In s parts -> s <> bs "<$>" /\ s <> bs "<*>") -> t = bs "<$>" \/ t = bs "<*>" ->
  somewhere (run_calls cs H uq glob calls router_new) (parts ++ [t]) ->
  exists f k x, history_written cs H uq glob calls f k x /\ request_parts (k_path k) = parts /\ t = (if f then bs "<*>" else bs "<$>").
Proof.
  intros CS O CL NP T (q & v & G). set (st := run_calls cs H uq glob calls router_new) in *.
  assert (S := run_calls_steps cs H uq glob CS calls O router_new (new_tok H)). fold st in S.
  destruct (steps_history H (fun e => exists f k x, (exists c, In c calls /\ call_puts cs H uq glob c f k x) /\ ca_entry x = e) _ _ _ _ _ _ ltac:(intros f k x w; exists f, k, x; exact (conj w eq_refl)) S) as (ops & RUN & HON).
  { exists []. split; [reflexivity|constructor]. }
  destruct (http_run_ok H ops) as (t' & R' & _ & _ & Q). assert (t' = r_tree st) by congruence. subst t'. apply Q in G.
  destruct (holds_inserted ops _ _ G) as (en & Ien & Een & _). rewrite Forall_forall in HON. specialize (HON _ Ien). cbn in HON. destruct HON as (f & k & x & (c & I & w) & <-).
  assert (W : history_written cs H uq glob calls f k x) by (exists c; auto).
  exists f, k, x. split; [exact W|]. destruct c as [o A C|o A C|]; try contradiction. cbn [call_puts] in w.
  destruct (stored_place _ _ _ _ _ _ _ _ _ CS w) as (url & status & body & hs & ct & enc & rg & names & P & _).
  destruct (prepared_path _ _ _ _ _ _ _ _ _ _ _ _ P) as (rqh & E & _). rewrite E in Een. specialize (CL _ _ _ W).
  assert (TT : path_tree_path (if f then PWildcard (k_path k) else PExact (k_path k)) = request_parts (k_path k) ++ [if f then bs "<*>" else bs "<$>"]) by (destruct f; apply path_to_segments_parts).
  rewrite TT, <- !app_assoc in Een. cbn [app] in Een. assert (OV : overlapping (parts ++ t :: q) (request_parts (k_path k) ++ (if f then bs "<*>" else bs "<$>") :: [H (print_cel (get_expression names)); rqh; response_hash H (ca_response x) (HeaderExclusions []) None])).
  { left. exists []. rewrite app_nil_r. symmetry. exact Een. }
  apply (cut_at (fun s => s = bs "<$>" \/ s = bs "<*>")) in OV.
  - destruct OV as (E1 & E2 & _). split; [symmetry; exact E1|exact E2].
  - intros s I' [->| ->]; [exact (proj1 (NP _ I') eq_refl)|exact (proj2 (NP _ I') eq_refl)].
  - intros s I' [->| ->]; [exact (proj1 CL I')|exact (proj2 CL I')].
  - exact T.
  - destruct f; auto.
Qed.
Lemma matches_in u r s : matches u r -> In s u -> s = [] \/ In s r.
Proof.
  intros [(t & ->)|(p & x & t & -> & ->)] I; [right; apply in_or_app; left; exact I|]. apply in_app_or in I. destruct I as [I|[<-|[]]]; [right; apply in_or_app; left; exact I|left; reflexivity].
Qed.
Lemma never_most_specific cs H uq glob calls scope path : 0 < cs -> Forall any_order calls ->
  (forall f k x, history_written cs H uq glob calls f k x -> clean_url (k_path k)) -> clean_url path ->
  never_more_specific calls scope path -> most_specific (run_calls cs H uq glob calls router_new) scope path.
Proof.
  intros CS O CL [C1 C2] N. split.
  - intro X. apply (somewhere_put cs H uq glob calls) in X; [|exact CS|exact O|exact CL| |left; reflexivity].
    + destruct X as (f & k & x & W & E & T). destruct (history_name _ _ _ _ _ _ _ _ CS W) as (c & I & J). destruct f; [revert T; apply neq_by_eqb; reflexivity|]. exact (proj1 N c _ I J E).
    + intros s I. split; intros ->; [exact (C1 I)|exact (C2 I)].
  - intros u M S X. apply (somewhere_put cs H uq glob calls) in X; [|exact CS|exact O|exact CL| |right; reflexivity].
    + destruct X as (f & k & x & W & E & T). destruct (history_name _ _ _ _ _ _ _ _ CS W) as (c & I & J). destruct f; [|revert T; apply neq_by_eqb; reflexivity]. apply (proj2 N c _ I J). rewrite E. auto.
    + intros s I. destruct (matches_in u _ s M I) as [->|I']; [split; intro Z; discriminate Z|]. split; intros ->; [exact (C1 I')|exact (C2 I')].
Qed.
Lemma clean_ordinary path : clean_url path -> ordinary_path path.
Proof. intros [A B]. split; intros q E; [apply B|apply A]; rewrite E; apply in_or_app; right; left; reflexivity. Qed.

(** The hypotheses on calls and request are about names only: reserved segments, slashes, queries. *)
Theorem C59_plain_get_is_accepted_partial :
  forall (umod cap_max : N) (checked : bool) (H : bytes -> bytes) ple vs uri_path uri_query gunzip inflate glob (cs : N) sort
         (calls : list call) (rq : request) (path : bytes) (f : bool) (x : certified)
         (data_certificate : bytes) (c : certificate) canister_id now offset key min_version,
  (forall y, length (H y) = 32%nat) -> 32 < umod <= 2 ^ 64 -> 0 < cs -> min_version <= 2 ->
  Forall any_order calls -> Forall plain_call calls -> Forall (plain_urls umod uri_query) calls ->
  (* no name uses the reserved segments, no two names differ in slashes only *)
  (forall f c u, In c calls -> In u (call_names f c) -> clean_url u) ->
  (forall f c u c' u', In c calls -> In u (call_names f c) -> In c' calls -> In u' (call_names f c') -> request_parts u = request_parts u' -> u = u') ->
  let st := run_calls cs H uri_query glob calls router_new in
  plain_get uri_query rq True -> path_of uri_path rq path ->
  get_asset_for_request cs st path (get_preferred_encodings sort rq) None = Some (f, x) ->
  (f = true -> clean_url path /\ (forall r, request_parts path <> bs "http_expr" :: r) /\ never_more_specific calls (path_text (en_path (ca_entry x))) path) ->
  cert_from_cbor umod cap_max data_certificate = OOk c ->
  verify_certificate umod cap_max checked H ple vs c canister_id key now offset = OOk tt ->
  lookup_path (certified_data_path canister_id) (c_tree c) = Found (router_root_hash H st) ->
  (exists f' k' x', history_written cs H uri_query glob calls f' k' x' /\ response_collision H x x') \/
  exists rs i v,
  serve_asset cs H uri_path umod sort st data_certificate rq = OOk rs /\
  rs_status rs = rs_status (ca_response x) /\ rs_body rs = rs_body (ca_response x) /\
  verify umod cap_max checked H ple vs uri_path uri_query gunzip inflate rq rs canister_id now offset key min_version = OOk i /\
  i_version i = 2 /\ i_response i = Some v /\ v_status v = Some (rs_status rs) /\ v_body v = rs_body rs.
Proof.
  intros umod cap_max checked H ple vs up uq gunzip inflate glob cs sort calls rq path f x dc c cid now offset key mv HL U CS MV O PC PU CLN SLN st (M & B & Q & NR) PO E F CB VC LK.
  assert (CL : forall f k x, history_written cs H uq glob calls f k x -> clean_url (k_path k)).
  { intros f' k x' W. destruct (history_name _ _ _ _ _ _ _ _ CS W) as (c' & I' & J). exact (CLN f' c' _ I' J). }
  assert (SL : forall f k x k' x', history_written cs H uq glob calls f k x -> history_written cs H uq glob calls f k' x' -> request_parts (k_path k) = request_parts (k_path k') -> k_path k = k_path k').
  { intros f' k1 x1 k2 x2 W1 W2 EQ. destruct (history_name _ _ _ _ _ _ _ _ CS W1) as (c1 & I1 & J1). destruct (history_name _ _ _ _ _ _ _ _ CS W2) as (c2 & I2 & J2). exact (SLN f' c1 _ c2 _ I1 J1 I2 J2 EQ). }
  specialize (NR I). assert (R : reachable cs H uq glob st) by (apply calls_reachable; [exact O|apply new_reachable]).
  destruct (choice_stored _ _ _ _ _ _ _ _ _ _ CS R E) as (k & S & KP & _ & KR).
  destruct (C56_stored_is_certified_partial cs H uq glob calls HL CS O PC CL SL f k x S) as [_ [CE|CE]]; [right|left; exact CE].
  apply (C59_served_response_is_accepted_partial umod cap_max checked H ple vs up uq gunzip inflate glob cs sort calls rq path None f x dc c cid now offset key mv); try assumption.
  destruct f; [|exact NR]. destruct (F eq_refl) as (C & NH & NM). split; [apply never_most_specific; assumption|].
  destruct (history_prepared cs H uq glob umod calls true k x CS O PU S) as (cl & _ & w). destruct cl as [o A cf|o A cf|]; try contradiction.
  destruct (stored_place _ _ _ _ _ _ _ _ _ CS w) as (url & status & body & hs & ct & enc & rg & names & P & _). rewrite (proj1 (proj2 P)). split; [apply clean_ordinary; exact C|exact NH].
Qed.
Print Assumptions C59_plain_get_is_accepted_partial.
