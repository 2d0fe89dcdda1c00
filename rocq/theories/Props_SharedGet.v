(** C96 in terms of the history alone: what a router on a shared tree returns for a plain GET is accepted. *)
From Coq Require Import List Arith NArith Lia Bool Permutation.
From Verif Require Import Bytes Sha256 Text HashTree HashTreeSpec RbTree Nested NestedSpec NestedProofs Cbor CborSpec HttpTypes HttpHash HttpSpec Cel V2 Wildcard WildcardSpec WildcardProofs Verify VerifySpec Header HeaderSpec HttpTree HttpTreeSpec CertVerify CertSpec Props_Cert Props_Header
  Props_Hash Props_Wildcard Props_Verify Props_HttpTree AssetRouter RangeSpec Props_Range AssetSpec AssetProofs AssetEffect PreparedProofs Props_Router Props_Backed ServeSpec Props_Serve Props_Accept Props_Trip Props_Skip Shared Props_Shared.
Import ListNotations.
Local Open Scope N_scope.

(** The names of a history: [u] is a url ([f = false]) or a fallback scope or wildcard ([f = true]) of
    a call on the router, or the path of an entry others inserted. *)
Definition event_name (events : list event) (f : bool) (u : bytes) : Prop :=
  (exists c, In (OnRouter c) events /\ In u (call_names f c)) \/
  (exists en, In (OnTree (HInsert en)) events /\ is_wildcard (en_path en) = f /\ path_text (en_path en) = u).
(** An operation of others on the tree is on an entry at a path where the router has nothing. *)
Definition keeps_apart (events : list event) (o : http_op) : Prop :=
  match o with
  | HInsert en | HDelete en =>
      clean_url (path_text (en_path en)) /\
      forall c u, In (OnRouter c) events -> In u (call_names (is_wildcard (en_path en)) c) -> request_parts u <> request_parts (path_text (en_path en))
  | HClear => False
  end.
(** Nothing in the history is at [path] itself, no wildcard in it is more specific for [path] than [scope]. *)
Definition never_overridden (events : list event) (scope path : bytes) : Prop :=
  (forall u, event_name events false u -> request_parts u <> request_parts path) /\
  (forall u, event_name events true u -> ~ (matches (request_parts u) (request_parts path) /\ more_specific (request_parts u) (request_parts scope))).

Lemma shared_somewhere cs H uq glob events st parts t : 0 < cs -> Forall order_ok events -> run_shared cs H uq glob events router_new = Some st ->
  (forall f u, event_name events f u -> clean_url u) ->
  (forall s, In s parts -> s <> bs "<$>" /\ s <> bs "<*>") -> t = bs "<$>" \/ t = bs "<*>" ->
  somewhere st (parts ++ [t]) ->
  exists f u, event_name events f u /\ request_parts u = parts /\ t = (if f then bs "<*>" else bs "<$>").
Proof.
  intros CS O R CL NP T (q & v & G).
  destruct (shared_history cs H uq glob (fun e => exists f u, event_name events f u /\ is_wildcard (en_path e) = f /\ path_text (en_path e) = u) events CS O) as (st' & R' & _ & (ops & RUN & HON) & _).
  { intros c f k x I w. destruct (written_at cs H uq glob c f k x CS (or_introl w)) as [J EP]. exists f, (k_path k). split; [left; exists c; auto|]. rewrite EP. destruct f; auto. }
  { intros en I. exists (is_wildcard (en_path en)), (path_text (en_path en)). split; [right; exists en; auto|auto]. }
  assert (st' = st) by congruence. subst st'.
  destruct (http_run_ok H ops) as (t' & R2 & _ & _ & Q). assert (t' = r_tree st) by congruence. subst t'. apply Q in G.
  destruct (holds_inserted ops _ _ G) as (en & Ien & Een & _). rewrite Forall_forall in HON. specialize (HON _ Ien). cbn in HON. destruct HON as (f & u & N & W & P).
  exists f, u. split; [exact N|]. specialize (CL _ _ N). unfold entry_tree_path in Een. destruct (path_segments (en_path en)) as (t0 & E & T0 & D). rewrite E, <- !app_assoc in Een. cbn [app] in Een.
  assert (OV : overlapping (parts ++ t :: q) (request_parts (path_text (en_path en)) ++ t0 :: cert_tree_path (en_certification en))) by (left; exists []; rewrite app_nil_r; exact (eq_sym Een)).
  apply (cut_at terminator) in OV.
  - destruct OV as (E1 & E2 & _). rewrite P in E1. split; [symmetry; exact E1|]. rewrite E2. destruct (en_path en); cbn in W; subst f; exact D.
  - intros s I [->| ->]; [exact (proj1 (NP _ I) eq_refl)|exact (proj2 (NP _ I) eq_refl)].
  - rewrite P. intros s I [->| ->]; [exact (proj1 CL I)|exact (proj2 CL I)].
  - exact T.
  - exact T0.
Qed.
Lemma shared_most_specific cs H uq glob events st scope path : 0 < cs -> Forall order_ok events -> run_shared cs H uq glob events router_new = Some st ->
  (forall f u, event_name events f u -> clean_url u) -> clean_url path ->
  never_overridden events scope path -> most_specific st scope path.
Proof.
  intros CS O R CL [C1 C2] N. split.
  - intro X. apply (shared_somewhere cs H uq glob events) in X; [|exact CS|exact O|exact R|exact CL| |left; reflexivity].
    + destruct X as (f & u & W & E & T). destruct f; [revert T; apply neq_by_eqb; reflexivity|]. exact (proj1 N u W E).
    + intros s I. split; intros ->; [exact (C1 I)|exact (C2 I)].
  - intros u M S X. apply (shared_somewhere cs H uq glob events) in X; [|exact CS|exact O|exact R|exact CL| |right; reflexivity].
    + destruct X as (f & u' & W & E & T). destruct f; [|revert T; apply neq_by_eqb; reflexivity]. apply (proj2 N u' W). rewrite E. auto.
    + intros s I. destruct (matches_in u _ s M I) as [->|I']; [split; intro Z; discriminate Z|]. split; intros ->; [exact (C1 I')|exact (C2 I')].
Qed.
(** What is stored is certified, if others keep apart and urls differ in more than slashes. *)
Lemma shared_certified cs H uq glob events st f k x : (forall x, length (H x) = 32%nat) -> 0 < cs -> Forall order_ok events ->
  (forall c, In (OnRouter c) events -> plain_call c) ->
  (forall f u, event_name events f u -> clean_url u) ->
  (forall f c u c' u', In (OnRouter c) events -> In u (call_names f c) -> In (OnRouter c') events -> In u' (call_names f c') -> request_parts u = request_parts u' -> u = u') ->
  (forall o, In (OnTree o) events -> keeps_apart events o) ->
  run_shared cs H uq glob events router_new = Some st -> stored st f k x ->
  certifies st (ca_entry x) \/ exists f' k' x', history_written cs H uq glob (router_calls events) f' k' x' /\ response_collision H x x'.
Proof.
  intros HL CS O PL CL DU KA R X. destruct (C95_shared_stored_is_certified cs H uq glob events CS O) as (st' & R' & C). assert (st' = st) by congruence. subst st'.
  destruct (C f k x X) as [(c & I & w) [Y|[(f' & k' & x' & w' & NE & OV)|(o & Io & D)]]]; [left; exact Y|right|exfalso].
  - assert (W : forall f k x, history_written cs H uq glob (router_calls events) f k x -> exists A C, Forall plain_config C /\ written cs H uq glob A C f k x).
    { clear - PL. intros f k x (c & I & w). apply router_call_in in I. specialize (PL c I).
      destruct c as [o a cf|o a cf|]; destruct w as [w|w]; try contradiction; exists a, cf; (split; [exact PL|]); [exact w|left; exact w]. }
    assert (w0 : history_written cs H uq glob (router_calls events) f k x) by (exists c; split; [apply router_call_in; exact I|auto]).
    assert (NM : forall f k x, history_written cs H uq glob (router_calls events) f k x -> exists c, In (OnRouter c) events /\ In (k_path k) (call_names f c)).
    { intros f1 k1 x1 W1. destruct (history_name _ _ _ _ _ _ _ _ CS W1) as (c1 & I1 & J1). exists c1. split; [apply router_call_in; exact I1|exact J1]. }
    destruct (W _ _ _ w0) as (A & C0 & PC & w1). destruct (W _ _ _ w') as (A' & C' & PC' & w1').
    destruct (NM _ _ _ w0) as (c1 & I1 & J1). destruct (NM _ _ _ w') as (c2 & I2 & J2).
    destruct (overlap_same_place cs H uq glob A C0 A' C' f k x f' k' x' HL CS PC PC' w1 w1') as [(<- & P & E & Rg)|Co]; [apply (CL f); left; eauto|apply (CL f'); left; eauto|exact OV| |exists f', k', x'; auto].
    exfalso. apply NE. assert (Q : k_path k = k_path k') by (eapply (DU f c1 _ c2); eassumption). destruct k, k'. cbn in *. congruence.
  - destruct (written_at cs H uq glob c f k x CS (or_introl w)) as [J EP]. specialize (KA o Io).
    assert (A : forall en, clean_url (path_text (en_path en)) -> (forall c u, In (OnRouter c) events -> In u (call_names (is_wildcard (en_path en)) c) -> request_parts u <> request_parts (path_text (en_path en))) ->
      overlapping (entry_tree_path en) (entry_tree_path (ca_entry x)) -> False).
    { intros en Cu Na OV. destruct (ca_entry x) as [p' c'] eqn:EX. destruct en as [p0 c0]. cbn [en_path] in *. apply apart in OV; [|exact Cu|rewrite EP; assert (Cf := CL f (k_path k) (or_introl (ex_intro _ c (conj I J)))); destruct f; exact Cf].
      destruct OV as [W1 W2]. rewrite EP in W1, W2. apply (Na c (k_path k) I); [destruct p0, f; cbn in W1; try discriminate W1; exact J|]. destruct f; exact (eq_sym W2). }
    destruct o as [en|en|]; cbn [keeps_apart disturbs] in KA, D; [| |exact KA].
    + exact (A en (proj1 KA) (proj2 KA) D).
    + exact (A en (proj1 KA) (proj2 KA) (or_introl D)).
Qed.

(** The hypotheses are about names only. *)
Theorem C96_shared_plain_get_is_accepted_partial :
  forall (umod cap_max : N) (checked : bool) (H : bytes -> bytes) ple vs uri_path uri_query gunzip inflate glob (cs : N) sort
         (events : list event) (st : router) (rq : request) (path : bytes) (f : bool) (x : certified)
         (data_certificate : bytes) (c : certificate) canister_id now offset key min_version,
  (forall y, length (H y) = 32%nat) -> 32 < umod <= 2 ^ 64 -> 0 < cs -> min_version <= 2 ->
  (forall e, In e events -> match e with
                            | OnRouter c => any_order c /\ plain_call c /\ plain_urls umod uri_query c
                            | OnTree (HInsert en) => Forall (short umod) (entry_tree_path en)
                            | OnTree _ => True
                            end) ->
  (* no name uses the reserved segments, no two names of the router differ in slashes only, others keep away from them *)
  (forall f u, event_name events f u -> clean_url u) ->
  (forall f c u c' u', In (OnRouter c) events -> In u (call_names f c) -> In (OnRouter c') events -> In u' (call_names f c') -> request_parts u = request_parts u' -> u = u') ->
  (forall o, In (OnTree o) events -> keeps_apart events o) ->
  run_shared cs H uri_query glob events router_new = Some st ->
  plain_get uri_query rq True -> path_of uri_path rq path ->
  get_asset_for_request cs st path (get_preferred_encodings sort rq) None = Some (f, x) ->
  (f = true -> clean_url path /\ (forall r, request_parts path <> bs "http_expr" :: r) /\ never_overridden events (path_text (en_path (ca_entry x))) path) ->
  cert_from_cbor umod cap_max data_certificate = OOk c ->
  verify_certificate umod cap_max checked H ple vs c canister_id key now offset = OOk tt ->
  lookup_path (certified_data_path canister_id) (c_tree c) = Found (router_root_hash H st) ->
  (exists f' k' x', history_written cs H uri_query glob (router_calls events) f' k' x' /\ response_collision H x x') \/
  exists rs i v,
  serve_asset cs H uri_path umod sort st data_certificate rq = OOk rs /\
  rs_status rs = rs_status (ca_response x) /\ rs_body rs = rs_body (ca_response x) /\
  verify umod cap_max checked H ple vs uri_path uri_query gunzip inflate rq rs canister_id now offset key min_version = OOk i /\
  i_version i = 2 /\ i_response i = Some v /\ v_status v = Some (rs_status rs) /\ v_body v = rs_body rs.
Proof.
  intros umod cap_max checked H ple vs up uq gunzip inflate glob cs sort events st rq path f x dc c cid now offset key mv HL U CS MV EV CL DU KA R (M & B & Q & NR) PO E F CB VC LK.
  specialize (NR I).
  assert (O : Forall order_ok events) by (apply Forall_forall; intros [c'|o] Ie; [exact (proj1 (EV _ Ie))|exact I]).
  assert (RE : reachable cs H uq glob st) by (exact (shared_reachable cs H uq glob events O router_new st (new_reachable cs H uq glob) R)).
  destruct (choice_stored _ _ _ _ _ _ _ _ _ _ CS RE E) as (k & S & KP & _ & KR).
  destruct (shared_certified cs H uq glob events st f k x HL CS O) as [CE|CE]; try assumption; [intros c' Ic; exact (proj1 (proj2 (EV _ Ic)))| |left; exact CE]. right.
  apply (C96_shared_served_response_is_accepted_partial umod cap_max checked H ple vs up uq gunzip inflate glob cs sort events st rq path None f x dc c cid now offset key mv); try assumption.
  - apply Forall_forall. intros [c'|o] Ie; [split; [exact (proj1 (EV _ Ie))|exact (proj2 (proj2 (EV _ Ie)))]|exact (EV _ Ie)].
  - destruct f; [|exact NR]. destruct (F eq_refl) as (C & NH & NM). split; [exact (shared_most_specific cs H uq glob events st _ path CS O R CL C NM)|].
    destruct (C95_shared_stored_is_certified cs H uq glob events CS O) as (st' & R' & C95). assert (st' = st) by congruence. subst st'. destruct (C95 true k x S) as [(c' & Ic & w) _].
    rewrite (proj2 (written_at cs H uq glob c' true k x CS (or_introl w))). split; [apply clean_ordinary; exact C|exact NH].
Qed.
Print Assumptions C96_shared_plain_get_is_accepted_partial.
