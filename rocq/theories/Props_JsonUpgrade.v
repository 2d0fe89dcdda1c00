(** C161: the json-api example asks for an update call exactly where one can act. *)
From Coq Require Import List Arith NArith Lia Bool.
From Verif Require Import Bytes Text Cbor HttpTypes HttpHash HttpSpec Cel V2 Verify VerifySpec RangeSpec AssetRouter Props_Hash Props_Verify Props_Range AssetProofs JsonApi JsonSpec Props_Json.
Import ListNotations.
Local Open Scope N_scope.

(** POST /todos, PATCH /todos/<segment>, DELETE /todos/<segment>; methods in any case. *)
Definition for_update (uri_path : bytes -> option bytes) (rq : request) : Prop :=
  same_name (rq_method rq) (bs "POST") /\ path_of uri_path rq (bs "/todos") \/
  (same_name (rq_method rq) (bs "PATCH") \/ same_name (rq_method rq) (bs "DELETE")) /\
  exists s, path_of uri_path rq (bs "/todos/" ++ s) /\ s <> [] /\ ~ In "/"%byte s.

Definition upper_iff := Props_Json.upper_same (fun b => b) (fun _ => None) (fun _ => None).
Lemma upgrade_route m path : (exists p, route query_routes m path = Some (RouteUpgrade, p)) <->
  same_name m (bs "POST") /\ path = bs "/todos" \/
  (same_name m (bs "PATCH") \/ same_name m (bs "DELETE")) /\ exists s, path = bs "/todos/" ++ s /\ s <> [] /\ ~ In "/"%byte s.
Proof.
  split.
  - intros (p & R). apply route_inv in R. destruct R as (pat & I & M). unfold query_routes in I. apply in_app_or in I.
    destruct I as [I|I]; [|apply in_map_iff in I; destruct I as (x & Z & _); discriminate Z].
    destruct I as [Z|[Z|[Z|[]]]]; injection Z as Z1 Z2; apply eq_sym in Z1; subst pat.
    + left. cbn [pattern_match] in M. destruct (bytes_eqb (bs "/todos") path) eqn:EP; [|discriminate M]. apply bytes_eqb_eq in EP. split; [apply (proj1 (upper_iff m _)); rewrite Z1; reflexivity|congruence].
    + right. apply segment_spec in M. split; [left; apply (proj1 (upper_iff m _)); rewrite Z1; reflexivity|]. exists p. exact M.
    + right. apply segment_spec in M. split; [right; apply (proj1 (upper_iff m _)); rewrite Z1; reflexivity|]. exists p. exact M.
  - intros [[S ->]|([S|S] & s & X)]; apply upper_iff in S.
    + exists []. unfold route. rewrite S. reflexivity.
    + apply segment_spec in X. exists s. unfold route. rewrite S. match goal with |- match ?x with _ => _ end = _ => let y := eval vm_compute in x in change x with y end. cbv iota.
      match goal with |- option_map _ (pattern_match ?p _) = _ => change p with (OneSegment (bs "/todos/")) end. rewrite X. reflexivity.
    + apply segment_spec in X. exists s. unfold route. rewrite S. match goal with |- match ?x with _ => _ end = _ => let y := eval vm_compute in x in change x with y end. cbv iota.
      match goal with |- option_map _ (pattern_match ?p _) = _ => change p with (OneSegment (bs "/todos/")) end. rewrite X. reflexivity.
Qed.
Lemma path_of_fun up rq p q : path_of up rq p -> path_of up rq q -> p = q.
Proof. intros P Q. apply C63_request_path_exact in P, Q. congruence. Qed.

(** The answer to a query either asks for an update call, with an empty response and nothing else, for these
    requests only and in every state; or leaves the upgrade flag unset. *)
Theorem C161_asks_for_an_update_call_iff :
  forall (H : bytes -> bytes) uri_path st data_certificate rq rs u,
  http_request H uri_path st data_certificate rq = Some (rs, Some u) <->
  u = true /\ rs = mk_response 200 [] [] /\ for_update uri_path rq.
Proof.
  intros H up st dc rq rs u. unfold http_request, for_update. destruct (get_path up rq) as [path| | |] eqn:G.
  2-4: cbn [trap_of]; split; [discriminate|]; intros (_ & _ & [[_ P]|(_ & s & P & _)]); apply C63_request_path_exact in P; congruence.
  cbn [trap_of]. assert (GP := G). apply C63_request_path_exact in GP. split.
  - intro E. destruct (route query_routes (rq_method rq) path) as [[[|] p]|] eqn:R; try discriminate.
    + injection E as <- <-. split; [reflexivity|]. split; [reflexivity|]. destruct (proj1 (upgrade_route (rq_method rq) path) (ex_intro _ p R)) as [[S ->]|(S & s & -> & X)]; [left|right]; eauto.
    + destruct (query_handler H up st dc rq); discriminate E.
  - intros (-> & -> & F). assert (X : exists p, route query_routes (rq_method rq) path = Some (RouteUpgrade, p)).
    { apply upgrade_route. destruct F as [[S P]|(S & s & P & X)]; apply (path_of_fun _ _ _ _ GP) in P; subst path; [left|right]; eauto. }
    destruct X as (p & R). rewrite R. reflexivity.
Qed.
Print Assumptions C161_asks_for_an_update_call_iff.

(** Whatever asks for a change of the list is sent on to an update call, never answered by a query. *)
Theorem C161_changes_are_sent_to_update_calls :
  forall (H : bytes -> bytes) uri_path parse_create parse_update st data_certificate rq w,
  asks uri_path parse_create parse_update rq w ->
  http_request H uri_path st data_certificate rq = Some (mk_response 200 [] [], Some true).
Proof.
  intros H up pc pu st dc rq w A. apply C161_asks_for_an_update_call_iff. split; [reflexivity|]. split; [reflexivity|].
  destruct w as [t|id t c|id]; cbn [asks] in A.
  - left. tauto.
  - destruct A as (S & (s & P & N & _) & _). right. split; [auto|]. exists s. split; [exact P|]. exact (number_segment _ _ N).
  - destruct A as (S & s & P & N & _). right. split; [auto|]. exists s. split; [exact P|]. exact (number_segment _ _ N).
Qed.
Print Assumptions C161_changes_are_sent_to_update_calls.

(** The update call of a request sent on does what the request asks for, or traps. *)
Theorem C161_sent_on_acts_or_traps :
  forall (H : bytes -> bytes) uri_path uri_query parse_create parse_update (checked_canister : bool) order st st0 data_certificate rq rs st' rs',
  http_request H uri_path st0 data_certificate rq = Some (rs, Some true) ->
  http_request_update H uri_path uri_query parse_create parse_update checked_canister order st rq = Some (st', rs') ->
  exists w, asks uri_path parse_create parse_update rq w.
Proof.
  intros H up uq pc pu ck order st st0 dc rq rs st' rs' Q E. apply C161_asks_for_an_update_call_iff in Q. destruct Q as (_ & _ & F).
  unfold http_request_update in E. destruct (get_path up rq) as [path| | |] eqn:G; try discriminate. cbn [trap_of] in E. assert (GP := G). apply C63_request_path_exact in GP.
  destruct (route update_routes (rq_method rq) path) as [[[| | |] p]|] eqn:R; try discriminate.
  - unfold create_handler in E. destruct (pc (rq_body rq)) as [t|] eqn:PC; [|discriminate]. exists (Create t).
    assert (X : p = []). { assert (R' := R). apply route_inv in R'. destruct R' as (pat & I & M). unfold update_routes in I. apply in_app_or in I. destruct I as [I|I]; [|apply in_map_iff in I; destruct I as (x & Z & _); discriminate Z].
      destruct I as [Z|[Z|[Z|[]]]]; try discriminate Z. injection Z as _ Z. subst pat. cbn [pattern_match] in M. destruct (bytes_eqb todos_path path); [|discriminate M]. injection M as <-. reflexivity. }
    subst p. apply (asks_create H up pc pu rq path t GP). auto.
  - unfold update_handler in E. destruct (pu (rq_body rq)) as [[t c]|] eqn:PU; [|discriminate]. destruct (parse_usize (2 ^ 32) p) as [id|] eqn:PI; [|discriminate].
    exists (Change id t c). cbn [asks]. assert (X : exists p, route update_routes (rq_method rq) path = Some (RouteUpdate, p) /\ parse_usize (2 ^ 32) p = Some id) by eauto.
    apply (asks_item H up pc pu (bs "PATCH") RouteUpdate rq path id (or_introl (conj eq_refl eq_refl)) GP) in X. tauto.
  - unfold delete_handler in E. destruct (parse_usize (2 ^ 32) p) as [id|] eqn:PI; [|discriminate].
    exists (Remove id). cbn [asks]. assert (X : exists p, route update_routes (rq_method rq) path = Some (RouteDelete, p) /\ parse_usize (2 ^ 32) p = Some id) by eauto.
    apply (asks_item H up pc pu (bs "DELETE") RouteDelete rq path id (or_intror (conj eq_refl eq_refl)) GP) in X. exact X.
  - exfalso. apply route_inv in R. destruct R as (pat & I & M). unfold update_routes in I. apply in_app_or in I. destruct I as [I|I]; [destruct I as [Z|[Z|[Z|[]]]]; discriminate Z|].
    apply in_map_iff in I. destruct I as (x & Z & I). injection Z as Z _. assert (S : In (upper (rq_method rq)) query_methods) by (rewrite <- Z; exact I).
    destruct F as [[Y _]|[[Y|Y] _]]; apply upper_iff in Y; rewrite Y in S; repeat (destruct S as [S|S]; [vm_compute in S; discriminate S|]); destruct S.
Qed.
Print Assumptions C161_sent_on_acts_or_traps.

(** Not everything sent on can act: DELETE /todos/x is, and traps. *)
Example C161_example : forall H st dc,
  http_request H (fun u => Some u) st dc (mk_request (bs "patch") (bs "/todos/7") [] []) = Some (mk_response 200 [] [], Some true) /\
  http_request H (fun u => Some u) st dc (mk_request (bs "POST") (bs "/todos/7") [] []) = None /\
  http_request H (fun u => Some u) st dc (mk_request (bs "DELETE") (bs "/todos/x") [] []) = Some (mk_response 200 [] [], Some true) /\
  ~ exists w, asks (fun u => Some u) (fun _ => None) (fun _ => None) (mk_request (bs "DELETE") (bs "/todos/x") [] []) w.
Proof.
  intros H st dc. split; [reflexivity|]. split; [reflexivity|]. split; [reflexivity|].
  intros ([t|id t c|id] & A); cbn [asks] in A; destruct A as (S & A); try (exfalso; apply upper_iff in S; vm_compute in S; discriminate S).
  destruct A as (s & P & N & _). assert (Q : path_of (fun u => Some u) (mk_request (bs "DELETE") (bs "/todos/x") [] []) (bs "/todos/" ++ bs "x")).
  { apply C63_request_path_exact. vm_compute. reflexivity. }
  assert (Z := path_of_fun _ _ _ _ P Q). apply app_inv_head in Z. subst s. destruct (number_chars _ _ N) as [_ F]. apply Forall_inv in F.
  destruct F as [F|[_ F]]; [discriminate F|]. vm_compute in F. congruence.
Qed.
