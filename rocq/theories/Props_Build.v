(** C76 and C77: comparing responses, and what the builders build. *)
From Coq Require Import List Arith NArith Lia Bool Permutation Sorted.
From Verif Require Import Bytes Text Sha256 RiHash RiHashProofs Cbor Utf8 HttpTypes HttpHash HttpSpec Cel CelSpec CelProofs Header Verify VerifySpec HttpTree HttpTreeSpec
  Props_Hash Props_Cel Props_Verify Props_HttpTree Props_Irrelevant HttpBuild.
Import ListNotations.
Local Open Scope N_scope.

(** ** Specification *)
(** The value the last of the calls that sets this field gave it; [d] if none does. *)
Definition last_set {S A} (field : S -> option A) (calls : list S) (d v : A) : Prop :=
  (exists a s b, calls = a ++ s :: b /\ field s = Some v /\ forall s', In s' b -> field s' = None) \/
  ((forall s, In s calls -> field s = None) /\ v = d).
(** which field a call sets *)
Definition method_given s := match s with SetMethod m => Some m | _ => None end.
Definition url_given s := match s with SetUrl u => Some u | _ => None end.
Definition request_headers_given s := match s with SetRequestHeaders hs => Some hs | _ => None end.
Definition request_body_given s := match s with SetRequestBody b => Some b | _ => None end.
Definition version_given s := match s with SetVersion v => Some (Some v) | _ => None end.
Definition status_given s := match s with SetStatus n => Some n | _ => None end.
Definition response_headers_given s := match s with SetResponseHeaders hs => Some hs | _ => None end.
Definition response_body_given s := match s with SetResponseBody b => Some b | _ => None end.
Definition upgrade_given s := match s with SetUpgrade u => Some (Some u) | _ => None end.
Definition cel_headers_given s := match s with SetHeaders l => Some l | _ => None end.
Definition cel_query_given s := match s with SetQuery l => Some l | _ => None end.
Definition cel_response_given s := match s with SetResponse c => Some c | _ => None end.

(** ** C76 *)
Lemma pairs_eqb_spec a : forall b, pairs_eqb a b = true <-> a = b.
Proof.
  induction a as [|[n v] a IH]; intros [|[m w] b]; cbn [pairs_eqb fst snd]; split; try congruence; try discriminate.
  - intro E. apply andb_true_iff in E. destruct E as [E E3]. apply andb_true_iff in E. destruct E as [E1 E2].
    apply bytes_eqb_eq in E1, E2. apply IH in E3. congruence.
  - intro E. injection E as <- <- <-. rewrite !bytes_eqb_refl. apply IH. reflexivity.
Qed.
Lemma upgrade_eqb_spec a b : upgrade_eqb a b = true <-> a = b.
Proof. destruct a as [[|]|], b as [[|]|]; cbn; split; congruence. Qed.
Lemma version_eqb_spec a b : version_eqb a b = true <-> a = b.
Proof. destruct a, b; cbn; try (split; congruence). rewrite N.eqb_eq. split; congruence. Qed.
Lemma sort_perm_eq a b : sort_pairs a = sort_pairs b <-> Permutation a b.
Proof.
  split; intro E.
  - rewrite (sort_perm a), (sort_perm b), E. reflexivity.
  - apply sort_unique; try apply sort_sorted. rewrite <- sort_perm, <- sort_perm. exact E.
Qed.

(** Responses are equal iff status, body and upgrade flag are, and they have the same header fields as
    often, in any order. *)
Theorem C76_equal_iff_same_fields_in_any_order : forall a b : http_response,
  response_eqb a b = true <->
  hs_status a = hs_status b /\ Permutation (hs_headers a) (hs_headers b) /\ hs_body a = hs_body b /\ hs_upgrade a = hs_upgrade b.
Proof.
  intros a b. unfold response_eqb. rewrite !andb_true_iff, N.eqb_eq, pairs_eqb_spec, bytes_eqb_eq, upgrade_eqb_spec, sort_perm_eq. tauto.
Qed.
Print Assumptions C76_equal_iff_same_fields_in_any_order.

(** Equality is an equivalence. *)
Theorem C76_equality_is_an_equivalence :
  (forall a, response_eqb a a = true) /\ (forall a b, response_eqb a b = response_eqb b a) /\
  (forall a b c, response_eqb a b = true -> response_eqb b c = true -> response_eqb a c = true).
Proof.
  split; [|split].
  - intro a. apply C76_equal_iff_same_fields_in_any_order. auto.
  - intros a b. apply eq_true_iff_eq. rewrite !C76_equal_iff_same_fields_in_any_order.
    split; intros (? & ? & ? & ?); repeat split; try congruence; symmetry; assumption.
  - intros a b c. rewrite !C76_equal_iff_same_fields_in_any_order. intros (? & P & ? & ?) (? & Q & ? & ?).
    repeat split; try congruence. rewrite P. exact Q.
Qed.
Print Assumptions C76_equality_is_an_equivalence.

Lemma filter_perm rc hs hs' : Permutation hs hs' -> Permutation (fst (filter_loop rc hs None)) (fst (filter_loop rc hs' None)).
Proof.
  intro P. destruct (filter_loop_spec rc hs None) as [A _]. destruct (filter_loop_spec rc hs' None) as [B _].
  exact (picks_perm _ _ _ P _ _ A B).
Qed.
Lemma response_hash_perm H rc st hs hs' body bh : Permutation hs hs' ->
  response_hash H (mk_response st hs body) rc bh = response_hash H (mk_response st hs' body) rc bh.
Proof.
  intro P. unfold response_hash, response_headers_hash, filter_response_headers. cbn [rs_status rs_headers rs_body].
  rewrite (C25_ri_hash_ignores_order H _ (status_entries st (fst (filter_loop rc hs' None)))); [reflexivity|].
  unfold status_entries. apply Permutation_app_tail, Permutation_map, filter_perm. exact P.
Qed.
Lemma validate_perm hs hs' e : Permutation hs hs' -> validate_headers hs e false = validate_headers hs' e false.
Proof.
  assert (G : forall l f, validate_headers l e f = true <->
    (Forall (fun h => bytes_eqb (lower (fst h)) (lower cert_expr_header_name) = true -> snd h = e) l /\
     (length (filter (fun h => bytes_eqb (lower (fst h)) (lower cert_expr_header_name)) l) + (if f then 1 else 0) = 1)%nat)).
  { induction l as [|[n v] l IH]; intro f; cbn [validate_headers filter fst].
    - destruct f; cbn; split; try congruence; [intro; split; [constructor|reflexivity]|intros [_ Z]; discriminate Z].
    - destruct (bytes_eqb (lower n) (lower cert_expr_header_name)) eqn:E.
      + destruct (bytes_eqb v e) eqn:V.
        * apply bytes_eqb_eq in V. subst v. cbn [length]. destruct f.
          -- split; [congruence|]. intros [_ Z]. lia.
          -- rewrite IH. split; intros [F L]; (split; [|lia]); [constructor; [auto|exact F]|inversion F; assumption].
        * split; [congruence|]. intros [F _]. inversion F as [|x y Q]; subst. cbn [fst snd] in Q. rewrite (Q E), bytes_eqb_refl in V. discriminate V.
      + rewrite IH. split; intros [F L]; (split; [|exact L]); [constructor; [cbn [fst]; rewrite E; discriminate|exact F]|inversion F; assumption]. }
  intro P. apply eq_true_iff_eq. rewrite !G. 
  assert (PL : length (filter (fun h => bytes_eqb (lower (fst h)) (lower cert_expr_header_name)) hs) = length (filter (fun h => bytes_eqb (lower (fst h)) (lower cert_expr_header_name)) hs')).
  { apply Permutation_length. clear -P. induction P as [|x l l' P IH|x y l|l1 l2 l3 P1 IH1 P2 IH2]; cbn [filter]; [reflexivity| | |etransitivity; eassumption].
    - destruct (bytes_eqb _ _); [constructor|]; exact IH.
    - destruct (bytes_eqb (lower (fst y)) _), (bytes_eqb (lower (fst x)) _); try reflexivity. constructor. }
  rewrite PL. split; intros [F L]; (split; [|exact L]); rewrite Forall_forall in F |- *; intros x I; apply F; eapply Permutation_in; try eassumption. symmetry; exact P.
Qed.

(** Equal responses have the same hash, and the same certification can be created from them. *)
Theorem C76_equal_responses_are_certified_alike :
  forall (H : bytes -> bytes) uri_query (a b : http_response) qc rc rq body_hash,
  response_eqb a b = true ->
  response_hash H (response_of a) rc body_hash = response_hash H (response_of b) rc body_hash /\
  certify_response_only H rc (response_of a) body_hash = certify_response_only H rc (response_of b) body_hash /\
  certify_full H uri_query qc rc rq (response_of a) body_hash = certify_full H uri_query qc rc rq (response_of b) body_hash.
Proof.
  intros H uq a b qc rc rq bh E. apply C76_equal_iff_same_fields_in_any_order in E. destruct a as [s hs bd u], b as [s' hs' bd' u'].
  cbn [hs_status hs_headers hs_body hs_upgrade] in E. destruct E as (<- & P & <- & <-). unfold response_of. cbn [hs_status hs_headers hs_body].
  assert (V : forall e, validate_response (mk_response s hs bd) e = validate_response (mk_response s hs' bd) e) by (intro; apply validate_perm; exact P).
  unfold certify_response_only, certify_full. rewrite !V. rewrite (response_hash_perm H rc s hs hs' bd bh P). repeat split.
Qed.
Print Assumptions C76_equal_responses_are_certified_alike.

(** and get the same verdict, unless they have two different values for a header the verifier reads *)
Theorem C76_equal_responses_get_the_same_verdict_partial :
  forall (umod cap : N) (checked : bool) (H : bytes -> bytes) (ple : bytes -> bytes -> bool) (vs : bytes -> bytes -> bytes -> bool)
    (uri_path : bytes -> option bytes) (uri_query : bytes -> option (option bytes)) (gunzip inflate : bytes -> option bytes)
    (rq : request) (a b : http_response) (canister : bytes) (now offset : N) (key : bytes) (min_version : N),
  response_eqb a b = true -> Forall (fun x => unambiguous x (hs_headers a)) read_headers ->
  same_verdict
    (verify umod cap checked H ple vs uri_path uri_query gunzip inflate rq (response_of a) canister now offset key min_version)
    (verify umod cap checked H ple vs uri_path uri_query gunzip inflate rq (response_of b) canister now offset key min_version).
Proof.
  intros until min_version. intros E U. apply C76_equal_iff_same_fields_in_any_order in E. destruct a as [s hs bd u], b as [s' hs' bd' u'].
  cbn [hs_status hs_headers hs_body hs_upgrade] in E. destruct E as (<- & P & <- & <-). unfold response_of. cbn [hs_status hs_headers hs_body] in *.
  apply C72_header_order_is_irrelevant; assumption.
Qed.
Print Assumptions C76_equal_responses_get_the_same_verdict_partial.

(** With two certificate headers the verdict depends on their order, although the responses are equal: for
    every response that is accepted there are two equal ones, one accepted and one rejected. *)
Theorem C76_equal_responses_get_the_same_verdict_refuted :
  forall (umod cap : N) (checked : bool) (H : bytes -> bytes) (ple : bytes -> bytes -> bool) (vs : bytes -> bytes -> bytes -> bool)
    (uri_path : bytes -> option bytes) (uri_query : bytes -> option (option bytes)) (gunzip inflate : bytes -> option bytes)
    (rq : request) (r : http_response) (canister : bytes) (now offset : N) (key : bytes) (min_version : N) (i : info),
  verify umod cap checked H ple vs uri_path uri_query gunzip inflate rq (response_of r) canister now offset key min_version = OOk i ->
  exists a b i', response_eqb a b = true /\
  verify umod cap checked H ple vs uri_path uri_query gunzip inflate rq (response_of a) canister now offset key min_version = OOk i' /\
  verify umod cap checked H ple vs uri_path uri_query gunzip inflate rq (response_of b) canister now offset key min_version = OErr.
Proof.
  intros until i. intro V. destruct r as [st hs bd u]. unfold response_of in V. cbn [hs_status hs_headers hs_body] in V.
  set (x := (bs "IC-Certificate", bs "x")).
  exists (mk_http_response st (x :: hs) bd u), (mk_http_response st (hs ++ [x]) bd u). unfold response_of. cbn [hs_status hs_headers hs_body].
  assert (S : same_verdict (OOk i) (verify umod cap checked H ple vs uri_path uri_query gunzip inflate rq (mk_response st (x :: hs) bd) canister now offset key min_version)).
  { rewrite <- V. apply C72_only_covered_data_matters; try reflexivity; [|apply same_request_refl|intros; apply same_request_refl].
    assert (C : exists v, last_header (bs "IC-Certificate") hs v).
    { unfold verify in V. cbn [rs_headers] in V. assert (X := header_get_spec (bs "IC-Certificate") hs).
      change certificate_header_name with (bs "IC-Certificate") in V.
      destruct (header_get (lower (bs "IC-Certificate")) hs) as [v|]; [exists v; exact X|discriminate V]. }
    split; cbn [rs_headers].
    - intros name v I. assert (D : same_name (bs "IC-Certificate") name \/ ~ same_name (bs "IC-Certificate") name).
      { destruct (eq_nocase (bs "IC-Certificate") name) eqn:E; [left; apply eq_nocase_spec; exact E|right; apply eq_nocase_false; exact E]. }
      destruct D as [D|D]; [|exact (last_header_insert name [] (bs "IC-Certificate") (bs "x") hs v D)].
      assert (name = bs "IC-Certificate") as ->.
      { destruct I as [<-|[<-|[<-|[]]]]; [reflexivity| |]; apply same_name_lower in D; vm_compute in D; discriminate D. }
      destruct C as (w & a & m & b & -> & Sm & N). split.
      + intros (a' & m' & b' & E & S' & N'). exists (x :: a'), m', b'. split; [cbn; rewrite <- E; reflexivity|auto].
      + intros (a' & m' & b' & E & S' & N'). destruct a' as [|z a'].
        * cbn in E. injection E as E1 E2 E3. exfalso. apply (proj1 (Forall_forall _ _) N' (m, w)); [rewrite <- E3; apply in_or_app; right; left; reflexivity|exact Sm].
        * cbn in E. injection E as _ E. exists a', m', b'. auto.
    - intros text c rc L E1 E2 o o' P P'. rewrite (picks_insert (covered rc) [] (bs "IC-Certificate") (bs "x") hs) with (o := o) (o' := o'); auto.
      intros [Z _]. apply Z. apply same_name_refl. }
  destruct (verify umod cap checked H ple vs uri_path uri_query gunzip inflate rq (mk_response st (x :: hs) bd) canister now offset key min_version) as [i'| | |]; try destruct S.
  exists i'. split; [|split; [reflexivity|]].
  - apply C76_equal_iff_same_fields_in_any_order. cbn [hs_status hs_headers hs_body hs_upgrade]. repeat split. change (x :: hs) with ([x] ++ hs). apply Permutation_app_comm.
  - unfold verify. cbn [rs_headers]. change certificate_header_name with (bs "IC-Certificate").
    assert (E : header_get (lower (bs "IC-Certificate")) (hs ++ [x]) = Some (bs "x")).
    { assert (X := header_get_spec (bs "IC-Certificate") (hs ++ [x])). destruct (header_get (lower (bs "IC-Certificate")) (hs ++ [x])) as [v|].
      - destruct X as (a & m & b & E & Sm & N). destruct b as [|z b] using rev_ind.
        + apply app_inj_tail in E. destruct E as [_ E]. unfold x in E. injection E as _ <-. reflexivity.
        + exfalso. rewrite app_comm_cons, app_assoc in E. apply app_inj_tail in E. destruct E as [_ <-].
          apply (proj1 (Forall_forall _ _) N x); [apply in_or_app; right; left; reflexivity|apply same_name_refl].
      - exfalso. unfold no_header in X. rewrite Forall_forall in X. apply (X x); [apply in_or_app; right; left; reflexivity|apply same_name_refl]. }
    rewrite E. assert (F : header_from umod cap (bs "x") = OErr) by reflexivity. rewrite F. reflexivity.
Qed.
Print Assumptions C76_equal_responses_get_the_same_verdict_refuted.

(** Requests and update responses are equal iff all fields are, the headers in the same order. *)
Theorem C76_others_compare_in_order :
  (forall a b : http_request, request_eqb a b = true <-> a = b) /\ (forall a b : http_update_response, update_response_eqb a b = true <-> a = b).
Proof.
  split.
  - intros a b. unfold request_eqb. rewrite !andb_true_iff, !bytes_eqb_eq, pairs_eqb_spec, version_eqb_spec.
    destruct a, b; cbn. split; [intros ((((-> & ->) & ->) & ->) & ->); reflexivity|intro E; injection E as <- <- <- <- <-; auto].
  - intros a b. unfold update_response_eqb. rewrite !andb_true_iff, N.eqb_eq, bytes_eqb_eq, pairs_eqb_spec.
    destruct a, b; cbn. split; [intros ((-> & ->) & ->); reflexivity|intro E; injection E as <- <- <-; auto].
Qed.
Print Assumptions C76_others_compare_in_order.

(** ** C77 *)
Lemma fold_last {B S A} (set : B -> S -> B) (p : B -> A) (field : S -> option A) calls :
  (forall b s, p (set b s) = match field s with Some v => v | None => p b end) ->
  forall b, last_set field calls (p b) (p (fold_left set calls b)).
Proof.
  intro X. induction calls as [|s calls IH] using rev_ind; intro b; [right; split; [intros s []|reflexivity]|].
  rewrite fold_left_app. cbn [fold_left]. rewrite X. destruct (field s) as [v|] eqn:E.
  - left. exists calls, s, []. split; [reflexivity|]. split; [exact E|intros s' []].
  - destruct (IH b) as [(a & s' & c & Q & F & N)|[N Q]].
    + left. exists a, s', (c ++ [s]). split; [rewrite Q, <- app_assoc; reflexivity|]. split; [exact F|].
      intros z I. apply in_app_or in I. destruct I as [I|[<-|[]]]; [auto|exact E].
    + right. split; [|exact Q]. intros z I. apply in_app_or in I. destruct I as [I|[<-|[]]]; [auto|exact E].
Qed.

(** Every sequence of calls: each field is what the last call for it gave, or its default. *)
Theorem C77_request_builder : forall calls,
  let b := fold_left request_set calls request_builder_new in
  let r := request_build b in
  last_set method_given calls (bs "GET") (hq_method r) /\ last_set url_given calls (bs "/") (hq_url r) /\
  last_set request_headers_given calls [] (hq_headers r) /\ last_set request_body_given calls [] (hq_body r) /\
  last_set version_given calls None (hq_version r) /\
  request_build_update b = request_to_update r.
Proof.
  intros calls b r. unfold r, b. repeat split.
  - apply (fold_last request_set (fun b => hq_method (request_build b))). intros ? []; reflexivity.
  - apply (fold_last request_set (fun b => hq_url (request_build b))). intros ? []; reflexivity.
  - apply (fold_last request_set (fun b => hq_headers (request_build b))). intros ? []; reflexivity.
  - apply (fold_last request_set (fun b => hq_body (request_build b))). intros ? []; reflexivity.
  - apply (fold_last request_set (fun b => hq_version (request_build b))). intros ? []; reflexivity.
Qed.
Print Assumptions C77_request_builder.

(** [HttpRequest::get(url)] and the like start with that method and url. *)
Theorem C77_request_verbs : forall v url calls,
  fold_left request_set calls (request_for v url) =
  fold_left request_set (SetMethod (match v with VGet => bs "GET" | VPost => bs "POST" | VPut => bs "PUT" | VPatch => bs "PATCH" | VDelete => bs "DELETE" end)
    :: SetUrl url :: calls) request_builder_new.
Proof. intros [] url calls; reflexivity. Qed.
Print Assumptions C77_request_verbs.

Theorem C77_response_builder : forall calls,
  let b := fold_left response_set calls response_builder_new in
  let r := response_build b in
  last_set status_given calls 200 (hs_status r) /\ last_set response_headers_given calls [] (hs_headers r) /\
  last_set response_body_given calls [] (hs_body r) /\ last_set upgrade_given calls None (hs_upgrade r) /\
  response_build_update b = response_to_update r.
Proof.
  intros calls b r. unfold r, b. repeat split.
  - apply (fold_last response_set (fun b => hs_status (response_build b))). intros ? []; reflexivity.
  - apply (fold_last response_set (fun b => hs_headers (response_build b))). intros ? []; reflexivity.
  - apply (fold_last response_set (fun b => hs_body (response_build b))). intros ? []; reflexivity.
  - apply (fold_last response_set (fun b => hs_upgrade (response_build b))). intros ? []; reflexivity.
Qed.
Print Assumptions C77_response_builder.

(** A builder made from a response builds that response again; calls on it replace just the fields they set. *)
Theorem C77_response_builder_from_response : forall r calls,
  let r' := response_build (fold_left response_set calls (response_to_builder r)) in
  last_set status_given calls (hs_status r) (hs_status r') /\ last_set response_headers_given calls (hs_headers r) (hs_headers r') /\
  last_set response_body_given calls (hs_body r) (hs_body r') /\ last_set upgrade_given calls (hs_upgrade r) (hs_upgrade r').
Proof.
  intros [s hs bd u] calls r'. unfold r'. repeat split.
  - apply (fold_last response_set (fun b => hs_status (response_build b)) status_given calls) with (b := response_to_builder (mk_http_response s hs bd u)). intros ? []; reflexivity.
  - apply (fold_last response_set (fun b => hs_headers (response_build b)) response_headers_given calls) with (b := response_to_builder (mk_http_response s hs bd u)). intros ? []; reflexivity.
  - apply (fold_last response_set (fun b => hs_body (response_build b)) response_body_given calls) with (b := response_to_builder (mk_http_response s hs bd u)). intros ? []; reflexivity.
  - apply (fold_last response_set (fun b => hs_upgrade (response_build b)) upgrade_given calls) with (b := response_to_builder (mk_http_response s hs bd u)). intros ? []; reflexivity.
Qed.
Print Assumptions C77_response_builder_from_response.

(** The update forms have the same fields; only the certificate version and the upgrade flag are left out.  A
    header is added at the end, before or after the conversion. *)
Theorem C77_update_conversions : forall (q : http_request) (r : http_response) (h : bytes * bytes),
  request_to_update q = mk_http_update_request (hq_method q) (hq_url q) (hq_headers q) (hq_body q) /\
  response_to_update r = mk_http_update_response (hs_status r) (hs_headers r) (hs_body r) /\
  response_to_update (http_add_header r h) = update_add_header (response_to_update r) h /\
  hs_headers (http_add_header r h) = hs_headers r ++ [h] /\
  hs_status (http_add_header r h) = hs_status r /\ hs_body (http_add_header r h) = hs_body r /\ hs_upgrade (http_add_header r h) = hs_upgrade r.
Proof. intros q r h. repeat split. Qed.
Print Assumptions C77_update_conversions.

(** The expression builders. *)
Theorem C77_cel_builders :
  (forall calls, exists c, response_only_build calls = CelResponseOnly c /\ last_set Some calls (CertifiedHeaders []) c) /\
  (forall calls, exists hs qs c, full_build (fold_left full_set calls full_builder_new) = CelFull (mk_request_cert hs qs) c /\
     last_set cel_headers_given calls [] hs /\ last_set cel_query_given calls [] qs /\ last_set cel_response_given calls (CertifiedHeaders []) c).
Proof.
  split; intro calls.
  - eexists. split; [reflexivity|]. apply (fold_last (fun _ c => c) (fun c => c) Some calls). reflexivity.
  - do 3 eexists. split; [reflexivity|]. split; [|split].
    + apply (fold_last full_set fu_headers cel_headers_given calls). intros ? []; reflexivity.
    + apply (fold_last full_set fu_query cel_query_given calls). intros ? []; reflexivity.
    + apply (fold_last full_set fu_response cel_response_given calls). intros ? []; reflexivity.
Qed.
Print Assumptions C77_cel_builders.

(** ** Cases *)
Example C76_ex :
  response_eqb (mk_http_response 200 [(bs "a", bs "1"); (bs "b", bs "2"); (bs "a", bs "1")] (bs "x") None)
               (mk_http_response 200 [(bs "a", bs "1"); (bs "a", bs "1"); (bs "b", bs "2")] (bs "x") None) = true /\
  response_eqb (mk_http_response 200 [(bs "a", bs "1"); (bs "b", bs "2"); (bs "a", bs "1")] (bs "x") None)
               (mk_http_response 200 [(bs "a", bs "1"); (bs "b", bs "2"); (bs "b", bs "2")] (bs "x") None) = false /\
  (* names are compared as written *)
  response_eqb (mk_http_response 200 [(bs "A", bs "1")] [] None) (mk_http_response 200 [(bs "a", bs "1")] [] None) = false /\
  Forall (fun x => unambiguous x [(bs "a", bs "1"); (bs "IC-Certificate", bs "2")]) read_headers.
Proof.
  split; [reflexivity|]. split; [reflexivity|]. split; [reflexivity|].
  repeat (apply Forall_cons; [intros n v n' v' [E|[E|[]]] [E'|[E'|[]]]; injection E as <- <-; injection E' as <- <-; intros S S'; try reflexivity;
    exfalso; (apply same_name_lower in S; vm_compute in S; discriminate S) || (apply same_name_lower in S'; vm_compute in S'; discriminate S')|]). constructor.
Qed.
Example C77_ex :
  request_build (fold_left request_set [SetMethod (bs "PUT"); SetUrl (bs "/a"); SetRequestBody (bs "x"); SetMethod (bs "POST")] request_builder_new) =
  mk_http_request (bs "POST") (bs "/a") [] (bs "x") None.
Proof. reflexivity. Qed.
