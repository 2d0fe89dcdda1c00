(** C70: the verifier accepts nothing for a canister's router but responses the router certified. *)
From Coq Require Import List Arith NArith Lia Bool Permutation.
From Verif Require Import Bytes Sha256 Utf8 Utf8Split Text HashTree HashTreeSpec RbTree Nested NestedSpec NestedProofs Cbor CborSpec HttpTypes HttpHash HttpSpec Cel CelSpec V2 Wildcard WildcardSpec Verify VerifySpec Header HeaderSpec HttpTree HttpTreeSpec CertVerify CertSpec Props_Cert Props_Header
  Props_Hash Props_Wildcard Props_Verify Props_HttpTree AssetRouter RangeSpec Props_Range AssetSpec AssetProofs AssetEffect PreparedProofs Props_Router Props_Backed ServeSpec Props_Serve Props_Accept.
Import ListNotations.
Local Open Scope N_scope.

(** The certification a call's response was made for. *)
Definition router_made (umod : N) cs H uq glob (calls : list call) (en : entry) (ce : cel) (rq0 : request) (rs0 : response) : Prop :=
  exists f k x url names, (exists c, In c calls /\ call_puts cs H uq glob c f k x) /\ ca_entry x = en /\ en_path en = (if f then PWildcard (k_path k) else PExact (k_path k)) /\
    ce = get_expression names /\ rq0 = mk_request (bs "GET") url [] [] /\ rs0 = ca_response x /\ uq url = Some None /\ (k_range k <> None -> names = [bs "range"]) /\ In names [[]; [bs "range"]].
Lemma put_made umod cs H uq glob calls f k x : 0 < cs -> Forall plain_call calls -> Forall (plain_urls umod uq) calls ->
  (exists c, In c calls /\ call_puts cs H uq glob c f k x) ->
  exists ce rq0 rs0, router_made umod cs H uq glob calls (ca_entry x) ce rq0 rs0 /\ made H uq ce rq0 rs0 (en_certification (ca_entry x)) /\
    Forall token (cel_names ce) /\ no_pseudo (rq_headers rq0) /\ no_pseudo (rs_headers rs0).
Proof.
  intros CS PC PU (c & I & w). rewrite Forall_forall in PC, PU.
  destruct (plain_put umod cs H uq glob c f k x CS (PU c I) w) as (p & url & status & body & hs & ct & enc & rg & names & P & UR & _ & NN).
  assert (W := w). destruct c as [o A C|o A C|]; try contradiction. cbn [call_puts] in w.
  destruct (written_shape cs H uq glob A C f k x CS (PC _ I) w) as (url1 & status1 & body1 & hs1 & ct1 & rg1 & names1 & P1 & PH & _).
  destruct (stored_place _ _ _ _ _ _ _ _ _ CS w) as (url2 & status2 & body2 & hs2 & ct2 & enc2 & rg2 & names2 & P2 & _ & _ & D).
  exists (get_expression names), (mk_request (bs "GET") url [] []), (ca_response x).
  split; [|split; [exact (proj2 (proj2 P))|split; [|split; [constructor|]]]].
  - exists f, k, x, url, names. split; [exists (CallCertify o A C); split; [exact I|exact W]|]. split; [reflexivity|]. split; [exact (proj1 (proj2 P2))|]. split; [reflexivity|]. split; [reflexivity|]. split; [reflexivity|]. split; [exact (proj1 UR)|].
    split; [|destruct NN as [->| ->]; [left|right; left]; reflexivity]. intro KR. destruct (k_range k) as [b|]; [|congruence]. destruct D as (-> & _). destruct P as (R1 & _). destruct P2 as (R2 & _). eapply names_agree; [exact NN|right; reflexivity|exact R1|exact R2].
  - destruct NN as [->| ->]; cbn [get_expression cel_names rc_headers rc_query app]; [constructor|]. apply plain_tokens. reflexivity.
  - rewrite (proj1 P1). apply content_no_pseudo. exact (proj2 (proj2 PH)).
Qed.

Lemma picks_none_n P l o : picks P l o -> o = [] -> Forall (fun h => ~ P (fst h)) l.
Proof. induction 1 as [|n v l o Pn X IH|n v l o Pn X IH]; intro E; [constructor|discriminate E|constructor; [exact Pn|apply IH; exact E]]. Qed.
Lemma picks_none P l : picks P l [] -> Forall (fun h => ~ P (fst h)) l.
Proof. intro X. exact (picks_none_n P l [] X eq_refl). Qed.
Lemma same_get H uq names url rq : In names [[]; [bs "range"]] -> uq url = Some None -> same_request H uq (mk_request_cert names []) rq (mk_request (bs "GET") url [] []) ->
  request_collision H uq rq \/ plain_get uq rq (names = [bs "range"]).
Proof.
  intros IN UQ (q & q0 & hs & hs0 & fs & fs0 & Q & Q0 & P & P0 & F & F0 & [(E1 & E2 & E3 & E4)|E]).
  - right. cbn [rq_url rq_method rq_body rq_headers] in *. assert (q0 = None) by congruence. subst q0. cbn [covered_query] in F0. destruct fs0; [contradiction|]. subst fs. destruct q as [q|]; [contradiction|].
    split; [exact E1|]. split; [exact E2|]. split; [exact Q|]. intros ->. inversion P0; subst. apply Permutation_sym, Permutation_nil in E3. subst hs.
    cbn [rc_headers] in P. apply picks_none in P. eapply Forall_impl; [|exact P]. cbn. intros h N X. apply N. exists (bs "range"). split; [left; reflexivity|]. apply same_name_lower. symmetry. apply same_name_lower. exact X.
  - left. exists names, q, hs. split; [exact IN|]. split; [exact Q|]. split; [exact P|]. cbn [rq_url rq_headers rc_query] in *. assert (q0 = None) by congruence. subst q0. destruct fs0; [contradiction|].
    inversion P0; subst. assert (Z : fs = option_map (fun _ => []) q); [|subst fs; exact E].
    destruct q as [q|], fs as [l|]; try contradiction; [|reflexivity]. destruct F as (fl & _ & F). clear -F. cbn [option_map]. f_equal.
    induction F as [|g fl o (n & _ & y & [] & _)|]; auto.
Qed.
Theorem C70_only_router_responses_are_accepted :
  forall umod cap_max checked (H : bytes -> bytes) ple vs uri_path uri_query gunzip inflate key (Root : htree -> Prop) (Sub : bytes -> htree -> Prop),
  (forall x, length (H x) = 32%nat) -> unforgeable H vs key Root Sub ->
  forall cs glob (calls : list call) rq rs canister_id now offset min_version i,
  0 < cs -> Forall any_order calls -> Forall plain_call calls -> Forall (plain_urls umod uri_query) calls ->
  let st := run_calls cs H uri_query glob calls router_new in
  (* the canister certified the root hash of this router, and nothing else *)
  (forall St d, speaks_for umod cap_max ple Root Sub canister_id St -> at_path (certified_data_path canister_id) St (HLeaf d) -> d = router_root_hash H st) ->
  no_pseudo (rq_headers rq) -> no_pseudo (rs_headers rs) ->
  verify umod cap_max checked H ple vs uri_path uri_query gunzip inflate rq rs canister_id now offset key min_version = OOk i ->
  i_response i <> None ->
  exists hv hd, last_header (bs "IC-Certificate") (rs_headers rs) hv /\ header_from umod cap_max hv = OOk hd /\
  (certificate_collision umod cap_max H Root Sub (h_cert hd) \/
   collision H (preimages H (HLabeled (bs "http_expr") (nhtree H (r_tree st)))) (preimages H (h_tree hd)) \/
   i_version i = 2 /\
   exists expr f k x path, last_header (bs "IC-CertificateExpression") (rs_headers rs) expr /\
     (exists c, In c calls /\ call_puts cs H uri_query glob c f k x) /\ certifies st (ca_entry x) /\
     path_of uri_path rq path /\ (ordinary_path path -> responds st f k path) /\
     (collision H [expr] router_expressions \/
      same_response H (HeaderExclusions []) rs (ca_response x) /\
      (request_collision H uri_query rq \/ plain_get uri_query rq (k_range k <> None)))).
Proof.
  intros umod cap ck H ple vs up uq gz df key Root Sub HL UF cs glob calls rq rs cid now off mv i CS O PC PU st CD NQ NR V NN.
  assert (S := run_calls_steps cs H uq glob CS calls O router_new (new_tok H)). fold st in S.
  destruct (steps_history H (fun e => exists ce rq0 rs0, router_made umod cs H uq glob calls e ce rq0 rs0 /\ made H uq ce rq0 rs0 (en_certification e) /\
    Forall token (cel_names ce) /\ no_pseudo (rq_headers rq0) /\ no_pseudo (rs_headers rs0)) _ _ _ _ _ _ ltac:(intros f k x w; exact (put_made umod cs H uq glob calls f k x CS PC PU w)) S) as (ops & RUN & HON).
  { exists []. split; [reflexivity|constructor]. }
  destruct (accepted_entry umod cap ck H ple vs up uq gz df key Root Sub HL UF (router_made umod cs H uq glob calls) ops (r_tree st) rq rs cid now off mv i RUN HON CD NQ NR V NN) as (hv & hd & L & Hd & D).
  destruct D as [D|[D|(V2 & en & ce & rq0 & rs0 & expr & path & M & He & _ & LE & PO & AN & D)]]; [exists hv, hd; auto|exists hv, hd; auto|].
  exists hv, hd. split; [exact L|]. split; [exact Hd|]. right; right. split; [exact V2|].
  destruct M as (f & k & x & url & names & W & <- & EP & -> & -> & -> & UQ & KR & IN). exists expr, f, k, x, path. split; [exact LE|]. split; [exact W|].
  split; [apply (held_get H ops (r_tree st) _ RUN); exact He|]. split; [exact PO|]. split.
  - intro OP. specialize (AN OP). rewrite EP in AN. destruct f; cbn [answers_or_slash responds] in *; [|exact AN]. destruct AN as (A1 & A2 & A3). split; [exact A1|]. split.
    + intro X. apply A2. apply (somewhere_occupied H ops st _ RUN). exact X.
    + intros u Mu Su X. apply (A3 u Mu Su). apply (somewhere_occupied H ops st _ RUN). exact X.
  - destruct D as [D|(_ & SR & SQ)]; [left; destruct D as (a & b & A & B & D); exists a, b; split; [exact A|]; split; [|exact D]; destruct B as [<-|[]]; exact (in_map (fun n => print_cel (get_expression n)) _ _ IN)|]. right. split; [exact SR|].
    destruct (same_get H uq names url rq IN UQ SQ) as [C|(P1 & P2 & P3 & P4)]; [left; exact C|]. right. split; [exact P1|]. split; [exact P2|]. split; [exact P3|]. intro K. exact (P4 (KR K)).
Qed.
Print Assumptions C70_only_router_responses_are_accepted.
