(** Property C134: what the verifier accepts from a canister with an asset router was certified by the
    router recently.  [published tau calls]: in the state the IC certified with time [tau], the canister's
    certified data is the root hash of the router after the calls [calls]. *)
From Coq Require Import List Arith NArith Lia Bool Permutation.
From Verif Require Import Bytes Sha256 Utf8 Utf8Split Text HashTree HashTreeSpec HashTreeProofs HashTreeSpecProofs Props_HashTree RbTree Nested NestedSpec NestedProofs Cbor CborSpec HttpTypes HttpHash HttpSpec Cel CelSpec V2 Wildcard WildcardSpec Verify VerifySpec Header HeaderSpec HttpTree HttpTreeSpec CertVerify CertSpec Props_Cert Props_Header
  Props_Hash Props_Wildcard Props_Verify Props_HttpTree AssetRouter RangeSpec Props_Range AssetSpec AssetProofs AssetEffect PreparedProofs Props_Router Props_Backed ServeSpec Props_Serve Props_Accept Props_Only Props_Fresh Props_Revoke Toy Props_Trip Props_Roundtrip.
Import ListNotations.
Local Open Scope N_scope.

Lemma router_history umod cs H uq glob calls : 0 < cs -> Forall any_order calls -> Forall plain_call calls -> Forall (plain_urls umod uq) calls ->
  exists ops, http_run H ops = Some (r_tree (run_calls cs H uq glob calls router_new)) /\
    Forall (fun o => match o with HInsert en => honest H uq (router_made umod cs H uq glob calls) en | _ => True end) ops.
Proof.
  intros CS O PC PU. assert (S := run_calls_steps cs H uq glob CS calls O router_new (new_tok H)).
  destruct (steps_history H (fun e => exists ce rq0 rs0, router_made umod cs H uq glob calls e ce rq0 rs0 /\ made H uq ce rq0 rs0 (en_certification e) /\
    Forall token (cel_names ce) /\ no_pseudo (rq_headers rq0) /\ no_pseudo (rs_headers rs0)) _ _ _ _ _ _ ltac:(intros f k x w; exact (put_made umod cs H uq glob calls f k x CS PC PU w)) S) as (ops & RUN & HON).
  { exists []. split; [reflexivity|constructor]. }
  exists ops. split; [exact RUN|exact HON].
Qed.

Theorem C134_router_content_was_certified_recently :
  forall umod cap_max checked (H : bytes -> bytes) ple vs uri_path uri_query gunzip inflate key (Root : htree -> Prop) (Sub : bytes -> htree -> Prop),
  (forall x, length (H x) = 32%nat) -> unforgeable H vs key Root Sub ->
  forall cs glob (published : N -> list call -> Prop) rq rs canister_id now offset min_version i,
  0 < cs -> now < 2 ^ 128 -> offset < 2 ^ 128 ->
  (forall tau calls, published tau calls -> Forall any_order calls /\ Forall plain_call calls /\ Forall (plain_urls umod uri_query) calls) ->
  (* the canister certifies the root hash of its router, whatever it is at the time *)
  (forall St tau d, speaks_for umod cap_max ple Root Sub canister_id St -> state_time St tau -> at_path (certified_data_path canister_id) St (HLeaf d) ->
     exists calls, published tau calls /\ d = router_root_hash H (run_calls cs H uri_query glob calls router_new)) ->
  no_pseudo (rq_headers rq) -> no_pseudo (rs_headers rs) ->
  verify umod cap_max checked H ple vs uri_path uri_query gunzip inflate rq rs canister_id now offset key min_version = OOk i ->
  i_response i <> None ->
  exists hv hd, last_header (bs "IC-Certificate") (rs_headers rs) hv /\ header_from umod cap_max hv = OOk hd /\
  (certificate_collision umod cap_max H Root Sub (h_cert hd) \/
   exists tau calls, now <= tau + offset /\ tau <= now + offset /\ published tau calls /\
   let st := run_calls cs H uri_query glob calls router_new in
   (collision H (preimages H (HLabeled (bs "http_expr") (nhtree H (r_tree st)))) (preimages H (h_tree hd)) \/
    i_version i = 2 /\
    exists expr f k x path, last_header (bs "IC-CertificateExpression") (rs_headers rs) expr /\
      (exists c, In c calls /\ call_puts cs H uri_query glob c f k x) /\ certifies st (ca_entry x) /\
      path_of uri_path rq path /\ (ordinary_path path -> responds st f k path) /\
      (collision H [expr] router_expressions \/
       same_response H (HeaderExclusions []) rs (ca_response x) /\
       (request_collision H uri_query rq \/ plain_get uri_query rq (k_range k <> None))))).
Proof.
  intros umod cap ck H ple vs up uq gz df key Root Sub HL UF cs glob published rq rs cid now off mv i CS Bn Bo PP CD NQ NR V NN.
  destruct (C46_no_success_below_version _ _ _ _ _ _ _ _ _ _ _ _ _ _ _ _ _ _ V) as (_ & VV & _).
  assert (HD : exists hv hd, last_header (bs "IC-Certificate") (rs_headers rs) hv /\ header_from umod cap hv = OOk hd /\
     (certificate_collision umod cap H Root Sub (h_cert hd) \/
      exists tau calls, now <= tau + off /\ tau <= now + off /\ published tau calls /\ router_root_hash H (run_calls cs H uq glob calls router_new) = digest H (h_tree hd))).
  { destruct (C133_accepted_state_is_recent umod cap ck H ple vs up uq gz df key Root Sub HL UF rq rs cid now off mv i Bn Bo V) as (hv & hd & L & Hd & [C|(St & tau & Sp & T & T1 & T2 & At)]); exists hv, hd; (split; [exact L|]); (split; [exact Hd|]); [left; exact C|].
    destruct (CD St tau _ Sp T At) as (calls & Pb & D). right. exists tau, calls. auto. }
  destruct HD as (hv & hd & L & Hd & [C|(tau & calls & T1 & T2 & Pb & DG)]); exists hv, hd; (split; [exact L|]); (split; [exact Hd|]); [left; exact C|].
  right. exists tau, calls. split; [exact T1|]. split; [exact T2|]. split; [exact Pb|]. set (st := run_calls cs H uq glob calls router_new) in *. cbv zeta.
  destruct (PP tau calls Pb) as (O & PC & PU).
  destruct (router_history umod cs H uq glob calls CS O PC PU) as (ops & RUN & HON). fold st in RUN.
  destruct (http_run_ok H ops) as (t' & R' & K & _ & Q). assert (t' = r_tree st) by congruence. subst t'. clear R'.
  destruct (nok_tree H (r_tree st) K) as (DGt & WT & FT). set (T' := HLabeled (bs "http_expr") (nhtree H (r_tree st))).
  assert (DT : digest H T' = digest H (h_tree hd)) by (rewrite <- DG; unfold router_root_hash, http_root_hash; rewrite DGt; reflexivity).
  destruct VV as [V1|V2].
  - left. destruct (proj1 (C49_v1_accepted_iff umod cap ck H ple vs up uq gz df rq rs cid now off key mv i) (conj V V1)) as (hv' & hd' & path & enc & d & A1 & A2 & A3 & A4 & A5 & A6 & A7 & A8 & A9 & SB & _).
    assert (hv' = hv) by (apply last_header_fun in L, A1; congruence). subst hv'. assert (hd' = hd) by congruence. subst hd'.
    destruct (C02_full_tree_determines_witness H HL T' (h_tree hd) FT (proj2 (header_hashes32 _ _ _ _ A2)) DT) as [P|C]; [exfalso|exact C].
    assert (N : forall p v, lookup_path (asset_path p) (h_tree hd) = Found v -> False).
    { intros p v X. apply (C03_found_is_sound H T' _ _ _ WT FT P) in X. apply lookup_path_at_iff in X; [|exact WT].
      apply at_root_inv in X. destruct X as [X _]. discriminate X. }
    destruct SB as [[X|[_ X]]|[X|[_ X]]]; exact (N _ _ X).
  - destruct (C47_v2_soundness _ _ _ _ _ _ _ _ _ _ _ _ _ _ _ _ _ _ HL V V2) as (hv' & hd' & expr & e & c & path & A1 & A2 & A3 & A4 & A5 & A6 & A7 & A8 & A9).
    assert (hv' = hv) by (apply last_header_fun in L, A1; congruence). subst hv'. assert (hd' = hd) by congruence. subst hd'.
    destruct (A9 T' WT FT DT) as [C|[X XP]]; [left; exact C|]. right. split; [exact V2|].
    destruct (C48_v2_returns_only_certified_data _ _ _ _ _ _ _ _ _ _ _ _ _ _ _ _ _ _ V V2) as (expr' & c' & LE' & Ce' & Sh).
    assert (expr' = expr) by (apply last_header_fun in A3, LE'; congruence). subst expr'. assert (c' = c) by congruence. subst c'. clear LE' Ce'.
    assert (NS : c <> CelSkip) by (intros ->; contradiction).
    destruct (entry_of_tree H uq (router_made umod cs H uq glob calls) ops (r_tree st) rq rs e expr c path HL RUN HON NQ NR A4 NS X XP) as (en & ce & rq0 & rs0 & M & He & _ & AN & D).
    destruct M as (f & k & x & url & names & W & <- & EP & -> & -> & -> & UQ & KR & IN). exists expr, f, k, x, path. split; [exact A3|]. split; [exact W|].
    split; [apply (held_get H ops (r_tree st) _ RUN); exact He|]. split; [exact A6|]. split.
    + intro OP. specialize (AN OP). rewrite EP in AN. destruct f; cbn [answers_or_slash responds] in *; [|exact AN]. destruct AN as (B1 & B2 & B3). split; [exact B1|]. split.
      * intro Y. apply B2. apply (somewhere_occupied H ops st _ RUN). exact Y.
      * intros u Mu Su Y. apply (B3 u Mu Su). apply (somewhere_occupied H ops st _ RUN). exact Y.
    + destruct D as [D|(_ & SR & SQ)]; [left; destruct D as (a & b & A & B & D); exists a, b; split; [exact A|]; split; [|exact D]; destruct B as [<-|[]]; exact (in_map (fun n => print_cel (get_expression n)) _ _ IN)|]. right. split; [exact SR|].
      destruct (same_get H uq names url rq IN UQ SQ) as [C|(P1 & P2 & P3 & P4)]; [left; exact C|]. right. split; [exact P1|]. split; [exact P2|]. split; [exact P3|]. intro KK. exact (P4 (KR KK)).
Qed.
Print Assumptions C134_router_content_was_certified_recently.

(** Taken down means refused: when, since [now - offset], the router certifies no response that answers the
    path, no content is accepted for it. *)
Theorem C134_deleted_assets_are_refused :
  forall umod cap_max checked (H : bytes -> bytes) ple vs uri_path uri_query gunzip inflate key (Root : htree -> Prop) (Sub : bytes -> htree -> Prop),
  (forall x, length (H x) = 32%nat) -> unforgeable H vs key Root Sub ->
  forall cs glob (published : N -> list call -> Prop) rq rs path canister_id now offset min_version i,
  0 < cs -> now < 2 ^ 128 -> offset < 2 ^ 128 ->
  (forall tau calls, published tau calls -> Forall any_order calls /\ Forall plain_call calls /\ Forall (plain_urls umod uri_query) calls) ->
  (forall St tau d, speaks_for umod cap_max ple Root Sub canister_id St -> state_time St tau -> at_path (certified_data_path canister_id) St (HLeaf d) ->
     exists calls, published tau calls /\ d = router_root_hash H (run_calls cs H uri_query glob calls router_new)) ->
  no_pseudo (rq_headers rq) -> no_pseudo (rs_headers rs) ->
  path_of uri_path rq path -> ordinary_path path ->
  (forall tau calls f k x, now <= tau + offset -> tau <= now + offset -> published tau calls ->
     (exists c, In c calls /\ call_puts cs H uri_query glob c f k x) ->
     responds (run_calls cs H uri_query glob calls router_new) f k path ->
     ~ certifies (run_calls cs H uri_query glob calls router_new) (ca_entry x)) ->
  verify umod cap_max checked H ple vs uri_path uri_query gunzip inflate rq rs canister_id now offset key min_version = OOk i ->
  i_response i = None \/
  exists hv hd, last_header (bs "IC-Certificate") (rs_headers rs) hv /\ header_from umod cap_max hv = OOk hd /\
    (certificate_collision umod cap_max H Root Sub (h_cert hd) \/
     exists tau calls, published tau calls /\
       collision H (preimages H (HLabeled (bs "http_expr") (nhtree H (r_tree (run_calls cs H uri_query glob calls router_new))))) (preimages H (h_tree hd))).
Proof.
  intros umod cap ck H ple vs up uq gz df key Root Sub HL UF cs glob published rq rs path cid now off mv i CS Bn Bo PP CD NQ NR PO OP Gone V.
  destruct (i_response i) as [r|] eqn:IR; [right|left; reflexivity].
  destruct (C134_router_content_was_certified_recently umod cap ck H ple vs up uq gz df key Root Sub HL UF cs glob published rq rs cid now off mv i CS Bn Bo PP CD NQ NR V) as (hv & hd & L & Hd & D).
  { rewrite IR. discriminate. }
  exists hv, hd. split; [exact L|]. split; [exact Hd|]. destruct D as [D|(tau & calls & T1 & T2 & Pb & D)]; [left; exact D|]. cbv zeta in D.
  destruct D as [D|(_ & expr & f & k & x & path' & _ & W & Ce & PO' & AN & _)]; [right; eauto|]. exfalso.
  assert (path' = path). { apply C63_request_path_exact in PO, PO'. congruence. } subst path'.
  exact (Gone tau calls f k x T1 T2 Pb W (AN OP) Ce).
Qed.
Print Assumptions C134_deleted_assets_are_refused.

(** ** The three calls of [page_calls], then everything deleted at time 2000 *)
Definition exf_calls (tau : N) (calls : list call) : Prop :=
  (tau < 2000 /\ calls = page_calls) \/ (2000 <= tau /\ calls = page_calls ++ [CallDeleteAll]).
Lemma calls_snoc cs H uq glob l c st : run_calls cs H uq glob (l ++ [c]) st = fst (run_call cs H uq glob c (run_calls cs H uq glob l st)).
Proof. revert st. induction l as [|d l IH]; intro st; [reflexivity|apply IH]. Qed.
Example C134_hypotheses :
  (forall tau calls, exf_calls tau calls -> Forall any_order calls /\ Forall plain_call calls /\ Forall (plain_urls (2 ^ 64) ex_query) calls) /\
  (forall St tau d, speaks_for (2 ^ 64) (2 ^ 60) ex_ple (fun t => t = ex_state page_root) (fun _ _ => False) (bs "e") St -> state_time St tau ->
     at_path (certified_data_path (bs "e")) St (HLeaf d) -> exists calls, exf_calls tau calls /\ d = router_root_hash toy (run_calls 8 toy ex_query no_glob calls router_new)) /\
  (* accepted at time 1010, as certified at time 1000 *)
  (exists rs i, trip_serve 8 page_state (get (bs "/b") []) = OOk rs /\ trip_verify page_state (get (bs "/b") []) rs = OOk i /\ i_response i <> None /\ no_pseudo (rs_headers rs)) /\
  (* at time 3000 nothing is certified *)
  (forall tau calls f k x path, 3000 <= tau + 20 -> tau <= 3000 + 20 -> exf_calls tau calls ->
     (exists c, In c calls /\ call_puts 8 toy ex_query no_glob c f k x) -> responds (run_calls 8 toy ex_query no_glob calls router_new) f k path ->
     ~ certifies (run_calls 8 toy ex_query no_glob calls router_new) (ca_entry x)).
Proof.
  destruct page_calls_plain as (P1 & P2 & P3). destruct C70_hypotheses as (_ & CD & Ac). split; [|split; [|split; [exact Ac|]]].
  - intros tau calls [[_ ->]|[_ ->]]; [auto|]. split; [|split]; (apply Forall_app; split; [assumption|constructor; [exact I|constructor]]).
  - intros St tau d Sp T A. exists page_calls. split; [|exact (CD St d Sp A)]. left. split; [|reflexivity].
    destruct Sp as [->|(r & s & enc & rg & lo & hi & _ & _ & _ & _ & _ & _ & [])]. apply ex_state_time in T. subst tau. reflexivity.
  - intros tau calls f k x path B1 B2 [[B ->]|[_ ->]] _ _; [lia|]. rewrite calls_snoc. cbn [run_call].
    destruct (delete_all_assets (run_calls 8 toy ex_query no_glob page_calls router_new)) as [st' o] eqn:E. cbn [fst].
    exact (proj1 (proj2 (C57_delete_all_revokes_everything _ _ _ (ca_entry x) f k x E))).
Qed.
