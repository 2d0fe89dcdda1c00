(** Property C137: what the verifier accepts from the json-api example is what the api was to answer at a moment
    within the time window.  [published tau events]: in the state the IC certified with time [tau], the canister's
    certified data is what it had set after the update calls and upgrades [events]. *)
From Coq Require Import List Arith NArith Lia Bool Permutation.
From Verif Require Import Bytes Sha256 Text HashTree HashTreeSpec HashTreeProofs HashTreeSpecProofs Props_HashTree RbTree Nested NestedSpec NestedProofs Cbor CborSpec HttpTypes HttpHash HttpSpec Cel CelSpec V2 Wildcard WildcardSpec Verify VerifySpec Header HeaderSpec HttpTree HttpTreeSpec CertVerify CertSpec Props_Cert Props_Header
  Props_Hash Props_Wildcard Props_Verify Props_HttpTree AssetRouter RangeSpec Props_Range AssetProofs JsonApi JsonSpec Props_Json Props_Fresh.
Import ListNotations.
Local Open Scope N_scope.

(** The entry behind an accepted response whose witness has the root hash of the tree. *)
Lemma entry_of_witness :
  forall umod cap_max checked (H : bytes -> bytes) ple vs uri_path uri_query gunzip inflate
    (Made : entry -> cel -> request -> response -> Prop) (ops : list http_op) (t : ntree) rq rs canister_id now offset key min_version i hv hd,
  (forall x, length (H x) = 32%nat) -> http_run H ops = Some t ->
  Forall (fun o => match o with HInsert en => exists ce rq0 rs0, Made en ce rq0 rs0 /\ made H uri_query ce rq0 rs0 (en_certification en) /\ Forall token (cel_names ce) /\ no_pseudo (rq_headers rq0) /\ no_pseudo (rs_headers rs0) | _ => True end) ops ->
  no_pseudo (rq_headers rq) -> no_pseudo (rs_headers rs) ->
  verify umod cap_max checked H ple vs uri_path uri_query gunzip inflate rq rs canister_id now offset key min_version = OOk i ->
  i_response i <> None ->
  last_header (bs "IC-Certificate") (rs_headers rs) hv -> header_from umod cap_max hv = OOk hd -> http_root_hash H t = digest H (h_tree hd) ->
  collision H (preimages H (HLabeled (bs "http_expr") (nhtree H t))) (preimages H (h_tree hd)) \/
  i_version i = 2 /\
  exists en ce rq0 rs0 expr path, Made en ce rq0 rs0 /\ held ops en /\
    last_header (bs "IC-CertificateExpression") (rs_headers rs) expr /\ path_of uri_path rq path /\
    (ordinary_path path -> answers_or_slash ops (en_path en) path) /\
    (collision H [expr] [print_cel ce] \/
     expr = print_cel ce /\
     match ce with
     | CelSkip => False
     | CelResponseOnly rc => same_response H rc rs rs0
     | CelFull qc rc => same_response H rc rs rs0 /\ same_request H uri_query qc rq rq0
     end).
Proof.
  intros umod cap ck H ple vs up uq gz df Made ops t rq rs cid now off key mv i hv hd HL RUN Ho NQ NR V NN L Hd DG.
  destruct (C46_no_success_below_version _ _ _ _ _ _ _ _ _ _ _ _ _ _ _ _ _ _ V) as (_ & VV & _).
  destruct (http_run_ok H ops) as (t' & R' & K & _ & Q). assert (t' = t) by congruence. subst t'. clear R'.
  destruct (nok_tree H t K) as (DGt & WT & FT). set (T' := HLabeled (bs "http_expr") (nhtree H t)) in *.
  assert (DT : digest H T' = digest H (h_tree hd)) by (rewrite <- DG; unfold http_root_hash; rewrite DGt; reflexivity).
  destruct VV as [V1|V2].
  - left. destruct (proj1 (C49_v1_accepted_iff umod cap ck H ple vs up uq gz df rq rs cid now off key mv i) (conj V V1)) as (hv' & hd' & path & enc & d & A1 & A2 & A3 & A4 & A5 & A6 & A7 & A8 & A9 & SB & _).
    assert (hv' = hv) by (apply last_header_fun in L, A1; congruence). subst hv'. assert (hd' = hd) by congruence. subst hd'.
    destruct (C02_full_tree_determines_witness H HL T' (h_tree hd) FT (proj2 (header_hashes32 _ _ _ _ A2)) DT) as [P|C]; [exfalso|exact C].
    assert (N : forall p v, lookup_path (asset_path p) (h_tree hd) = Found v -> False).
    { intros p v X. apply (C03_found_is_sound H T' _ _ _ WT FT P) in X. apply lookup_path_at_iff in X; [|exact WT].
      apply at_root_inv in X. destruct X as [X _]. discriminate X. }
    destruct SB as [[X|[_ X]]|[X|[_ X]]]; exact (N _ _ X).
  - destruct (C47_v2_soundness _ _ _ _ _ _ _ _ _ _ _ _ _ _ _ _ _ _ HL V V2) as (hv' & hd' & expr & e & c & path & A1 & A2 & A3 & A4 & A5 & A6 & A7 & A8 & A9).
    assert (hv' = hv) by (apply last_header_fun in L, A1; congruence). subst hv'. assert (hd' = hd) by congruence. subst hd'.
    destruct (A9 T' WT FT DT) as [C|[X XP]]; [left; exact C|]. right. split; [exact V2|].
    destruct (C48_v2_returns_only_certified_data _ _ _ _ _ _ _ _ _ _ _ _ _ _ _ _ _ _ V V2) as (expr' & c' & LE' & Ce' & Sh).
    assert (expr' = expr) by (apply last_header_fun in A3, LE'; congruence). subst expr'. assert (c' = c) by congruence. subst c'. clear LE' Ce'.
    assert (NS : c <> CelSkip) by (intros ->; contradiction).
    destruct (entry_of_tree H uq Made ops t rq rs e expr c path HL RUN Ho NQ NR A4 NS X XP) as (en & ce & rq0 & rs0 & X1 & X2 & X3 & X4 & X5).
    exists en, ce, rq0, rs0, expr, path. auto 10.
Qed.

Theorem C137_accepted_todos_are_recent :
  forall (umod cap_max : N) (checked : bool) (H : bytes -> bytes) ple vs uri_path uri_query gunzip inflate parse_create parse_update (checked_canister : bool),
  (forall x, length (H x) = 32%nat) ->
  uri_path (bs "/todos") = Some (bs "/todos") -> uri_query (bs "/todos") = Some None ->
  forall key (Root : htree -> Prop) (Sub : bytes -> htree -> Prop), unforgeable H vs key Root Sub ->
  forall (published : N -> list event -> Prop) order0 st0 rq rs canister_id now offset min_version i,
  now < 2 ^ 128 -> offset < 2 ^ 128 ->
  (forall l, Permutation (order0 l) l) -> init H uri_path uri_query order0 = Some st0 ->
  (forall tau events, published tau events -> Forall some_order events) ->
  (* at every time, the certified data is what the canister last set *)
  (forall St tau d, speaks_for umod cap_max ple Root Sub canister_id St -> state_time St tau -> at_path (certified_data_path canister_id) St (HLeaf d) ->
     exists events, published tau events /\ ap_data (run_events H uri_path uri_query parse_create parse_update checked_canister events st0) = Some d) ->
  no_pseudo (rq_headers rq) -> no_pseudo (rs_headers rs) ->
  verify umod cap_max checked H ple vs uri_path uri_query gunzip inflate rq rs canister_id now offset key min_version = OOk i -> i_response i <> None ->
  exists hv hd, last_header (bs "IC-Certificate") (rs_headers rs) hv /\ header_from umod cap_max hv = OOk hd /\
  (certificate_collision umod cap_max H Root Sub (h_cert hd) \/
   exists tau events s, now <= tau + offset /\ tau <= now + offset /\ published tau events /\
   follows uri_path parse_create parse_update checked_canister events s /\
   let st := run_events H uri_path uri_query parse_create parse_update checked_canister events st0 in
   (collision H (preimages H (HLabeled (bs "http_expr") (nhtree H (ap_tree st)))) (preimages H (h_tree hd)) \/
    i_version i = 2 /\
    exists expr path, last_header (bs "IC-CertificateExpression") (rs_headers rs) expr /\ path_of uri_path rq path /\
    (collision H [expr] [print_cel todo_expression] \/ collision H [expr] [print_cel fallback_expression] \/
     (exists m q, In m (bs "GET" :: refused) /\ uri_query (rq_url rq) = Some q /\ collision H (request_messages H rq [] (option_map (fun _ => []) q)) (request_messages H (mk_request m (bs "/todos") [] []) [] None)) \/
     (ordinary_path path -> exists good, correct uri_query s rq path good /\ same_response H (HeaderExclusions []) rs good)))).
Proof.
  intros umod cap ck H ple vs up uq gz df pc pu cc HL UP UQ key Root Sub UF published o0 st0 rq rs cid now off mv i Bn Bo O0 E0 SO CD NQ NR V NN.
  destruct (C133_accepted_state_is_recent umod cap ck H ple vs up uq gz df key Root Sub HL UF rq rs cid now off mv i Bn Bo V) as (hv & hd & L & Hd & [C|(St & tau & Sp & T & T1 & T2 & At)]); exists hv, hd; (split; [exact L|]); (split; [exact Hd|]); [left; exact C|].
  destruct (CD St tau _ Sp T At) as (es & Pb & D). right.
  destruct (run_cases H up uq pc pu cc UP UQ o0 st0 O0 E0 es (SO _ _ Pb)) as (_ & (s & Fs) & _).
  exists tau, es, s. split; [exact T1|]. split; [exact T2|]. split; [exact Pb|]. split; [exact Fs|].
  destruct (c88_core H up uq pc pu cc UP UQ o0 es st0 s rq rs O0 (SO _ _ Pb) E0 Fs NQ) as (D' & Made & ops & Rn & Fo & K).
  set (st := run_events H up uq pc pu cc es st0) in *. cbv zeta.
  assert (DG : http_root_hash H (ap_tree st) = digest H (h_tree hd)) by congruence.
  destruct (entry_of_witness umod cap ck H ple vs up uq gz df Made ops (ap_tree st) rq rs cid now off key mv i hv hd HL Rn Fo NQ NR V NN L Hd DG) as [C|(V2 & en & ce & rq0 & rs0 & expr & path & M & He & LE & PO & AN & C)]; [left; exact C|].
  right. split; [exact V2|]. exists expr, path. split; [exact LE|]. split; [exact PO|]. exact (K en ce rq0 rs0 expr path M He PO AN C).
Qed.
Print Assumptions C137_accepted_todos_are_recent.

(** The history of C87's example, published in the state with time 1000, meets the hypotheses, and its list is
    accepted at time 1010. *)
From Verif Require Import Toy Props_Roundtrip Props_JsonEx.
Definition exj_published (tau : N) (events : list event) : Prop := tau = 1000 /\ events = ex_events.
Lemma data_of_some (f : api -> api) (a : option api) st0 d :
  option_map f (Some st0) = a -> match a with Some st => ap_data st | None => None end = Some d -> ap_data (f st0) = Some d.
Proof. intros <- E. exact E. Qed.
Lemma ex_run_eq st0 : run_events toy ex_uri ex_query ex_create ex_update true ex_events st0 = ex_run st0.
Proof. unfold ex_run. reflexivity. Qed.
Lemma ex_started st0 : ex_start = Some st0 -> option_map ex_run (Some st0) = ex_api.
Proof. intro I. rewrite <- I. exact ex_api_eq. Qed.
Example C137_hypotheses :
  unforgeable toy (toy_signer (ex_state api_root)) (ex_key x01) (fun t => t = ex_state api_root) (fun _ _ => False) /\
  (forall tau events, exj_published tau events -> Forall some_order events) /\
  (exists st0, init toy ex_uri ex_query (fun l => l) = Some st0 /\
   forall St tau d, speaks_for (2 ^ 64) (2 ^ 60) ex_ple (fun t => t = ex_state api_root) (fun _ _ => False) (bs "e") St -> state_time St tau ->
     at_path (certified_data_path (bs "e")) St (HLeaf d) ->
     exists events, exj_published tau events /\ ap_data (run_events toy ex_uri ex_query ex_create ex_update true events st0) = Some d) /\
  (exists rs i, api_serve (ask (bs "GET") (bs "/todos")) = Some (rs, None) /\ api_verify (ask (bs "GET") (bs "/todos")) rs = OOk i /\ i_response i <> None).
Proof.
  destruct C87_C88_C89_hypotheses as (U & CD & _ & _ & _ & _ & Ac). split; [exact U|]. split.
  { intros tau es [_ ->]. exact (proj1 api_events_ok). }
  split; [|exact Ac]. clear Ac U.
  destruct (init_whole toy ex_uri ex_query (proj1 (proj2 (proj2 api_events_ok))) (proj2 (proj2 (proj2 api_events_ok))) (fun l => l) (proj1 (proj2 api_events_ok))) as (st0 & I0 & _).
  exists st0. split; [exact I0|].
  assert (E : option_map ex_run (Some st0) = ex_api). { exact (ex_started _ I0). }
  clear I0. intros St tau d S T A. exists ex_events. split.
  - split; [|reflexivity]. destruct S as [->|(r & s & enc & rg & lo & hi & _ & _ & _ & _ & _ & _ & [])]. exact (ex_state_time _ _ T).
  - rewrite (ex_run_eq st0). exact (data_of_some ex_run _ st0 d E (CD St d S A)).
Qed.
