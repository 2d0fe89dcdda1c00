(** C95-C98: a router that shares its tree with a skipped "/metrics" endpoint. *)
From Coq Require Import List Arith NArith Lia Bool Permutation.
From Verif Require Import Bytes Toy Utf8 Text HashTree HashTreeSpec RbTree Nested NestedSpec NestedProofs Cbor CborSpec HttpTypes HttpHash HttpSpec Cel CelSpec V2 Wildcard WildcardSpec WildcardProofs Verify VerifySpec Header HeaderSpec HttpTree HttpTreeSpec CertVerify CertSpec Props_Cert
  Props_Verify Props_HttpTree AssetRouter RangeSpec AssetSpec AssetProofs AssetProofs AssetEffect PreparedProofs Props_Router Props_Backed ServeSpec Props_Serve Props_Encoding Props_Chunks Props_Accept Props_Only Props_Trip Props_Roundtrip Props_Skip Props_SkipEx Shared Props_Shared.
Import ListNotations.
Local Open Scope N_scope.

Definition metrics_entry : entry := mk_entry (PExact (bs "/metrics")) (certify_skip toy).
Definition shared_page : list event :=
  OnTree (HInsert metrics_entry) :: map OnRouter page_calls ++ [OnTree (HInsert (sk_entry toy (PExact (bs "/status")) (bs "ok"))); OnTree (HDelete (sk_entry toy (PExact (bs "/status")) (bs "ok")))].
Definition shared_state : router := Eval vm_compute in match run_shared 8 toy ex_query no_glob shared_page router_new with Some st => st | None => router_new end.
Lemma shared_state_eq : run_shared 8 toy ex_query no_glob shared_page router_new = Some shared_state.
Proof. vm_cast_no_check (eq_refl (Some shared_state)). Qed.
Definition metrics_response (body : bytes) : response := mk_response 200 (sk_headers toy (r_tree shared_state) [bs "http_expr"; bs "metrics"; bs "<$>"] (print_cel CelSkip)) body.

Lemma metrics_honest : honest toy ex_query (sk_src toy) metrics_entry.
Proof. exists CelSkip, (sk_request []), (sk_rs []). split; [right; auto|]. split; [constructor|]. split; [constructor|]. split; repeat constructor; intro Z; discriminate Z. Qed.
Lemma shared_page_plain : Forall (shared_plain (2 ^ 64) toy ex_query (sk_src toy)) shared_page.
Proof.
  unfold shared_page. constructor; [exact metrics_honest|]. apply Forall_app. split.
  - apply Forall_forall. intros e I. apply in_map_iff in I. destruct I as (c & <- & I). destruct page_calls_plain as (A & B & C). rewrite Forall_forall in A, B, C. split; [exact (A c I)|]. split; [exact (B c I)|exact (C c I)].
  - constructor; [apply sk_honest|]. constructor; [exact I|constructor].
Qed.
Lemma shared_page_order : Forall (fun e => match e with OnRouter c => any_order c | _ => True end) shared_page.
Proof. eapply Forall_impl; [|exact shared_page_plain]. intros [c|o] P; [exact (proj1 P)|exact I]. Qed.
Lemma shared_page_short : Forall (fun e => match e with
   | OnRouter c => any_order c /\ plain_urls (2 ^ 64) ex_query c
   | OnTree (HInsert en) => Forall (short (2 ^ 64)) (entry_tree_path en)
   | OnTree _ => True end) shared_page.
Proof.
  unfold shared_page. constructor; [repeat constructor; vm_compute; reflexivity|]. apply Forall_app. split.
  - apply Forall_forall. intros e I. apply in_map_iff in I. destruct I as (c & <- & I). destruct page_calls_plain as (A & _ & C). rewrite Forall_forall in A, C. split; [exact (A c I)|exact (C c I)].
  - constructor; [|constructor; [exact I|constructor]]. repeat constructor; vm_compute; reflexivity.
Qed.
Lemma shared_page_calls c : In (OnRouter c) shared_page -> In c page_calls.
Proof.
  unfold shared_page. intros [Z|I]; [discriminate Z|]. apply in_app_iff in I. destruct I as [I|I].
  - apply in_map_iff in I. destruct I as (c' & E & I). injection E as ->. exact I.
  - destruct I as [Z|[Z|[]]]; discriminate Z.
Qed.
Lemma shared_page_clean : (forall f c u, In (OnRouter c) shared_page -> In u (call_names f c) -> clean_url u) /\
  forall en, In (OnTree (HInsert en)) shared_page -> clean_url (path_text (en_path en)).
Proof.
  split.
  - intros f c u I J. exact (proj1 C59_plain_get_hypotheses f c u (shared_page_calls c I) J).
  - intros en. unfold shared_page. intros [Z|I].
    + injection Z as <-. apply sk_clean. vm_compute. reflexivity.
    + apply in_app_iff in I. destruct I as [I|I]; [apply in_map_iff in I; destruct I as (c & Z & _); discriminate Z|].
      destruct I as [Z|[Z|[]]]; [injection Z as <-|discriminate Z]. apply sk_clean. vm_compute. reflexivity.
Qed.
(** The verifier accepts the router's response, and any body at "/metrics" without vouching for it, but not at "/b". *)
Example C97_hypotheses :
  Forall (shared_plain (2 ^ 64) toy ex_query (sk_src toy)) shared_page /\ run_shared 8 toy ex_query no_glob shared_page router_new = Some shared_state /\
  (forall f c u, In (OnRouter c) shared_page -> In u (call_names f c) -> clean_url u) /\
  (forall en, In (OnTree (HInsert en)) shared_page -> clean_url (path_text (en_path en))) /\
  (forall St d, speaks_for (2 ^ 64) (2 ^ 60) ex_ple (fun t => t = ex_state (router_root_hash toy shared_state)) (fun _ _ => False) (bs "e") St ->
     at_path (certified_data_path (bs "e")) St (HLeaf d) -> d = router_root_hash toy shared_state) /\
  (forall path, path_of ex_uri (get (bs "/metrics") []) path -> ordinary_path path) /\
  (exists i, trip_verify shared_state (get (bs "/metrics") []) (metrics_response (bs "any")) = OOk i /\ i_response i = None) /\
  (exists i, trip_verify shared_state (get (bs "/metrics") []) (metrics_response (bs "other")) = OOk i /\ i_response i = None) /\
  trip_verify shared_state (get (bs "/b") []) (metrics_response (bs "any")) = OErr /\
  (exists rs i, trip_serve 8 shared_state (get (bs "/b") []) = OOk rs /\ trip_verify shared_state (get (bs "/b") []) rs = OOk i /\ i_response i <> None /\ no_pseudo (rs_headers rs)).
Proof.
  split; [exact shared_page_plain|]. split; [exact shared_state_eq|]. split; [apply shared_page_clean|]. split; [apply shared_page_clean|].
  split; [exact (ex_speaks (router_root_hash toy shared_state))|]. split.
  { intros path PO. apply C63_request_path_exact in PO. vm_compute in PO. injection PO as <-. apply clean_ordinary. apply sk_clean. vm_compute. reflexivity. }
  split; [eexists; split; [vm_compute; reflexivity|reflexivity]|]. split; [eexists; split; [vm_compute; reflexivity|reflexivity]|]. split; [vm_compute; reflexivity|].
  assert (T : trip 8 shared_state (get (bs "/b") []) = Some (Some (Some (200, bs "plain")))) by (vm_compute; reflexivity).
  destruct (trip_accepted 8 shared_state _ _ T) as (rs & i & A & B & C). exists rs, i. split; [exact A|]. split; [exact B|]. split; [exact C|].
  assert (Y : no_colon_b (trip_serve 8 shared_state (get (bs "/b") [])) = true) by (vm_compute; reflexivity). exact (no_colon_ok _ rs Y A).
Qed.
Print Assumptions C97_hypotheses.

(** The direct entry is still certified (C98), and delete_all_assets removes it. *)
Example C98_hypotheses :
  Forall (fun e => match e with OnRouter c => any_order c | _ => True end) ([] ++ map OnRouter page_calls) /\
  clean_url (path_text (en_path metrics_entry)) /\
  (forall c, In (OnRouter c) (map OnRouter page_calls) -> c <> CallDeleteAll) /\
  (forall c f u, In (OnRouter c) (map OnRouter page_calls) -> In u (call_names f c) ->
     clean_url u /\ (f, request_parts u) <> (is_wildcard (en_path metrics_entry), request_parts (path_text (en_path metrics_entry)))) /\
  (forall o, In (OnTree o) (map OnRouter page_calls) -> ~ disturbs o (entry_tree_path metrics_entry)) /\
  certifies shared_state metrics_entry.
Proof.
  assert (C : forall c, In (OnRouter c) (map OnRouter page_calls) -> In c page_calls).
  { intros c I. apply in_map_iff in I. destruct I as (c' & E & I). injection E as ->. exact I. }
  split. { apply Forall_forall. intros e I. apply in_map_iff in I. destruct I as (c & <- & I). destruct page_calls_plain as (A & _). rewrite Forall_forall in A. exact (A c I). }
  split; [apply sk_clean; vm_compute; reflexivity|].
  split. { intros c I. apply C in I. destruct I as [<-|[<-|[<-|[]]]]; intro Z; discriminate Z. }
  split.
  { intros c f u I J. split; [exact (proj1 C59_plain_get_hypotheses f c u (C c I) J)|]. apply (page_names_in f c u (C c I)) in J. intro Z.
    assert (A : forallb (fun u => negb (peqb (request_parts u) (request_parts (bs "/metrics")))) (page_names f) = true) by (destruct f; vm_compute; reflexivity).
    rewrite forallb_forall in A. specialize (A u J). injection Z as _ Z. change (path_text (en_path metrics_entry)) with (bs "/metrics") in Z. apply peqb_spec in Z. rewrite Z in A. discriminate A. }
  split. { intros o I. apply in_map_iff in I. destruct I as (c & Z & _). discriminate Z. }
  vm_compute. reflexivity.
Qed.
Print Assumptions C98_hypotheses.

(** A response the router finds, certified in the shared tree (C96). *)
Example C96_hypotheses :
  (forall y, length (toy y) = 32%nat) /\
  Forall (fun e => match e with
    | OnRouter c => any_order c /\ plain_urls (2 ^ 64) ex_query c
    | OnTree (HInsert en) => Forall (short (2 ^ 64)) (entry_tree_path en)
    | OnTree _ => True end) shared_page /\
  run_shared 8 toy ex_query no_glob shared_page router_new = Some shared_state /\
  ex_query (bs "/b") = Some None /\ path_of ex_uri (get (bs "/b") []) (bs "/b") /\ wants_range (2 ^ 64) [] None /\
  (exists x c, get_asset_for_request 8 shared_state (bs "/b") (get_preferred_encodings isort (get (bs "/b") [])) None = Some (false, x) /\ certifies shared_state (ca_entry x) /\
   cert_from_cbor (2 ^ 64) (2 ^ 60) (ex_certificate (trip_root shared_state)) = OOk c /\
   verify_certificate (2 ^ 64) (2 ^ 60) true toy ex_ple (toy_signer (ex_state (trip_root shared_state))) c (bs "e") (ex_key x01) 1010 20 = OOk tt /\
   lookup_path (certified_data_path (bs "e")) (c_tree c) = Found (router_root_hash toy shared_state)) /\
  no_header (bs "range") (rq_headers (get (bs "/b") [])).
Proof.
  split; [exact toy_length|]. split; [exact shared_page_short|]. split; [exact shared_state_eq|]. split; [vm_compute; reflexivity|].
  split; [apply C63_request_path_exact; vm_compute; reflexivity|].
  split; [constructor|]. split; [|constructor].
  eexists _, _. split; [vm_compute; reflexivity|]. split; [vm_compute; reflexivity|]. split; [vm_compute; reflexivity|]. split; vm_compute; reflexivity.
Qed.
