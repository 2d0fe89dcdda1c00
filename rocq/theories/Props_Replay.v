(** C159: a response says the same thing whoever verifies it.
    C160: a response is accepted for the canister that certified it only. *)
From Coq Require Import List Arith NArith Lia Bool.
From Verif Require Import Bytes Text Utf8 HashTree HashTreeSpec HashTreeProofs HashTreeSpecProofs Props_HashTree Cbor Leb128 HttpTypes HttpHash HttpSpec Cel
  Wildcard V2 CertVerify CertSpec Header Base64 Verify VerifySpec Toy Props_Hash Props_Cert Props_Irrelevant Props_Verify.
Import ListNotations.
Local Open Scope N_scope.

(** An accepted response, asked about again with any other canister, key, clock, minimum version, signature
    scheme and build: the verifier looks at the version, the certificate and the canister's certified data, and at nothing else. *)
Lemma only_the_certificate umod cap ck H ple vs up uq gz df rq rs cid now off key mv i :
  verify umod cap ck H ple vs up uq gz df rq rs cid now off key mv = OOk i ->
  exists hv hd, last_header (bs "IC-Certificate") (rs_headers rs) hv /\ header_from umod cap hv = OOk hd /\ h_version hd = i_version i /\
    verify_certificate umod cap ck H ple vs (h_cert hd) cid key now off = OOk tt /\ validate_tree H cid (h_cert hd) (h_tree hd) = true /\
    forall ck' ple' vs' cid' now' off' key' mv' j,
      verify umod cap ck' H ple' vs' up uq gz df rq rs cid' now' off' key' mv' = OOk j <->
      j = i /\ mv' <= i_version i /\ verify_certificate umod cap ck' H ple' vs' (h_cert hd) cid' key' now' off' = OOk tt /\
      validate_tree H cid' (h_cert hd) (h_tree hd) = true.
Proof.
  intro E. destruct (C46_no_success_below_version _ _ _ _ _ _ _ _ _ _ _ _ _ _ _ _ _ _ E) as (L & _ & hv & hd & LH & HF & HV).
  exists hv, hd. split; [exact LH|]. split; [exact HF|]. split; [exact HV|].
  unfold verify in *. assert (X := last_header_fun _ _ _ LH). change (bs "IC-Certificate") with certificate_header_name in X. rewrite X, HF in *. cbn [out_bind] in *.
  rewrite HV in *. destruct (N.ltb_spec (i_version i) mv) as [Z|_]; [lia|].
  assert (M : forall mv' (o : out info) (P : info -> Prop), (forall j, o = OOk j <-> P j) -> forall j, (if i_version i <? mv' then OErr else o) = OOk j <-> (mv' <= i_version i /\ P j)).
  { intros mv' o P Q j. destruct (N.ltb_spec (i_version i) mv') as [Z|Z]; [split; [discriminate|intros [Z' _]; lia]|rewrite Q; tauto]. }
  destruct (i_version i =? 1).
  { unfold v1_verification in *. destruct (verify_certificate umod cap ck H ple vs (h_cert hd) cid key now off) as [[]| | |]; try discriminate. cbn [out_bind] in E.
    destruct (get_path up rq) as [path| | |]; try discriminate. cbn [out_bind] in *. destruct (decode_body gz df _ _) as [d| | |]; try discriminate. cbn [out_bind] in *.
    destruct (validate_tree H cid (h_cert hd) (h_tree hd)); [|discriminate]. cbn [negb] in E. split; [reflexivity|]. split; [reflexivity|].
    intros ck' ple' vs' cid' now' off' key' mv' j. rewrite (M mv' _ (fun j => j = i /\ verify_certificate umod cap ck' H ple' vs' (h_cert hd) cid' key' now' off' = OOk tt /\ validate_tree H cid' (h_cert hd) (h_tree hd) = true)); [tauto|].
    clear j. intro j. destruct (verify_certificate umod cap ck' H ple' vs' (h_cert hd) cid' key' now' off') as [[]| | |]; cbn [out_bind]; try (split; [discriminate|intros (_ & Z & _); discriminate]).
    destruct (validate_tree H cid' (h_cert hd) (h_tree hd)); cbn [negb]; [|split; [discriminate|intros (_ & _ & Z); discriminate]].
    rewrite E. split; [intro Z; injection Z as ->; auto|intros (-> & _); reflexivity]. }
  destruct (i_version i =? 2); [|discriminate].
  destruct (header_get (lower cert_expr_header_name) (rs_headers rs)) as [text|]; [|discriminate].
  destruct (h_expr_path hd) as [e|]; [|discriminate]. destruct (cel_of_text text) as [c|]; [|discriminate]. cbn [of_opt out_bind] in *.
  unfold v2_verification in *. destruct (get_path up rq) as [path| | |]; try discriminate. cbn [out_bind] in *.
  destruct (verify_certificate umod cap ck H ple vs (h_cert hd) cid key now off) as [[]| | |]; try discriminate. cbn [out_bind] in E.
  destruct (validate_tree H cid (h_cert hd) (h_tree hd)); [|discriminate]. cbn [negb] in E. split; [reflexivity|]. split; [reflexivity|].
  intros ck' ple' vs' cid' now' off' key' mv' j. rewrite (M mv' _ (fun j => j = i /\ verify_certificate umod cap ck' H ple' vs' (h_cert hd) cid' key' now' off' = OOk tt /\ validate_tree H cid' (h_cert hd) (h_tree hd) = true)); [tauto|].
  clear j. intro j. destruct (verify_certificate umod cap ck' H ple' vs' (h_cert hd) cid' key' now' off') as [[]| | |]; cbn [out_bind]; try (split; [discriminate|intros (_ & Z & _); discriminate]).
  destruct (validate_tree H cid' (h_cert hd) (h_tree hd)); cbn [negb]; [|split; [discriminate|intros (_ & _ & Z); discriminate]].
  rewrite E. split; [intro Z; injection Z as ->; auto|intros (-> & _); reflexivity].
Qed.

(** Two verifiers, with whatever canisters, keys, clocks, tolerances, minimum versions, signature schemes,
    and with or without overflow checks: if both accept a response for a request, they return the same. *)
Theorem C159_same_result_for_everybody :
  forall umod cap_max (H : bytes -> bytes) uri_path uri_query gunzip inflate rq rs
    checked ple vs canister_id now offset key min_version i checked' ple' vs' canister_id' now' offset' key' min_version' j,
  verify umod cap_max checked H ple vs uri_path uri_query gunzip inflate rq rs canister_id now offset key min_version = OOk i ->
  verify umod cap_max checked' H ple' vs' uri_path uri_query gunzip inflate rq rs canister_id' now' offset' key' min_version' = OOk j ->
  i = j.
Proof.
  intros umod cap H up uq gz df rq rs ck ple vs cid now off key mv i ck' ple' vs' cid' now' off' key' mv' j E1 E2.
  destruct (only_the_certificate _ _ _ _ _ _ _ _ _ _ _ _ _ _ _ _ _ _ E1) as (hv & hd & _ & _ & _ & _ & _ & X). apply X in E2. destruct E2 as (-> & _). reflexivity.
Qed.
Print Assumptions C159_same_result_for_everybody.

(** When another verifier accepts what one has accepted: its minimum version is met, the certificate is
    valid for its canister, key and clock, and shows that its canister certified the same tree. *)
Theorem C159_accepted_elsewhere_iff :
  forall umod cap_max (H : bytes -> bytes) uri_path uri_query gunzip inflate rq rs checked ple vs canister_id now offset key min_version i,
  verify umod cap_max checked H ple vs uri_path uri_query gunzip inflate rq rs canister_id now offset key min_version = OOk i ->
  exists hv hd, last_header (bs "IC-Certificate") (rs_headers rs) hv /\ header_from umod cap_max hv = OOk hd /\
  forall checked' ple' vs' canister_id' now' offset' key' min_version' j,
    verify umod cap_max checked' H ple' vs' uri_path uri_query gunzip inflate rq rs canister_id' now' offset' key' min_version' = OOk j <->
    j = i /\ min_version' <= i_version i /\
    verify_certificate umod cap_max checked' H ple' vs' (h_cert hd) canister_id' key' now' offset' = OOk tt /\
    lookup_path (certified_data_path canister_id') (c_tree (h_cert hd)) = Found (digest H (h_tree hd)).
Proof.
  intros umod cap H up uq gz df rq rs ck ple vs cid now off key mv i E.
  destruct (only_the_certificate _ _ _ _ _ _ _ _ _ _ _ _ _ _ _ _ _ _ E) as (hv & hd & A1 & A2 & _ & _ & _ & X). exists hv, hd. split; [exact A1|]. split; [exact A2|].
  intros ck' ple' vs' cid' now' off' key' mv' j. rewrite X. rewrite validate_tree_spec. tauto.
Qed.
Print Assumptions C159_accepted_elsewhere_iff.

(** A response accepted for one canister is accepted for another, at the same time and with the same key, exactly
    if its certificate shows that the other canister certified the same tree, and its delegation (if any) covers the other canister. *)
Theorem C160_for_another_canister_iff :
  forall umod cap_max checked (H : bytes -> bytes) ple vs uri_path uri_query gunzip inflate rq rs canister_id now offset key min_version i,
  verify umod cap_max checked H ple vs uri_path uri_query gunzip inflate rq rs canister_id now offset key min_version = OOk i ->
  exists hv hd, last_header (bs "IC-Certificate") (rs_headers rs) hv /\ header_from umod cap_max hv = OOk hd /\
  forall canister_id' j,
    verify umod cap_max checked H ple vs uri_path uri_query gunzip inflate rq rs canister_id' now offset key min_version = OOk j <->
    j = i /\ lookup_path (certified_data_path canister_id') (c_tree (h_cert hd)) = Found (digest H (h_tree hd)) /\
    match c_deleg (h_cert hd) with
    | None => True
    | Some d => (length canister_id' <= 29)%nat /\ exists subnet_key, delegation_valid umod cap_max H ple vs canister_id' key d subnet_key
    end.
Proof.
  intros umod cap ck H ple vs up uq gz df rq rs cid now off key mv i E.
  destruct (only_the_certificate _ _ _ _ _ _ _ _ _ _ _ _ _ _ _ _ _ _ E) as (hv & hd & A1 & A2 & _ & VC & VT & X). exists hv, hd. split; [exact A1|]. split; [exact A2|].
  intros cid' j. rewrite X. rewrite validate_tree_spec. assert (Y := proj1 (X ck ple vs cid now off key mv i) E). destruct Y as (_ & L & _).
  apply C40_accepted_iff in VC. destruct VC as [T VC]. rewrite C40_accepted_iff. destruct (c_deleg (h_cert hd)) as [d|]; [|tauto].
  destruct VC as (_ & k & DV & S). split.
  - intros (-> & _ & (_ & L' & k' & DV' & _) & V). eauto 6.
  - intros (-> & V & L' & k' & DV'). split; [reflexivity|]. split; [exact L|]. split; [|exact V]. split; [exact T|]. split; [exact L'|]. exists k'. split; [exact DV'|].
    destruct DV as (dc & e1 & r1 & l1 & h1 & B1 & _ & _ & _ & _ & _ & _ & _ & B2). destruct DV' as (dc' & e2 & r2 & l2 & h2 & B1' & _ & _ & _ & _ & _ & _ & _ & B2').
    rewrite B1 in B1'. injection B1' as <-. rewrite B2 in B2'. injection B2' as <-. exact S.
Qed.
Print Assumptions C160_for_another_canister_iff.

Lemma prunes_full H t w : prunes H t w -> full w = true -> t = w.
Proof.
  induction 1; cbn [full]; intro F; try discriminate; try reflexivity.
  - apply andb_true_iff in F. destruct F as [F1 F2]. f_equal; auto.
  - f_equal. auto.
Qed.
(** No replay: no response is accepted for two canisters that certified different trees, at whatever times. *)
Theorem C160_no_replay :
  forall umod cap_max (H : bytes -> bytes) ple vs uri_path uri_query gunzip inflate key (Root : htree -> Prop) (Sub : bytes -> htree -> Prop),
  (forall x, length (H x) = 32%nat) -> unforgeable H vs key Root Sub ->
  forall (t t' : htree) canister_id canister_id' rq rq' rs checked checked' now now' offset offset' min_version min_version' i j,
  full t = true -> full t' = true ->
  (* each canister certified its tree, and nothing else *)
  (forall St d, speaks_for umod cap_max ple Root Sub canister_id St -> at_path (certified_data_path canister_id) St (HLeaf d) -> d = digest H t) ->
  (forall St d, speaks_for umod cap_max ple Root Sub canister_id' St -> at_path (certified_data_path canister_id') St (HLeaf d) -> d = digest H t') ->
  verify umod cap_max checked H ple vs uri_path uri_query gunzip inflate rq rs canister_id now offset key min_version = OOk i ->
  verify umod cap_max checked' H ple vs uri_path uri_query gunzip inflate rq' rs canister_id' now' offset' key min_version' = OOk j ->
  exists hv hd, last_header (bs "IC-Certificate") (rs_headers rs) hv /\ header_from umod cap_max hv = OOk hd /\
  (certificate_collision umod cap_max H Root Sub (h_cert hd) \/ collision H (preimages H t) (preimages H t') \/ t = t').
Proof.
  intros umod cap H ple vs up uq gz df key Root Sub HL U t t' cid cid' rq rq' rs ck ck' now now' off off' mv mv' i j F F' CD CD' E1 E2.
  destruct (only_the_certificate _ _ _ _ _ _ _ _ _ _ _ _ _ _ _ _ _ _ E1) as (hv & hd & A1 & A2 & _ & VC & VT & _).
  destruct (only_the_certificate _ _ _ _ _ _ _ _ _ _ _ _ _ _ _ _ _ _ E2) as (hv' & hd' & A1' & A2' & _ & VC' & VT' & _).
  assert (Q := last_header_fun _ _ _ A1). rewrite (last_header_fun _ _ _ A1') in Q. injection Q as ->. rewrite A2 in A2'. injection A2' as <-.
  exists hv, hd. split; [exact A1|]. split; [exact A2|]. apply validate_tree_spec in VT, VT'.
  destruct (certified_state umod cap ck H ple vs key Root Sub (h_cert hd) cid now off _ HL U (proj1 (header_hashes32 _ _ _ _ A2)) VC VT) as [C|(St & S & A)]; [left; exact C|].
  destruct (certified_state umod cap ck' H ple vs key Root Sub (h_cert hd) cid' now' off' _ HL U (proj1 (header_hashes32 _ _ _ _ A2)) VC' VT') as [C|(St' & S' & A')]; [left; exact C|]. right.
  assert (D := CD St _ S A). assert (D' := CD' St' _ S' A'). rewrite D in D'. clear - HL F F' D'.
  destruct (C02_full_tree_determines_witness H HL t t' F (full_hashes32 t' F') D') as [P|C]; [|left; exact C]. right. exact (prunes_full H t t' P F').
Qed.
Print Assumptions C160_no_replay.

(** Three canisters: "e" and "f" certified the same tree, "g" another one. *)
Definition skip_tree : htree := HLabeled (bs "http_expr") (HLabeled (bs "<*>") (HLabeled (toy (print_cel CelSkip)) (HLeaf []))).
Definition other_tree : htree := HLabeled (bs "http_expr") (HLeaf (bs "else")).
Definition three_state : htree :=
  HFork (HLabeled (bs "canister") (HFork (HLabeled (bs "e") (HLabeled (bs "certified_data") (HLeaf (digest toy skip_tree))))
           (HFork (HLabeled (bs "f") (HLabeled (bs "certified_data") (HLeaf (digest toy skip_tree))))
                  (HLabeled (bs "g") (HLabeled (bs "certified_data") (HLeaf (digest toy other_tree)))))))
        (HLabeled (bs "time") (HLeaf (leb_enc 1000))).
Definition three_rs (state : htree) : response := mk_response 200 [(bs "IC-CertificateExpression", print_cel CelSkip);
  (bs "IC-Certificate", v2_certificate_header (enc_cert (mk_cert state (bs "sig") None)) skip_tree [bs "http_expr"; bs "<*>"])] [].
Definition three_verify (canister_id : bytes) (now offset min_version : N) : out info :=
  verify (2 ^ 64) (2 ^ 60) true toy ex_ple (toy_signer three_state) ex_uri ex_query ex_none ex_none ex_rq (three_rs three_state) canister_id now offset (ex_key x01) min_version.
(** The hypotheses of the theorems are met, and each disjunct of C160 is needed: twins are interchangeable. *)
Example C160_hypotheses :
  full skip_tree = true /\ full other_tree = true /\ full three_state = true /\ skip_tree <> other_tree /\
  three_verify (bs "e") 1010 20 0 = OOk (mk_info None 2) /\ three_verify (bs "f") 990 15 2 = OOk (mk_info None 2) /\ three_verify (bs "g") 1010 20 0 = OErr.
Proof.
  do 3 (split; [vm_compute; reflexivity|]). split. { intro E. unfold skip_tree, other_tree in E. injection E as E. discriminate E. }
  split; [vm_compute; reflexivity|]. split; vm_compute; reflexivity.
Qed.
Lemma three_wf : wf three_state /\ full three_state = true.
Proof.
  split; [|vm_compute; reflexivity]. unfold three_state. generalize (leb_enc 1000) (digest toy skip_tree) (digest toy other_tree). intros u v w. cbn. repeat split;
    repeat match goal with |- forall a b, _ -> _ -> _ => intros a b X Y | H : _ \/ _ |- _ => destruct H as [H|H] | H : False |- _ => destruct H end; subst; vm_compute; reflexivity.
Qed.
Example C160_signer : unforgeable toy (toy_signer three_state) (ex_key x01) (fun t => t = three_state) (fun _ _ => False).
Proof.
  split; [|split; [|split]].
  - intros t ->. apply three_wf.
  - intros s t [].
  - intros pk sig m D V. apply ex_der in D. subst pk. unfold toy_signer in V. rewrite bytes_eqb_refl in V. cbn [andb] in V. apply bytes_eqb_eq in V. eauto.
  - intros r s k pk sig m -> A D V. exfalso. unfold three_state, subnet_path in A. revert A. generalize (leb_enc 1000) (digest toy skip_tree) (digest toy other_tree). intros u v w A.
    inversion A as [|k0 p t0 c0 s0 Ch A1]; subst. inversion Ch as [|k0 l r0 t1 Ch1|k0 l r0 t1 Ch1]; subst; inversion Ch1.
Qed.
Example C160_certified_nothing_else (St : htree) (d : bytes) :
  speaks_for (2 ^ 64) (2 ^ 60) ex_ple (fun t => t = three_state) (fun _ _ => False) (bs "g") St ->
  at_path (certified_data_path (bs "g")) St (HLeaf d) -> d = digest toy other_tree.
Proof.
  intros [->|(r & s & e & l & lo & hi & _ & _ & _ & _ & _ & _ & [])] A. apply lookup_path_at_iff in A; [|apply three_wf].
  assert (B : lookup_path (certified_data_path (bs "g")) three_state = Found (digest toy other_tree)) by (vm_compute; reflexivity). rewrite B in A. injection A as <-. reflexivity.
Qed.
