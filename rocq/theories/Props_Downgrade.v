(** C155: the version a response is accepted with. *)
From Coq Require Import List Arith NArith Lia Bool.
From Verif Require Import Bytes Text Utf8 HashTree HashTreeSpec HashTreeProofs HashTreeSpecProofs Props_HashTree Cbor HttpTypes HttpHash HttpSpec Cel
  Wildcard WildcardSpec WildcardProofs V2 CertVerify Base64 Header Verify VerifySpec Toy Props_Hash Props_Wildcard Props_Cert Props_Verify.
Import ListNotations.
Local Open Scope N_scope.

(** The minimum only filters: a higher one never changes what is returned, and
    refuses exactly the responses with a lower version. *)
Theorem C155_minimum_only_filters :
  forall umod cap_max checked (H : bytes -> bytes) ple vs uri_path uri_query gunzip inflate rq rs canister_id now offset key min_version i,
  verify umod cap_max checked H ple vs uri_path uri_query gunzip inflate rq rs canister_id now offset key min_version = OOk i <->
  verify umod cap_max checked H ple vs uri_path uri_query gunzip inflate rq rs canister_id now offset key 0 = OOk i /\ min_version <= i_version i.
Proof.
  intros umod cap ck H ple vs up uq gz df rq rs cid now off key mv i.
  assert (V : forall m, verify umod cap ck H ple vs up uq gz df rq rs cid now off key m = OOk i ->
    m <= i_version i /\ forall m', m' <= i_version i -> verify umod cap ck H ple vs up uq gz df rq rs cid now off key m' = OOk i).
  { intros m E. destruct (C46_no_success_below_version _ _ _ _ _ _ _ _ _ _ _ _ _ _ _ _ _ _ E) as (L & _ & hv & hd & LH & HF & HV).
    split; [exact L|]. intros m' L'. unfold verify in *. assert (X := last_header_fun _ _ _ LH). change (bs "IC-Certificate") with certificate_header_name in X. rewrite X, HF in *. cbn [out_bind] in *.
    rewrite HV in *. destruct (N.ltb_spec (i_version i) m) as [Z|_]; [lia|]. destruct (N.ltb_spec (i_version i) m') as [Z|_]; [lia|]. exact E. }
  split.
  - intro E. destruct (V _ E) as [A B]. split; [apply B; lia|exact A].
  - intros [E L]. apply (V _ E). exact L.
Qed.
Print Assumptions C155_minimum_only_filters.

Lemma at_first a p t s : at_path (a :: p) t s -> exists u, at_path [a] t u.
Proof. intro A. inversion A as [|? ? ? c ? Ch A']; subst. exists c. eapply AtCons; [exact Ch|constructor]. Qed.
Lemma accepted_first e path w : validate_expr_path e path w = true -> exists r, e = bs "http_expr" :: r.
Proof.
  unfold validate_expr_path. destruct (first_is e path_prefix) eqn:FI; [|discriminate]. intros _.
  destruct e as [|a e]; [discriminate FI|]. cbn [first_is] in FI. apply bytes_eqb_eq in FI. subst a. exists e. reflexivity.
Qed.

(** No downgrade, no upgrade: whatever minimum was asked for, the version is one
    the canister's tree was built for.  A canister whose tree has no part for
    version 1 has no response accepted with version 1, and likewise for version 2. *)
Theorem C155_version_is_one_of_the_tree :
  forall umod cap_max checked (H : bytes -> bytes) ple vs uri_path uri_query gunzip inflate key (Root : htree -> Prop) (Sub : bytes -> htree -> Prop),
  (forall x, length (H x) = 32%nat) -> unforgeable H vs key Root Sub ->
  forall (t : htree) rq rs canister_id now offset min_version i,
  wf t -> full t = true ->
  (* the canister certified this tree, and nothing else *)
  (forall St d, speaks_for umod cap_max ple Root Sub canister_id St -> at_path (certified_data_path canister_id) St (HLeaf d) -> d = digest H t) ->
  verify umod cap_max checked H ple vs uri_path uri_query gunzip inflate rq rs canister_id now offset key min_version = OOk i ->
  exists hv hd, last_header (bs "IC-Certificate") (rs_headers rs) hv /\ header_from umod cap_max hv = OOk hd /\
  (certificate_collision umod cap_max H Root Sub (h_cert hd) \/
   collision H (preimages H t) (preimages H (h_tree hd)) \/
   i_version i = 1 /\ (exists s, at_path [bs "http_assets"] t s) \/
   i_version i = 2 /\ (exists s, at_path [bs "http_expr"] t s)).
Proof.
  intros umod cap ck H ple vs up uq gz df key Root Sub HL U t rq rs cid now off mv i W F CD E.
  destruct (C46_no_success_below_version _ _ _ _ _ _ _ _ _ _ _ _ _ _ _ _ _ _ E) as (_ & [V|V] & _).
  - destruct (C49_v1_soundness umod cap ck H ple vs up uq gz df key Root Sub HL U rq rs cid now off mv i E V) as (_ & hv & hd & path & enc & d & A1 & A2 & _ & _ & _ & A6).
    exists hv, hd. split; [exact A1|]. split; [exact A2|]. destruct A6 as [C|(St & data & S & A & X)]; [left; exact C|]. right.
    rewrite (CD St data S A) in *. destruct (X t W F eq_refl) as [C|(v & _ & [Y|(Y & _)])]; [left; exact C|right; left|right; left]; (split; [exact V|]); exact (at_first _ _ _ _ Y).
  - destruct (proj1 (verify_v2_spec umod cap ck H ple vs up uq gz df rq rs cid now off key mv i) (conj E V)) as (hv & hd & expr & e & c & A1 & A2 & A3 & A4 & A5 & A6 & A7 & A8).
    apply (v2_spec umod cap ck H ple vs up uq rq rs cid now off _ _ _ (H expr) expr key i eq_refl) in A8.
    destruct A8 as ((path & GP & VP) & VC & VT & SE & _). apply validate_tree_spec in VT.
    exists hv, hd. split; [exact A1|]. split; [exact A2|].
    destruct (certified_state umod cap ck H ple vs key Root Sub (h_cert hd) cid now off _ HL U (proj1 (header_hashes32 _ _ _ _ A2)) VC VT) as [C|(St & S & A)]; [left; exact C|]. right.
    assert (D := CD St _ S A).
    destruct (C02_full_tree_determines_witness H HL t (h_tree hd) F (proj2 (header_hashes32 _ _ _ _ A2)) (eq_sym D)) as [P|C]; [|left; exact C]. right. right. split; [exact V|].
    assert (CE := shown_certified H uq t _ e expr c rq rs W F P SE). destruct (accepted_first _ _ _ VP) as (r & ->).
    destruct c as [|rc|qc rc]; [destruct CE as (s & CE)| |destruct CE as (h & _ & CE)]; exact (at_first _ _ _ _ CE).
Qed.
Print Assumptions C155_version_is_one_of_the_tree.

(** With version 1 nothing but the body is checked: the same result for any
    status, any other headers, and any method, headers and body of the request. *)
Theorem C155_version_1_checks_the_body_only :
  forall umod cap_max checked (H : bytes -> bytes) ple vs uri_path uri_query gunzip inflate rq rq' rs rs' canister_id now offset key min_version i,
  verify umod cap_max checked H ple vs uri_path uri_query gunzip inflate rq rs canister_id now offset key min_version = OOk i -> i_version i = 1 ->
  rs_body rs' = rs_body rs -> (forall path, path_of uri_path rq path -> path_of uri_path rq' path) ->
  (forall v, last_header (bs "IC-Certificate") (rs_headers rs) v -> last_header (bs "IC-Certificate") (rs_headers rs') v) ->
  (forall o, encoding_of (rs_headers rs) o -> encoding_of (rs_headers rs') o) ->
  verify umod cap_max checked H ple vs uri_path uri_query gunzip inflate rq' rs' canister_id now offset key min_version = OOk i.
Proof.
  intros umod cap ck H ple vs up uq gz df rq rq' rs rs' cid now off key mv i E V B P C O.
  destruct (proj1 (C49_v1_accepted_iff umod cap ck H ple vs up uq gz df rq rs cid now off key mv i) (conj E V)) as (hv & hd & path & enc & d & A1 & A2 & A3 & A4 & A5 & A6 & A7 & A8 & A9 & SB & I).
  apply (proj2 (C49_v1_accepted_iff umod cap ck H ple vs up uq gz df rq' rs' cid now off key mv i)). exists hv, hd, path, enc, d. rewrite B.
  split; [exact (C _ A1)|]. split; [exact A2|]. split; [exact A3|]. split; [exact A4|]. split; [exact (P _ A5)|]. split; [exact (O _ A6)|]. do 3 (split; [assumption|]). split; [exact SB|exact I].
Qed.
Print Assumptions C155_version_1_checks_the_body_only.

(** A canister that certifies the same body for both versions, with version 2 as part of a response with status 200. *)
Definition both_tree : htree :=
  HFork (HLabeled (bs "http_assets") (HLabeled (bs "/a") (HLeaf (toy (bs "body")))))
    match request_hash toy ex_query ex_rq (mk_request_cert [bs "host"] [bs "q"]) with
    | Some h => HLabeled (bs "http_expr") (HLabeled (bs "a") (HLabeled (bs "<$>") (HLabeled (toy (print_cel ex_cel)) (HLabeled h
        (HLabeled (response_hash toy (ex_rs []) (CertifiedHeaders [bs "Content-Type"]) None) (HLeaf []))))))
    | None => HEmpty
    end.
Definition both_certificate : bytes := ex_certificate (digest toy both_tree).
Definition both_verify (rq : request) (rs : response) (min_version : N) : out info :=
  verify (2 ^ 64) (2 ^ 60) true toy ex_ple (toy_signer (ex_state (digest toy both_tree))) ex_uri ex_query ex_none ex_none rq rs (bs "e") 1010 20 (ex_key x01) min_version.
Definition v2_header : bytes := v2_certificate_header both_certificate both_tree [bs "http_expr"; bs "a"; bs "<$>"].
Definition v1_header : bytes := bs "certificate=:" ++ b64_enc true both_certificate ++ bs ":, tree=:" ++ b64_enc true (self_describe ++ enc_tree both_tree) ++ bs ":".
(** The same body with a header of the other version: status and headers are not
    those certified, the request is not the one certified; it is accepted unless
    the caller asks for version 2. *)
Theorem C155_downgrade_of_trees_with_both_parts_refuted :
  let served := ex_rs [(bs "IC-Certificate", v2_header)] in
  let forged := mk_response 500 [(bs "content-type", bs "evil"); (bs "IC-Certificate", v1_header)] (bs "body") in
  let other := mk_request (bs "POST") (bs "/a") [] (bs "anything") in
  wf both_tree /\ full both_tree = true /\
  unforgeable toy (toy_signer (ex_state (digest toy both_tree))) (ex_key x01) (fun t => t = ex_state (digest toy both_tree)) (fun _ _ => False) /\
  (exists i, both_verify ex_rq served 1 = OOk i /\ i_version i = 2) /\
  both_verify other served 1 = OErr /\
  both_verify other forged 1 = OOk (mk_info (Some (mk_verified None [] (bs "body"))) 1) /\
  both_verify other forged 2 = OErr.
Proof.
  cbv zeta. split.
  { unfold both_tree. generalize (toy (bs "body")). destruct (request_hash toy ex_query ex_rq (mk_request_cert [bs "host"] [bs "q"])) as [h|] eqn:E; [|vm_compute in E; discriminate E].
    generalize (toy (print_cel ex_cel)) (response_hash toy (ex_rs []) (CertifiedHeaders [bs "Content-Type"]) None). intros u v w. cbn. repeat split. intros a b [<-|[]] [<-|[]]. vm_compute. reflexivity. }
  split; [vm_compute; reflexivity|]. split; [apply toy_signer_unforgeable|]. split.
  { eexists. split; [vm_compute; reflexivity|reflexivity]. }
  split; [vm_compute; reflexivity|]. split; vm_compute; reflexivity.
Qed.
Print Assumptions C155_downgrade_of_trees_with_both_parts_refuted.
(** The hypotheses of the second theorem are met, by a tree with the part for version 2 only. *)
Example C155_hypotheses : exists t, wf t /\ full t = true /\ (forall s, ~ at_path [bs "http_assets"] t s) /\
  unforgeable toy (toy_signer (ex_state (digest toy t))) (ex_key x01) (fun x => x = ex_state (digest toy t)) (fun _ _ => False) /\
  verify (2 ^ 64) (2 ^ 60) true toy ex_ple (toy_signer (ex_state (digest toy t))) ex_uri ex_query ex_none ex_none
    ex_rq (mk_response 200 [(bs "IC-CertificateExpression", print_cel CelSkip);
       (bs "IC-Certificate", v2_certificate_header (ex_certificate (digest toy t)) t [bs "http_expr"; bs "<*>"])] []) (bs "e") 1010 20 (ex_key x01) 0 = OOk (mk_info None 2).
Proof.
  exists (HLabeled (bs "http_expr") (HLabeled (bs "<*>") (HLabeled (toy (print_cel CelSkip)) (HLeaf [])))).
  split; [cbn; auto|]. split; [reflexivity|]. split.
  { intros s A. inversion A as [|? ? ? c ? Ch A']; subst. inversion Ch. }
  split; [apply toy_signer_unforgeable|]. vm_compute. reflexivity.
Qed.
