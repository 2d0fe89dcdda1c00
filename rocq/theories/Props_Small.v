(** C105 (skip-certification example), C106 (upgrade-to-update-call example). *)
From Coq Require Import List NArith Bool Lia.
From Verif Require Import Bytes HashTree HashTreeSpec HttpTypes HttpHash HttpSpec Cbor Cel Header HeaderSpec CertVerify CertSpec Verify VerifySpec HttpTree AssetRouter HttpBuild JsonSpec CustomSpec SmallExamples.
From Verif Require Import Toy Props_Cert Props_Verify Props_HttpTree Props_Json Props_JsonEx Props_Trip Props_Roundtrip Props_SkipEx.
Import ListNotations.
Local Open Scope N_scope.

(** the page the canister serves: the time, with security headers, before the two headers for skipping *)
Definition time_page (time : N) : response :=
  mk_response 200 (security_headers ++ [(bs "content-length", dec (N.of_nat (length (clock_text time)))); (bs "content-type", bs "text/html")]) (clock_text time).
(** [rs] with a certificate header and the CEL expression that skips certification *)
Definition with_skip (rs : response) (hv : bytes) : response :=
  mk_response (rs_status rs) (rs_headers rs ++ [(bs "IC-Certificate", hv); (bs "IC-CertificateExpression", bs "default_certification(ValidationArgs{no_certification:Empty{}})")]) (rs_body rs).

(** C105: whatever is asked, the canister answers with the time, and the verifier accepts the answer without vouching for it. *)
Theorem C105_skip_example_is_accepted :
  forall (umod cap_max : N) (checked : bool) (H : bytes -> bytes) ple vs uri_path uri_query gunzip inflate
         rq path dc time canister_id now offset key min_version,
  (forall x, length (H x) = 32%nat) -> 32 < umod <= 2 ^ 64 -> min_version <= 2 -> path_of uri_path rq path ->
  certifies_data umod cap_max checked H ple vs dc canister_id key now offset (skip_init H) ->
  exists rs hv, skip_http_request H (Some dc) time = Some rs /\ rs = with_skip (time_page time) hv /\
    verify umod cap_max checked H ple vs uri_path uri_query gunzip inflate rq rs canister_id now offset key min_version = OOk (mk_info None 2).
Proof.
  intros umod cap ck H ple vs up uq gz df rq path dc time cid now off key mv HL UM MV P (c & x & Ec & Vc & Ed & Lc).
  injection Ed as <-. eexists. eexists. split; [reflexivity|]. split.
  - unfold with_skip, time_page. unfold add_skip_certification_header, add_v2_certificate_header, add_header. cbn [rs_headers rs_status rs_body].
    rewrite <- app_assoc. reflexivity.
  - eapply C55_skip_response_is_accepted; eassumption.
Qed.
Print Assumptions C105_skip_example_is_accepted.
(** C105: and no response, whoever makes it, is vouched for in the name of this canister. *)
Theorem C105_skip_example_vouches_for_nothing :
  forall umod cap_max checked (H : bytes -> bytes) ple vs uri_path uri_query gunzip inflate key (Root : htree -> Prop) (Sub : bytes -> htree -> Prop),
  (forall x, length (H x) = 32%nat) -> unforgeable H vs key Root Sub ->
  forall rq rs canister_id now offset min_version i,
  (forall St d, speaks_for umod cap_max ple Root Sub canister_id St -> at_path (certified_data_path canister_id) St (HLeaf d) -> skip_init H = Some d) ->
  verify umod cap_max checked H ple vs uri_path uri_query gunzip inflate rq rs canister_id now offset key min_version = OOk i ->
  i_response i = None \/
  exists hv hd, last_header (bs "IC-Certificate") (rs_headers rs) hv /\ header_from umod cap_max hv = OOk hd /\
    (certificate_collision umod cap_max H Root Sub (h_cert hd) \/ collision H (preimages H (skip_tree H)) (preimages H (h_tree hd))).
Proof.
  intros umod cap ck H ple vs up uq gz df key Root Sub HL UF rq rs cid now off mv i CD V.
  eapply C55_skip_never_shows_content; try eassumption. intros St d Sp A. specialize (CD St d Sp A). injection CD as <-. reflexivity.
Qed.
Print Assumptions C105_skip_example_vouches_for_nothing.
(** C105: outside a query, without a data certificate, the canister traps: it answers exactly when it has one. *)
Theorem C105_skip_example_answers_queries_only :
  forall (H : bytes -> bytes) (data_certificate : option bytes) (time : N),
  (exists rs, skip_http_request H data_certificate time = Some rs) <-> data_certificate <> None.
Proof.
  intros H [dc|] time; cbn [skip_http_request]; split; intro X.
  - discriminate.
  - eexists. reflexivity.
  - destruct X as [rs X]. discriminate X.
  - congruence.
Qed.
Print Assumptions C105_skip_example_answers_queries_only.

(** C106: the query answer asks for an update call and carries nothing; no verifier accepts it as it is;
    the update call answers with the teapot. *)
Theorem C106_upgrade_example :
  hs_upgrade upgrade_http_request = Some true /\ hs_headers upgrade_http_request = [] /\ hs_body upgrade_http_request = [] /\
  (forall umod cap_max checked (H : bytes -> bytes) ple vs uri_path uri_query gunzip inflate rq canister_id now offset key min_version i,
   verify umod cap_max checked H ple vs uri_path uri_query gunzip inflate rq (response_of upgrade_http_request) canister_id now offset key min_version <> OOk i) /\
  upgrade_http_request_update = mk_http_update_response 418 [] (bs "I'm a teapot").
Proof.
  split; [reflexivity|]. split; [reflexivity|]. split; [reflexivity|]. split; [|reflexivity].
  intros until i. intro V. destruct (C46_no_success_below_version _ _ _ _ _ _ _ _ _ _ _ _ _ _ _ _ _ _ V) as (_ & _ & hv & hd & (a & n & b & E & _) & _).
  destruct a; discriminate E.
Qed.
Print Assumptions C106_upgrade_example.

(** the hypotheses of C105 can be met *)
Definition small_data : bytes := Eval vm_compute in skip_certified_data toy.
Lemma small_init : skip_init toy = Some small_data. Proof. vm_compute. reflexivity. Qed.
Example C105_hypotheses :
  path_of ex_uri (mk_request (bs "POST") (bs "/any?x=1") [] (bs "b")) (bs "/any") /\
  certifies_data (2 ^ 64) (2 ^ 60) true toy ex_ple (toy_signer (ex_state small_data)) (ex_certificate small_data) (bs "e") (ex_key x01) 1010 20 (skip_init toy) /\
  unforgeable toy (toy_signer (ex_state small_data)) (ex_key x01) (fun t => t = ex_state small_data) (fun _ _ => False) /\
  (forall St d, speaks_for (2 ^ 64) (2 ^ 60) ex_ple (fun t => t = ex_state small_data) (fun _ _ => False) (bs "e") St ->
     at_path (certified_data_path (bs "e")) St (HLeaf d) -> skip_init toy = Some d).
Proof.
  split; [apply path_by_run; vm_compute; reflexivity|].
  split; [rewrite small_init; eexists _, small_data; split; [vm_compute; reflexivity|]; split; [vm_compute; reflexivity|]; split; [reflexivity|vm_compute; reflexivity]|].
  split; [apply toy_signer_unforgeable|]. intros St x S A. rewrite (ex_speaks small_data St x S A). exact small_init.
Qed.
