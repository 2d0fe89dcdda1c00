(** C158: a response is accepted at the time it was certified, and the clock decides nothing else. *)
From Coq Require Import List Arith NArith Lia Bool.
From Verif Require Import Bytes Text Utf8 HashTree HashTreeSpec Cbor Leb128 HttpTypes HttpHash HttpSpec Cel Wildcard V2 CertVerify CertSpec Header
  Base64 Verify VerifySpec Toy Props_Cert Props_Hash Props_Irrelevant Props_Verify.
Import ListNotations.
Local Open Scope N_scope.

(** The moment a response was certified: the time in the certificate of its IC-Certificate header. *)
Definition certified_at (umod cap_max : N) (rs : response) (t : N) : Prop :=
  exists hv hd enc rest, last_header (bs "IC-Certificate") (rs_headers rs) hv /\ header_from umod cap_max hv = OOk hd /\
    lookup_path [bs "time"] (c_tree (h_cert hd)) = Found enc /\ leb_read enc = Some (t, rest).

Lemma certificate_clock umod cap ck H ple vs c cid key now off now' off' :
  verify_certificate umod cap ck H ple vs c cid key now off = OOk tt ->
  verify_certificate_time ck c now off = OOk tt /\
  verify_certificate umod cap ck H ple vs c cid key now' off' = verify_certificate_time ck c now' off'.
Proof.
  unfold verify_certificate. intro E. destruct (verify_certificate_time ck c now off) as [[]| | |]; try discriminate. split; [reflexivity|]. cbn [out_bind] in E.
  destruct (verify_certificate_time ck c now' off') as [[]| | |]; cbn [out_bind]; [exact E|reflexivity..].
Qed.
Lemma only_the_clock umod cap ck H ple vs up uq gz df rq rs cid now off key mv i :
  verify umod cap ck H ple vs up uq gz df rq rs cid now off key mv = OOk i ->
  exists hv hd, last_header (bs "IC-Certificate") (rs_headers rs) hv /\ header_from umod cap hv = OOk hd /\
    verify_certificate_time ck (h_cert hd) now off = OOk tt /\
    forall now' off', verify umod cap ck H ple vs up uq gz df rq rs cid now' off' key mv = (ok _ <- verify_certificate_time ck (h_cert hd) now' off'; OOk i).
Proof.
  intro E. unfold verify in *. assert (G := header_get_spec certificate_header_name (rs_headers rs)).
  destruct (header_get (lower certificate_header_name) (rs_headers rs)) as [hv|]; [|discriminate].
  destruct (header_from umod cap hv) as [hd| | |] eqn:HF; try discriminate. cbn [out_bind] in *. exists hv, hd. split; [exact G|]. split; [exact HF|].
  destruct (h_version hd <? mv); [discriminate|].
  destruct (h_version hd =? 1).
  { unfold v1_verification in *. destruct (verify_certificate umod cap ck H ple vs (h_cert hd) cid key now off) as [[]| | |] eqn:V; try discriminate. cbn [out_bind] in E.
    split; [exact (proj1 (certificate_clock _ _ _ _ _ _ _ _ _ _ _ 0 0 V))|]. intros now' off'. rewrite (proj2 (certificate_clock _ _ _ _ _ _ _ _ _ _ _ now' off' V)).
    destruct (verify_certificate_time ck (h_cert hd) now' off'); cbn [out_bind]; [exact E|reflexivity..]. }
  destruct (h_version hd =? 2); [|discriminate].
  destruct (header_get (lower cert_expr_header_name) (rs_headers rs)) as [text|]; [|discriminate].
  destruct (h_expr_path hd) as [e|]; [|discriminate]. destruct (cel_of_text text) as [c|]; [|discriminate]. cbn [of_opt out_bind] in *.
  unfold v2_verification in *. destruct (get_path up rq) as [path| | |]; try discriminate. cbn [out_bind] in *.
  destruct (verify_certificate umod cap ck H ple vs (h_cert hd) cid key now off) as [[]| | |] eqn:V; try discriminate. cbn [out_bind] in E.
  split; [exact (proj1 (certificate_clock _ _ _ _ _ _ _ _ _ _ _ 0 0 V))|]. intros now' off'. rewrite (proj2 (certificate_clock _ _ _ _ _ _ _ _ _ _ _ now' off' V)).
  destruct (verify_certificate_time ck (h_cert hd) now' off'); cbn [out_bind]; [exact E|reflexivity..].
Qed.

(** Once accepted at some clock and tolerance, a response is accepted at exactly the
    clocks within the tolerance of the moment it was certified, always with the same result; at
    others it is refused. *)
Theorem C158_one_moment :
  forall umod cap_max checked (H : bytes -> bytes) ple vs uri_path uri_query gunzip inflate rq rs canister_id now offset key min_version i,
  offset <= now -> now + offset < 2 ^ 128 ->
  verify umod cap_max checked H ple vs uri_path uri_query gunzip inflate rq rs canister_id now offset key min_version = OOk i ->
  exists t, certified_at umod cap_max rs t /\
  forall now' offset', offset' <= now' -> now' + offset' < 2 ^ 128 ->
    let v := verify umod cap_max checked H ple vs uri_path uri_query gunzip inflate rq rs canister_id now' offset' key min_version in
    (now' - offset' <= t <= now' + offset' /\ v = OOk i) \/ (~ now' - offset' <= t <= now' + offset' /\ v = OErr).
Proof.
  intros umod cap ck H ple vs up uq gz df rq rs cid now off key mv i O1 O2 E. destruct (only_the_clock _ _ _ _ _ _ _ _ _ _ _ _ _ _ _ _ _ _ E) as (hv & hd & A1 & A2 & T & R).
  assert (L1 : now < 2 ^ 128) by lia. assert (L2 : off < 2 ^ 128) by lia.
  destruct (C38_time_window_sound ck (h_cert hd) now off L1 L2 T) as (enc & t & rest & L & D & _). exists t. split; [exists hv, hd, enc, rest; auto|].
  intros now' off' P1 P2 v. unfold v. rewrite R. assert (X := C38_time_window_exact ck (h_cert hd) now' off' enc t rest P2 P1 L D).
  destruct (C39_time_check_total_partial ck (h_cert hd) now' off' P2 P1) as [Y|Y]; rewrite Y; cbn [out_bind]; [left|right]; (split; [|reflexivity]).
  - apply X. exact Y.
  - intro Z. apply X in Z. rewrite Z in Y. discriminate Y.
Qed.
Print Assumptions C158_one_moment.

(** Larger tolerances accept no less. *)
Theorem C158_larger_tolerance_accepts_no_less :
  forall umod cap_max checked (H : bytes -> bytes) ple vs uri_path uri_query gunzip inflate rq rs canister_id now offset offset' key min_version i,
  offset <= offset' -> offset' <= now -> now + offset' < 2 ^ 128 ->
  verify umod cap_max checked H ple vs uri_path uri_query gunzip inflate rq rs canister_id now offset key min_version = OOk i ->
  verify umod cap_max checked H ple vs uri_path uri_query gunzip inflate rq rs canister_id now offset' key min_version = OOk i.
Proof.
  intros umod cap ck H ple vs up uq gz df rq rs cid now off off' key mv i L O1 O2 E. assert (P1 : off <= now) by lia. assert (P2 : now + off < 2 ^ 128) by lia.
  destruct (C158_one_moment _ _ _ _ _ _ _ _ _ _ _ _ _ _ _ _ _ _ P1 P2 E) as (t & _ & X). cbv zeta in X.
  destruct (X now off' O1 O2) as [[_ Y]|[N _]]; [exact Y|]. exfalso. apply N.
  destruct (X now off P1 P2) as [[Z _]|[_ Z]]; [lia|rewrite E in Z; discriminate Z].
Qed.
Print Assumptions C158_larger_tolerance_accepts_no_less.

(** What is accepted at two clocks is accepted at every clock between, with the same result. *)
Theorem C158_accepted_between :
  forall umod cap_max checked (H : bytes -> bytes) ple vs uri_path uri_query gunzip inflate rq rs canister_id n1 n n2 offset key min_version i j,
  offset <= n1 -> n1 <= n -> n <= n2 -> n2 + offset < 2 ^ 128 ->
  verify umod cap_max checked H ple vs uri_path uri_query gunzip inflate rq rs canister_id n1 offset key min_version = OOk i ->
  verify umod cap_max checked H ple vs uri_path uri_query gunzip inflate rq rs canister_id n2 offset key min_version = OOk j ->
  i = j /\ verify umod cap_max checked H ple vs uri_path uri_query gunzip inflate rq rs canister_id n offset key min_version = OOk i.
Proof.
  intros umod cap ck H ple vs up uq gz df rq rs cid n1 n n2 off key mv i j O A B O2 E1 E2. assert (P2 : n1 + off < 2 ^ 128) by lia.
  destruct (C158_one_moment _ _ _ _ _ _ _ _ _ _ _ _ _ _ _ _ _ _ O P2 E1) as (t & _ & X). cbv zeta in X.
  destruct (X n1 off O P2) as [[Z1 _]|[_ Z]]; [|rewrite E1 in Z; discriminate Z].
  assert (Q1 : off <= n2) by lia. destruct (X n2 off Q1 O2) as [[Z2 Y]|[_ Z]]; [|rewrite E2 in Z; discriminate Z].
  rewrite E2 in Y. injection Y as ->. split; [reflexivity|].
  assert (Q3 : off <= n) by lia. assert (Q4 : n + off < 2 ^ 128) by lia. destruct (X n off Q3 Q4) as [[_ Y]|[N _]]; [exact Y|]. exfalso. apply N. lia.
Qed.
Print Assumptions C158_accepted_between.

(** What has expired stays expired. *)
Theorem C158_expired_stays_expired :
  forall umod cap_max checked (H : bytes -> bytes) ple vs uri_path uri_query gunzip inflate rq rs canister_id now later even_later offset key min_version i,
  offset <= now -> now <= later -> later <= even_later -> even_later + offset < 2 ^ 128 ->
  verify umod cap_max checked H ple vs uri_path uri_query gunzip inflate rq rs canister_id now offset key min_version = OOk i ->
  verify umod cap_max checked H ple vs uri_path uri_query gunzip inflate rq rs canister_id later offset key min_version = OErr ->
  verify umod cap_max checked H ple vs uri_path uri_query gunzip inflate rq rs canister_id even_later offset key min_version = OErr.
Proof.
  intros umod cap ck H ple vs up uq gz df rq rs cid n1 n n2 off key mv i O A B O2 E1 E2. assert (P2 : n1 + off < 2 ^ 128) by lia.
  destruct (C158_one_moment _ _ _ _ _ _ _ _ _ _ _ _ _ _ _ _ _ _ O P2 E1) as (t & _ & X). cbv zeta in X.
  destruct (X n1 off O P2) as [[Z1 _]|[_ Z]]; [|rewrite E1 in Z; discriminate Z].
  assert (Q3 : off <= n) by lia. assert (Q4 : n + off < 2 ^ 128) by lia. destruct (X n off Q3 Q4) as [[_ Y]|[N _]]; [rewrite E2 in Y; discriminate Y|].
  assert (Q1 : off <= n2) by lia. destruct (X n2 off Q1 O2) as [[Z2 _]|[_ Y]]; [|exact Y]. exfalso. apply N. lia.
Qed.
Print Assumptions C158_expired_stays_expired.

(** The bound is needed: a tolerance larger than the clock accepts less (and panics with overflow checks). *)
Definition moment_tree : htree := HLabeled (bs "http_expr") (HLabeled (bs "<*>") (HLabeled (toy (print_cel CelSkip)) (HLeaf []))).
Definition moment_rs : response := mk_response 200 [(bs "IC-CertificateExpression", print_cel CelSkip);
       (bs "IC-Certificate", v2_certificate_header (ex_certificate (digest toy moment_tree)) moment_tree [bs "http_expr"; bs "<*>"])] [].
Definition moment_verify (checked : bool) (now offset : N) : out info :=
  verify (2 ^ 64) (2 ^ 60) checked toy ex_ple (toy_signer (ex_state (digest toy moment_tree))) ex_uri ex_query ex_none ex_none ex_rq moment_rs (bs "e") now offset (ex_key x01) 0.
Theorem C158_any_larger_tolerance_refuted :
  certified_at (2 ^ 64) (2 ^ 60) moment_rs 1000 /\
  moment_verify false 1010 20 = OOk (mk_info None 2) /\ moment_verify false 1010 1011 = OErr /\ moment_verify true 1010 1011 = OPanic.
Proof.
  split.
  { exists (v2_certificate_header (ex_certificate (digest toy moment_tree)) moment_tree [bs "http_expr"; bs "<*>"]),
      (mk_header (mk_cert (ex_state (digest toy moment_tree)) (bs "sig") None) moment_tree 2 (Some [bs "http_expr"; bs "<*>"])), (leb_enc 1000), [].
    split. { exists [(bs "IC-CertificateExpression", print_cel CelSkip)], (bs "IC-Certificate"), []. split; [reflexivity|]. split; [apply same_name_lower; reflexivity|constructor]. }
    split; [vm_compute; reflexivity|]. split; vm_compute; reflexivity. }
  split; [vm_compute; reflexivity|]. split; vm_compute; reflexivity.
Qed.
Print Assumptions C158_any_larger_tolerance_refuted.
(** The hypotheses of the theorems are met. *)
Example C158_hypotheses : moment_verify true 1010 20 = OOk (mk_info None 2) /\ moment_verify true 990 20 = OOk (mk_info None 2) /\
  moment_verify true 1021 20 = OErr /\ moment_verify true 5000 20 = OErr.
Proof. repeat (split; [vm_compute; reflexivity|]). vm_compute. reflexivity. Qed.
