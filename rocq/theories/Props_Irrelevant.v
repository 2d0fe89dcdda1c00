(** C72: the verdict depends only on what the certification covers. *)
From Coq Require Import List Arith NArith Lia Bool Permutation.
From Verif Require Import Bytes Text Utf8 HashTree HashTreeSpec Cbor RiHash RiHashProofs HttpTypes HttpHash HttpSpec Props_Hash Cel Wildcard V2 CertVerify CertSpec Header Verify VerifySpec Props_Verify.
Import ListNotations.
Local Open Scope N_scope.

(** Two results are the same up to the order of the verified headers. *)
Definition same_verdict (a b : out info) : Prop :=
  match a, b with
  | OOk x, OOk y =>
      i_version x = i_version y /\
      match i_response x, i_response y with
      | None, None => True
      | Some v, Some w => v_status v = v_status w /\ v_body v = v_body w /\ Permutation (v_headers v) (v_headers w)
      | _, _ => False
      end
  | OErr, OErr | OPanic, OPanic | OFuel, OFuel => True
  | _, _ => False
  end.
(** The certification of a response's headers under an expression. *)
Definition response_cert_of (c : cel) : option response_cert :=
  match c with CelSkip => None | CelResponseOnly r => Some r | CelFull _ r => Some r end.
(** Header lists that say the same to the verifier: the three headers it reads have the same last
    value, and the covered headers are the same up to order. *)
Definition same_headers (hs hs' : list (bytes * bytes)) : Prop :=
  (forall name v, In name [bs "IC-Certificate"; bs "IC-CertificateExpression"; bs "Content-Encoding"] ->
     (last_header name hs v <-> last_header name hs' v)) /\
  (forall text c rc, last_header (bs "IC-CertificateExpression") hs text -> cel_of_text text = Some c -> response_cert_of c = Some rc ->
     forall o o', picks (covered rc) hs o -> picks (covered rc) hs' o' -> Permutation o o').
(** Requests that say the same to the verifier under an expression. *)
Definition same_request (uri_path : bytes -> option bytes) (uri_query : bytes -> option (option bytes)) (c : option cel) (rq rq' : request) : Prop :=
  (forall p, path_of uri_path rq p <-> path_of uri_path rq' p) /\
  match c with
  | Some (CelFull qc _) =>
      rq_method rq = rq_method rq' /\ rq_body rq = rq_body rq' /\
      (forall o o', picks (named_in (rc_headers qc)) (rq_headers rq) o -> picks (named_in (rc_headers qc)) (rq_headers rq') o' -> Permutation o o') /\
      (uri_query (rq_url rq) = uri_query (rq_url rq') \/
       exists q q' l, uri_query (rq_url rq) = Some q /\ uri_query (rq_url rq') = Some q' /\ covered_query qc q l /\ covered_query qc q' l)
  | _ => True
  end.

Lemma get_path_same u rq rq' : (forall p, path_of u rq p <-> path_of u rq' p) -> get_path u rq = get_path u rq'.
Proof.
  intro P. destruct (get_path u rq) as [p| | |] eqn:E.
  - apply C63_request_path_exact in E. apply P in E. apply C63_request_path_exact in E. symmetry. exact E.
  - destruct (get_path u rq') as [p| | |] eqn:E'.
    + apply C63_request_path_exact in E'. apply P in E'. apply C63_request_path_exact in E'. congruence.
    + reflexivity.
    + unfold get_path in E'. destruct (u _); [destruct (utf8_valid _)|]; discriminate.
    + unfold get_path in E'. destruct (u _); [destruct (utf8_valid _)|]; discriminate.
  - unfold get_path in E. destruct (u _); [destruct (utf8_valid _)|]; discriminate.
  - unfold get_path in E. destruct (u _); [destruct (utf8_valid _)|]; discriminate.
Qed.
Lemma header_get_same name hs hs' : (forall v, last_header name hs v <-> last_header name hs' v) -> header_get (lower name) hs = header_get (lower name) hs'.
Proof.
  intro P. assert (A := header_get_spec name hs). assert (B := header_get_spec name hs').
  destruct (header_get (lower name) hs) as [v|] eqn:E.
  - apply P in A. apply last_header_fun in A. congruence.
  - destruct (header_get (lower name) hs') as [w|] eqn:E'; [|reflexivity]. apply P in B. apply last_header_fun in B. congruence.
Qed.
Lemma certificate_same hs hs' o o' : (forall v, last_header (bs "IC-Certificate") hs v <-> last_header (bs "IC-Certificate") hs' v) ->
  certificate_of hs o -> certificate_of hs' o' -> o = o'.
Proof.
  intros P A B. assert (G := header_get_same _ _ _ P).
  assert (X : forall hs o, certificate_of hs o -> header_get (lower (bs "IC-Certificate")) hs = o).
  { intros l [v|] C; [apply last_header_fun; exact C|apply no_header_fun; exact C]. }
  rewrite <- (X _ _ A), <- (X _ _ B). exact G.
Qed.
Lemma request_hash_same H uq qc rq rq' :
  rq_method rq = rq_method rq' -> rq_body rq = rq_body rq' ->
  (forall o o', picks (named_in (rc_headers qc)) (rq_headers rq) o -> picks (named_in (rc_headers qc)) (rq_headers rq') o' -> Permutation o o') ->
  (uq (rq_url rq) = uq (rq_url rq') \/
   exists q q' l, uq (rq_url rq) = Some q /\ uq (rq_url rq') = Some q' /\ covered_query qc q l /\ covered_query qc q' l) ->
  request_hash H uq rq qc = request_hash H uq rq' qc.
Proof.
  intros M B P Q.
  assert (PH : Permutation (filtered_request_headers (rq_headers rq) qc) (filtered_request_headers (rq_headers rq') qc)).
  { destruct (filter_request_spec qc (rq_headers rq)) as (o & O & ->). destruct (filter_request_spec qc (rq_headers rq')) as (o' & O' & ->).
    apply Permutation_map. exact (P o o' O O'). }
  unfold request_hash. destruct Q as [Q|(q & q' & l & Q & Q' & C & C')].
  - rewrite <- Q, <- B. destruct (uq (rq_url rq)) as [q|]; [|reflexivity]. do 3 f_equal. apply ri_hash_perm. unfold request_entries. rewrite <- M.
    apply Permutation_app; [exact PH|reflexivity].
  - rewrite Q, Q', <- B. do 3 f_equal. apply ri_hash_perm. unfold request_entries. rewrite <- M. apply Permutation_app; [exact PH|].
    apply Permutation_app; [reflexivity|]. apply covered_query_spec in C. apply covered_query_spec in C'.
    destruct q as [q|], q' as [q'|].
    + destruct C as (l1 & E1 & J1 & _), C' as (l2 & E2 & J2 & _). rewrite E1 in E2. injection E2 as <-. rewrite <- J1, <- J2. reflexivity.
    + destruct C as (l1 & E1 & _). congruence.
    + destruct C' as (l1 & E1 & _). congruence.
    + reflexivity.
Qed.

(** C72: requests and responses that agree on what is covered get the same verdict. *)
Theorem C72_only_covered_data_matters :
  forall (umod cap : N) (checked : bool) (H : bytes -> bytes) (ple : bytes -> bytes -> bool) (vs : bytes -> bytes -> bytes -> bool)
    (uri_path : bytes -> option bytes) (uri_query : bytes -> option (option bytes)) (gunzip inflate : bytes -> option bytes)
    (rq rq' : request) (rs rs' : response) (canister : bytes) (now offset : N) (key : bytes) (min_version : N),
  rs_status rs = rs_status rs' -> rs_body rs = rs_body rs' -> same_headers (rs_headers rs) (rs_headers rs') ->
  same_request uri_path uri_query None rq rq' ->
  (forall text c, last_header (bs "IC-CertificateExpression") (rs_headers rs) text -> cel_of_text text = Some c ->
     same_request uri_path uri_query (Some c) rq rq') ->
  same_verdict
    (verify umod cap checked H ple vs uri_path uri_query gunzip inflate rq rs canister now offset key min_version)
    (verify umod cap checked H ple vs uri_path uri_query gunzip inflate rq' rs' canister now offset key min_version).
Proof.
  intros umod cap checked H ple vs up uq gz df rq rq' rs rs' canister now offset key mv S B [L P] [R _] Q.
  assert (Ref : forall x, same_verdict x x) by (intros [x| | |]; simpl; auto; split; [reflexivity|destruct (i_response x); auto]).
  assert (G := get_path_same up rq rq' R).
  unfold verify.
  rewrite <- (header_get_same certificate_header_name (rs_headers rs) (rs_headers rs')) by (intro; apply L; left; reflexivity).
  destruct (header_get (lower certificate_header_name) (rs_headers rs)) as [hv|]; [|exact I].
  destruct (header_from umod cap hv) as [hd| | |]; try exact I. cbn [out_bind].
  destruct (_ <? _); [exact I|].
  destruct (h_version hd =? 1).
  { assert (EC : header_get (bs "content-encoding") (rs_headers rs) = header_get (bs "content-encoding") (rs_headers rs'))
      by (apply (header_get_same (bs "Content-Encoding")); intro; apply L; right; right; left; reflexivity).
    rewrite <- EC. unfold v1_verification. rewrite <- G, <- B. apply Ref. }
  destruct (h_version hd =? 2); [|exact I].
  rewrite <- (header_get_same cert_expr_header_name (rs_headers rs) (rs_headers rs')) by (intro; apply L; right; left; reflexivity).
  assert (T := header_get_spec cert_expr_header_name (rs_headers rs)).
  destruct (header_get (lower cert_expr_header_name) (rs_headers rs)) as [text|]; [|exact I].
  destruct (h_expr_path hd) as [e|]; [|exact I]. destruct (cel_of_text text) as [c|] eqn:Ec; [|exact I]. cbn [of_opt out_bind].
  unfold v2_verification. rewrite <- G. destruct (get_path up rq) as [path| | |]; try exact I. cbn [out_bind].
  destruct (verify_certificate _ _ _ _ _ _ _ _ _ _ _) as [u| | |]; try exact I. cbn [out_bind].
  destruct (negb (validate_tree _ _ _ _)); [exact I|]. destruct (negb (validate_expr_path _ _ _)); [exact I|].
  assert (F : forall rc rqh, response_cert_of c = Some rc ->
    same_verdict
      (if validate_hashes (H text) rqh (H (response_headers_hash H (rs_status rs) (fst (filter_response_headers rs rc)) ++ H (rs_body rs))) e (h_tree hd) c
       then match snd (filter_response_headers rs rc) with None => OErr | Some ch => OOk (mk_info (Some (mk_verified (Some (rs_status rs)) (fst (filter_response_headers rs rc) ++ [(certificate_header_name, ch)]) (rs_body rs))) 2) end else OErr)
      (if validate_hashes (H text) rqh (H (response_headers_hash H (rs_status rs') (fst (filter_response_headers rs' rc)) ++ H (rs_body rs'))) e (h_tree hd) c
       then match snd (filter_response_headers rs' rc) with None => OErr | Some ch => OOk (mk_info (Some (mk_verified (Some (rs_status rs')) (fst (filter_response_headers rs' rc) ++ [(certificate_header_name, ch)]) (rs_body rs'))) 2) end else OErr)).
  { intros rc rqh D. rewrite <- S, <- B. destruct (C29_header_filter_exact rs rc) as [A1 A2]. destruct (C29_header_filter_exact rs' rc) as [B1 B2].
    assert (PP := P text c rc T Ec D _ _ A1 B1).
    rewrite <- (certificate_same _ _ _ _ (fun v => L (bs "IC-Certificate") v (or_introl eq_refl)) A2 B2).
    replace (response_headers_hash H (rs_status rs) (fst (filter_response_headers rs' rc))) with (response_headers_hash H (rs_status rs) (fst (filter_response_headers rs rc))).
    2:{ unfold response_headers_hash, status_entries. apply ri_hash_perm. apply Permutation_app; [|reflexivity]. apply Permutation_map. exact PP. }
    destruct (validate_hashes _ _ _ _ _ _); [|exact I]. destruct (snd (filter_response_headers rs rc)); [|exact I].
    cbn [same_verdict i_version i_response v_status v_body v_headers]. split; [reflexivity|]. split; [reflexivity|]. split; [reflexivity|].
    apply Permutation_app; [exact PP|reflexivity]. }
  assert (QQ := Q text c T Ec). destruct c as [|rc|qc rc].
  - apply Ref.
  - cbn [out_bind]. cbv zeta. apply F. reflexivity.
  - destruct QQ as (_ & M & Bq & PH & PQ). rewrite (request_hash_same H uq qc rq rq' M Bq PH PQ).
    destruct (request_hash H uq rq' qc); cbn [of_opt out_bind]; [|exact I]. cbv zeta. apply F. reflexivity.
Qed.
Print Assumptions C72_only_covered_data_matters.

Definition read_headers : list bytes := [bs "IC-Certificate"; bs "IC-CertificateExpression"; bs "Content-Encoding"].

Lemma last_header_insert name a n v b w : ~ same_name n name -> (last_header name (a ++ b) w <-> last_header name (a ++ (n, v) :: b) w).
Proof.
  intro D.
  assert (G : forall l1 l2, header_get (lower name) (l1 ++ (n, v) :: l2) = header_get (lower name) (l1 ++ l2)).
  { intros l1 l2. induction l1 as [|[m x] l1 IH]; cbn [app header_get].
    - destruct (bytes_eqb (lower n) (lower name)) eqn:E; [|destruct (header_get _ l2); reflexivity].
      apply bytes_eqb_eq in E. apply same_name_lower in E. contradiction.
    - rewrite IH. reflexivity. }
  assert (K : forall hs, last_header name hs w <-> header_get (lower name) hs = Some w).
  { intro hs. split; [apply last_header_fun|]. intro E. assert (X := header_get_spec name hs). rewrite E in X. exact X. }
  rewrite !K, G. reflexivity.
Qed.
Lemma picks_insert P a n v b : ~ P n -> forall o o', picks P (a ++ b) o -> picks P (a ++ (n, v) :: b) o' -> o = o'.
Proof.
  intro D. induction a as [|[m x] a IH]; intros o o' X Y; cbn [app] in *.
  - inversion Y; subst; [contradiction|]. eapply picks_fun; eauto.
  - inversion X; subst; inversion Y; subst; try contradiction; [f_equal|]; eauto.
Qed.
Lemma same_request_refl up uq c rq : same_request up uq c rq rq.
Proof.
  split; [intro; reflexivity|]. destruct c as [[|rc|qc rc]|]; auto. split; [reflexivity|]. split; [reflexivity|].
  split; [intros o o' A B; rewrite (picks_fun _ _ _ _ A B); reflexivity|]. left. reflexivity.
Qed.

(** A response header the verifier does not read and the certification does not cover can be
    added (or removed) anywhere. *)
Theorem C72_uncovered_response_header_is_irrelevant :
  forall (umod cap : N) (checked : bool) (H : bytes -> bytes) (ple : bytes -> bytes -> bool) (vs : bytes -> bytes -> bytes -> bool)
    (uri_path : bytes -> option bytes) (uri_query : bytes -> option (option bytes)) (gunzip inflate : bytes -> option bytes)
    (rq : request) (status : N) (a b : list (bytes * bytes)) (name value body : bytes) (canister : bytes) (now offset : N) (key : bytes) (min_version : N),
  Forall (fun x => ~ same_name name x) read_headers ->
  (forall text c rc, last_header (bs "IC-CertificateExpression") (a ++ b) text -> cel_of_text text = Some c -> response_cert_of c = Some rc ->
     ~ selected rc name) ->
  same_verdict
    (verify umod cap checked H ple vs uri_path uri_query gunzip inflate rq (mk_response status (a ++ b) body) canister now offset key min_version)
    (verify umod cap checked H ple vs uri_path uri_query gunzip inflate rq (mk_response status (a ++ (name, value) :: b) body) canister now offset key min_version).
Proof.
  intros until min_version. intros F U. rewrite Forall_forall in F. apply C72_only_covered_data_matters; try reflexivity.
  - split; cbn [rs_headers].
    + intros x v I. apply last_header_insert. apply F. exact I.
    + intros text c rc L E D o o' P P'. rewrite (picks_insert (covered rc) a name value b) with (o := o) (o' := o'); auto.
      intros [_ [X|X]]; [|exact (U text c rc L E D X)]. exact (F (bs "IC-CertificateExpression") (or_intror (or_introl eq_refl)) X).
  - apply same_request_refl.
  - intros. apply same_request_refl.
Qed.
Print Assumptions C72_uncovered_response_header_is_irrelevant.

(** Changing the case of response header names changes nothing. *)
Lemma last_header_case name hs hs' v : Forall2 (fun h h' => same_name (fst h) (fst h') /\ snd h = snd h') hs hs' ->
  header_get (lower name) hs = Some v <-> header_get (lower name) hs' = Some v.
Proof.
  intro F. assert (E : header_get (lower name) hs = header_get (lower name) hs').
  { induction F as [|[n x] [m y] l l' [S X] F IH]; [reflexivity|]. cbn [fst snd] in *. cbn [header_get]. rewrite IH. apply same_name_lower in S. rewrite S, X. reflexivity. }
  rewrite E. reflexivity.
Qed.
Lemma picks_case (P : bytes -> Prop) hs hs' : (forall n m, same_name n m -> P n -> P m) ->
  Forall2 (fun h h' => same_name (fst h) (fst h') /\ snd h = snd h') hs hs' -> forall o o', picks P hs o -> picks P hs' o' -> o = o'.
Proof.
  intros M F. induction F as [|[n x] [m y] l l' [S X] F IH]; intros o o' A B.
  - inversion A; inversion B; reflexivity.
  - cbn [fst snd] in *. assert (S' : same_name m n) by (apply same_name_lower; symmetry; apply same_name_lower; exact S).
    inversion A; subst; inversion B; subst.
    + f_equal; [|auto]. apply same_name_lower in S. rewrite S. reflexivity.
    + exfalso. eauto.
    + exfalso. eauto.
    + auto.
Qed.
Lemma covered_case rc n m : same_name n m -> covered rc n -> covered rc m.
Proof.
  intros S [A B]. assert (T : forall x, same_name n x <-> same_name m x) by (intro x; rewrite !same_name_lower; apply same_name_lower in S; rewrite S; reflexivity).
  assert (T' : forall x, same_name x n <-> same_name x m) by (intro x; rewrite !same_name_lower; apply same_name_lower in S; rewrite S; reflexivity).
  split; [rewrite <- T; exact A|]. destruct B as [B|B]; [left; rewrite <- T; exact B|right].
  destruct rc as [l|l]; cbn [selected] in *.
  - destruct B as (x & I & X). exists x. split; [exact I|]. apply T'. exact X.
  - intros (x & I & X). apply B. exists x. split; [exact I|]. apply T'. exact X.
Qed.
Theorem C72_header_name_case_is_irrelevant :
  forall (umod cap : N) (checked : bool) (H : bytes -> bytes) (ple : bytes -> bytes -> bool) (vs : bytes -> bytes -> bytes -> bool)
    (uri_path : bytes -> option bytes) (uri_query : bytes -> option (option bytes)) (gunzip inflate : bytes -> option bytes)
    (rq : request) (status : N) (hs hs' : list (bytes * bytes)) (body : bytes) (canister : bytes) (now offset : N) (key : bytes) (min_version : N),
  Forall2 (fun h h' => same_name (fst h) (fst h') /\ snd h = snd h') hs hs' ->
  same_verdict
    (verify umod cap checked H ple vs uri_path uri_query gunzip inflate rq (mk_response status hs body) canister now offset key min_version)
    (verify umod cap checked H ple vs uri_path uri_query gunzip inflate rq (mk_response status hs' body) canister now offset key min_version).
Proof.
  intros until min_version. intro F. apply C72_only_covered_data_matters; try reflexivity.
  - split; cbn [rs_headers].
    + intros x v _. assert (K : forall hs, last_header x hs v <-> header_get (lower x) hs = Some v).
      { intro l. split; [apply last_header_fun|]. intro E. assert (X := header_get_spec x l). rewrite E in X. exact X. }
      rewrite !K. apply last_header_case. exact F.
    + intros text c rc L E D o o' P P'. rewrite (picks_case (covered rc) hs hs' (covered_case rc) F o o' P P'). reflexivity.
  - apply same_request_refl.
  - intros. apply same_request_refl.
Qed.
Print Assumptions C72_header_name_case_is_irrelevant.

(** The order of response headers does not matter, if the headers the verifier reads are not repeated
    with different values. *)
Definition unambiguous (name : bytes) (hs : list (bytes * bytes)) : Prop :=
  forall n v n' v', In (n, v) hs -> In (n', v') hs -> same_name n name -> same_name n' name -> v = v'.
Lemma picks_perm P hs hs' : Permutation hs hs' -> forall o o', picks P hs o -> picks P hs' o' -> Permutation o o'.
Proof.
  intro F. assert (Ex : forall l l' o, Permutation l l' -> picks P l o -> exists o', picks P l' o' /\ Permutation o o').
  { clear. intros l l' o F. revert o. induction F as [|[n v] l l' F IH|[n v] [m w] l|l1 l2 l3 F1 IH1 F2 IH2]; intros o A.
    - inversion A; subst. exists []. split; constructor.
    - inversion A; subst.
      + destruct (IH _ H4) as (o' & B & C). exists ((lower n, v) :: o'). split; [apply picks_take; assumption|constructor; exact C].
      + destruct (IH _ H4) as (o' & B & C). exists o'. split; [apply picks_skip; assumption|exact C].
    - inversion A as [|? ? ? out1 Pm A1|? ? ? out1 Pm A1]; subst; inversion A1 as [|? ? ? out2 Pn A2|? ? ? out2 Pn A2]; subst.
      + exists ((lower n, v) :: (lower m, w) :: out2). split; [repeat apply picks_take; assumption|constructor].
      + exists ((lower m, w) :: out1). split; [apply picks_skip; [assumption|apply picks_take; assumption]|reflexivity].
      + exists ((lower n, v) :: out2). split; [apply picks_take; [assumption|apply picks_skip; assumption]|reflexivity].
      + exists o. split; [repeat apply picks_skip; assumption|reflexivity].
    - destruct (IH1 _ A) as (o1 & B & C). destruct (IH2 _ B) as (o2 & B2 & C2). exists o2. split; [exact B2|]. etransitivity; eauto. }
  intros o o' A B. destruct (Ex _ _ _ F A) as (o2 & B2 & C). rewrite (picks_fun _ _ _ _ B B2). exact C.
Qed.
Lemma last_header_in name hs v : unambiguous name hs -> (last_header name hs v <-> exists n, In (n, v) hs /\ same_name n name).
Proof.
  intro U. split.
  - intros (a & n & b & -> & S & _). exists n. split; [apply in_or_app; right; left; reflexivity|exact S].
  - intros (n & I & S). assert (X := header_get_spec name hs). destruct (header_get (lower name) hs) as [w|].
    + assert (Y := X). destruct Y as (a & m & b & -> & S' & _). rewrite (U n v m w); auto. apply in_or_app; right; left; reflexivity.
    + unfold no_header in X. rewrite Forall_forall in X. destruct (X _ I). exact S.
Qed.
Theorem C72_header_order_is_irrelevant :
  forall (umod cap : N) (checked : bool) (H : bytes -> bytes) (ple : bytes -> bytes -> bool) (vs : bytes -> bytes -> bytes -> bool)
    (uri_path : bytes -> option bytes) (uri_query : bytes -> option (option bytes)) (gunzip inflate : bytes -> option bytes)
    (rq : request) (status : N) (hs hs' : list (bytes * bytes)) (body : bytes) (canister : bytes) (now offset : N) (key : bytes) (min_version : N),
  Permutation hs hs' -> Forall (fun x => unambiguous x hs) read_headers ->
  same_verdict
    (verify umod cap checked H ple vs uri_path uri_query gunzip inflate rq (mk_response status hs body) canister now offset key min_version)
    (verify umod cap checked H ple vs uri_path uri_query gunzip inflate rq (mk_response status hs' body) canister now offset key min_version).
Proof.
  intros until min_version. intros P F. rewrite Forall_forall in F. apply C72_only_covered_data_matters; try reflexivity.
  - split; cbn [rs_headers].
    + intros x v I. assert (U := F x I).
      assert (U' : unambiguous x hs') by (intros n y n' y' I1 I2; apply (U n y n' y'); eapply Permutation_in; try eassumption; symmetry; exact P).
      rewrite (last_header_in _ _ _ U), (last_header_in _ _ _ U'). split; intros (n & In1 & S); exists n; (split; [|exact S]); eapply Permutation_in; try eassumption. symmetry; exact P.
    + intros text c rc _ _ _ o o' A B. exact (picks_perm _ _ _ P o o' A B).
  - apply same_request_refl.
  - intros. apply same_request_refl.
Qed.
Print Assumptions C72_header_order_is_irrelevant.

(** Unless the certification covers the request, only the request's path matters. *)
Theorem C72_request_is_irrelevant_unless_certified :
  forall (umod cap : N) (checked : bool) (H : bytes -> bytes) (ple : bytes -> bytes -> bool) (vs : bytes -> bytes -> bytes -> bool)
    (uri_path : bytes -> option bytes) (uri_query : bytes -> option (option bytes)) (gunzip inflate : bytes -> option bytes)
    (rq rq' : request) (rs : response) (canister : bytes) (now offset : N) (key : bytes) (min_version : N),
  (forall p, path_of uri_path rq p <-> path_of uri_path rq' p) ->
  (forall text c, last_header (bs "IC-CertificateExpression") (rs_headers rs) text -> cel_of_text text = Some c ->
     c = CelSkip \/ exists rc, c = CelResponseOnly rc) ->
  same_verdict
    (verify umod cap checked H ple vs uri_path uri_query gunzip inflate rq rs canister now offset key min_version)
    (verify umod cap checked H ple vs uri_path uri_query gunzip inflate rq' rs canister now offset key min_version).
Proof.
  intros until min_version. intros P F. apply C72_only_covered_data_matters; try reflexivity.
  - split; [intros; reflexivity|]. intros text c rc _ _ _ o o' A B. rewrite (picks_fun _ _ _ _ A B). reflexivity.
  - split; [exact P|exact I].
  - intros text c L E. split; [exact P|]. destruct (F text c L E) as [->|(rc & ->)]; exact I.
Qed.
Print Assumptions C72_request_is_irrelevant_unless_certified.

(** A request header that is not certified can be added anywhere. *)
Theorem C72_uncovered_request_header_is_irrelevant :
  forall (umod cap : N) (checked : bool) (H : bytes -> bytes) (ple : bytes -> bytes -> bool) (vs : bytes -> bytes -> bytes -> bool)
    (uri_path : bytes -> option bytes) (uri_query : bytes -> option (option bytes)) (gunzip inflate : bytes -> option bytes)
    (m url : bytes) (a b : list (bytes * bytes)) (name value body : bytes) (rs : response) (canister : bytes) (now offset : N) (key : bytes) (min_version : N),
  (forall text qc rc, last_header (bs "IC-CertificateExpression") (rs_headers rs) text -> cel_of_text text = Some (CelFull qc rc) ->
     ~ named_in (rc_headers qc) name) ->
  same_verdict
    (verify umod cap checked H ple vs uri_path uri_query gunzip inflate (mk_request m url (a ++ b) body) rs canister now offset key min_version)
    (verify umod cap checked H ple vs uri_path uri_query gunzip inflate (mk_request m url (a ++ (name, value) :: b) body) rs canister now offset key min_version).
Proof.
  intros until min_version. intro F. apply C72_only_covered_data_matters; try reflexivity.
  - split; [intros; reflexivity|]. intros text c rc _ _ _ o o' A B. rewrite (picks_fun _ _ _ _ A B). reflexivity.
  - split; [intro; reflexivity|exact I].
  - intros text c L E. split; [intro; reflexivity|]. destruct c as [|rc|qc rc]; try exact I. cbn [rq_method rq_body rq_headers rq_url].
    split; [reflexivity|]. split; [reflexivity|]. split; [|left; reflexivity].
    intros o o' A B. rewrite (picks_insert _ a name value b (F text qc rc L E) o o' A B). reflexivity.
Qed.
Print Assumptions C72_uncovered_request_header_is_irrelevant.

(** The hypotheses are met: a response-only expression covering nothing, and a header added to a response. *)
Example C72_ex_uncovered :
  let text := print_cel (CelResponseOnly (CertifiedHeaders [])) in
  let a := [(bs "IC-CertificateExpression", text)] in
  Forall (fun x => ~ same_name (bs "Date") x) read_headers /\
  (forall t c rc, last_header (bs "IC-CertificateExpression") (a ++ []) t -> cel_of_text t = Some c -> response_cert_of c = Some rc -> ~ selected rc (bs "Date")) /\
  Forall (fun x => unambiguous x a) read_headers.
Proof.
  cbv zeta. split; [|split].
  - repeat constructor; intro S; apply same_name_lower in S; vm_compute in S; discriminate.
  - intros t c rc L E D. apply last_header_fun in L.
    assert (Et : t = print_cel (CelResponseOnly (CertifiedHeaders []))).
    { cbn [app] in L. assert (X : header_get (lower (bs "IC-CertificateExpression")) [(bs "IC-CertificateExpression", print_cel (CelResponseOnly (CertifiedHeaders [])))] = Some (print_cel (CelResponseOnly (CertifiedHeaders [])))) by (vm_compute; reflexivity). congruence. }
    assert (Ec : cel_of_text (print_cel (CelResponseOnly (CertifiedHeaders []))) = Some (CelResponseOnly (CertifiedHeaders []))) by (vm_compute; reflexivity).
    rewrite Et, Ec in E. injection E as <-. cbn [response_cert_of] in D. injection D as <-. intros (x & I & _). exact I.
  - repeat constructor; intros n v n' v' [X|[]] [Y|[]] _ _; congruence.
Qed.
