(** C157: the spelling of the IC-Certificate header does not matter. *)
From Coq Require Import List Arith NArith Lia Bool Permutation.
From Verif Require Import Bytes Text Utf8 HashTree HashTreeSpec Cbor HttpTypes HttpHash HttpSpec Props_Hash Cel Wildcard V2 CertVerify CertSpec Header HeaderSpec HeaderProofs Props_Header
  Base64 Verify VerifySpec Toy Props_Cert Props_Verify Props_Irrelevant.
Import ListNotations.
Local Open Scope N_scope.

(** The names the verifier knows. *)
Definition known : list bytes := [bs "certificate"; bs "tree"; bs "version"; bs "expr_path"].
(** Some field of the header says that [name] is [value]. *)
Definition header_says (h name value : bytes) : Prop := exists f, In f (split_on "," h) /\ says f name value.
(** No known name is given two values. *)
Definition consistent (h : bytes) : Prop := forall name v w, In name known -> header_says h name v -> header_says h name w -> v = w.

Lemma first_field_says h n v : In n known -> consistent h -> (first_field h n v <-> header_says h n v).
Proof.
  intros K C. split.
  - intros (l & f & r & E & S & _). exists f. split; [rewrite E; apply in_elt|exact S].
  - intro HS. destruct HS as (f & I & S). destruct (first n (split_on "," h)) as [w|] eqn:F.
    + assert (F' := F). rewrite first_some in F'. destruct F' as (l & g & r & E & S' & A).
      assert (w = v). { apply (C n w v K); [exists g; split; [rewrite E; apply in_elt|exact S']|exists f; split; assumption]. } subst w.
      unfold first_field. rewrite <- first_some. exact F.
    + rewrite first_none in F. exfalso. exact (F f v I S).
Qed.
Lemma no_field_says h n : no_field h n <-> forall v, ~ header_says h n v.
Proof.
  unfold no_field, header_says. split.
  - intros A v (f & I & S). exact (A f v I S).
  - intros A f v I S. apply (A v). exists f. split; assumption.
Qed.

(** Headers that say the same are read alike: the order of the fields, white
    space around them, the colons around values, repetitions and unknown fields do not matter. *)
Theorem C157_what_a_header_says_decides :
  forall (umod cap_max : N) (h h' : bytes) (r : header),
  consistent h -> (forall name v, In name known -> (header_says h name v <-> header_says h' name v)) ->
  header_from umod cap_max h = OOk r <-> header_from umod cap_max h' = OOk r.
Proof.
  intros umod cap h h' r C S.
  assert (C' : consistent h') by (intros n v w K A B; apply (C n v w K); apply S; assumption).
  assert (F : forall n v, In n known -> (first_field h n v <-> first_field h' n v)) by (intros n v K; rewrite !first_field_says by assumption; apply S; exact K).
  assert (NF : forall n, In n known -> (no_field h n <-> no_field h' n)).
  { intros n K. rewrite !no_field_says. split; intros A v X; apply (A v); apply S; assumption. }
  rewrite !C45_first_field_wins. unfold known in F, NF.
  assert (F1 := fun v => F (bs "certificate") v ltac:(cbn; tauto)). assert (F2 := fun v => F (bs "tree") v ltac:(cbn; tauto)).
  assert (F3 := fun v => F (bs "version") v ltac:(cbn; tauto)). assert (F4 := fun v => F (bs "expr_path") v ltac:(cbn; tauto)).
  assert (N3 := NF (bs "version") ltac:(cbn; tauto)). assert (N4 := NF (bs "expr_path") ltac:(cbn; tauto)).
  split; (intros ((v1 & A1 & B1) & (v2 & A2 & B2) & X3 & X4);
    split; [exists v1; split; [apply F1; exact A1|exact B1]|]; split; [exists v2; split; [apply F2; exact A2|exact B2]|]; split;
    [destruct X3 as [[A B]|(v & A & B)]; [left; split; [apply N3; exact A|exact B]|right; exists v; split; [apply F3; exact A|exact B]]
    |destruct X4 as [[A B]|(v & p & A & B)]; [left; split; [apply N4; exact A|exact B]|right; exists v, p; split; [apply F4; exact A|exact B]]]).
Qed.
Print Assumptions C157_what_a_header_says_decides.

(** For example, the fields in another order, when no known name is given two values. *)
Theorem C157_order_of_fields :
  forall (umod cap_max : N) (h h' : bytes) (r : header),
  consistent h -> Permutation (split_on "," h) (split_on "," h') ->
  header_from umod cap_max h = OOk r <-> header_from umod cap_max h' = OOk r.
Proof.
  intros umod cap h h' r C P. apply C157_what_a_header_says_decides; [exact C|]. intros n v _. unfold header_says. split; intros (f & I & S); exists f; (split; [|exact S]).
  - eapply Permutation_in; eassumption.
  - eapply Permutation_in; [apply Permutation_sym|]; eassumption.
Qed.
Print Assumptions C157_order_of_fields.

(** Results that are the same but for the value of the certificate header, which is returned as it was sent. *)
Definition same_but_certificate (hv hv' : bytes) (i i' : info) : Prop :=
  i_version i' = i_version i /\
  match i_response i, i_response i' with
  | None, None => True
  | Some v, Some w => v_status w = v_status v /\ v_body w = v_body v /\
      (v_headers w = v_headers v \/
       exists l, v_headers v = l ++ [(bs "IC-Certificate", hv)] /\ v_headers w = l ++ [(bs "IC-Certificate", hv')])
  | _, _ => False
  end.
Lemma cert_header_get n a v b : same_name n (bs "IC-Certificate") -> Forall (fun h => ~ same_name (fst h) (bs "IC-Certificate")) b ->
  header_get (lower certificate_header_name) (a ++ (n, v) :: b) = Some v.
Proof. intros S F. apply (last_header_fun (bs "IC-Certificate")). exists a, n, b. auto. Qed.
Lemma other_header_get name n a v w b : ~ same_name n name -> header_get (lower name) (a ++ (n, v) :: b) = header_get (lower name) (a ++ (n, w) :: b).
Proof.
  intro D. apply header_get_same. intro x. rewrite <- !last_header_insert by exact D. reflexivity.
Qed.
Lemma filter_cert c n a v b : same_name n (bs "IC-Certificate") -> Forall (fun h => ~ same_name (fst h) (bs "IC-Certificate")) b ->
  forall k, filter_loop c (a ++ (n, v) :: b) k = (fst (filter_loop c (a ++ b) None), Some v).
Proof.
  intros S F.
  assert (K : forall m, eq_nocase m certificate_header_name = true <-> same_name m (bs "IC-Certificate")).
  { intro m. unfold eq_nocase. rewrite bytes_eqb_eq. symmetry. apply same_name_lower. }
  assert (G : forall l k, Forall (fun h => ~ same_name (fst h) (bs "IC-Certificate")) l -> filter_loop c l k = (fst (filter_loop c l None), k)).
  { induction l as [|[m x] l IH]; intros k Fl; cbn [filter_loop]; [reflexivity|]. inversion Fl as [|? ? A B]; subst. cbn [fst] in A.
    destruct (eq_nocase m certificate_header_name) eqn:E; [apply K in E; contradiction|]. rewrite (IH k B), (IH None B). cbn [fst].
    repeat match goal with |- context [if ?q then _ else _] => destruct q end; reflexivity. }
  induction a as [|[m x] a IH]; intro k; cbn [app filter_loop].
  - rewrite (proj2 (K n) S). apply G. exact F.
  - destruct (eq_nocase m certificate_header_name) eqn:E.
    + rewrite (IH (Some x)). f_equal. clear -G. assert (X : forall l k k', fst (filter_loop c l k) = fst (filter_loop c l k')).
      { induction l as [|[m' x'] l IH]; intros k k'; cbn [filter_loop]; [reflexivity|]. destruct (eq_nocase m' certificate_header_name); [reflexivity|].
        specialize (IH k k'). destruct (filter_loop c l k), (filter_loop c l k'). cbn [fst] in IH. subst. repeat match goal with |- context [if ?q then _ else _] => destruct q end; reflexivity. }
      apply X.
    + rewrite (IH k). destruct (filter_loop c (a ++ b) None) as [o cr]. cbn [fst]. repeat match goal with |- context [if ?q then _ else _] => destruct q end; reflexivity.
Qed.

(** The verifier's answer is the same, whichever spelling of the header was sent. *)
Theorem C157_spelling_of_the_certificate_header :
  forall umod cap_max checked (H : bytes -> bytes) ple vs uri_path uri_query gunzip inflate rq status n hv hv' a b body canister_id now offset key min_version i,
  same_name n (bs "IC-Certificate") -> Forall (fun h => ~ same_name (fst h) (bs "IC-Certificate")) b ->
  consistent hv -> (forall name v, In name known -> (header_says hv name v <-> header_says hv' name v)) ->
  verify umod cap_max checked H ple vs uri_path uri_query gunzip inflate rq (mk_response status (a ++ (n, hv) :: b) body) canister_id now offset key min_version = OOk i ->
  exists i', verify umod cap_max checked H ple vs uri_path uri_query gunzip inflate rq (mk_response status (a ++ (n, hv') :: b) body) canister_id now offset key min_version = OOk i' /\
    same_but_certificate hv hv' i i'.
Proof.
  intros umod cap ck H ple vs up uq gz df rq st n hv hv' a b body cid now off key mv i SN F C S E. unfold verify in *. cbn [rs_headers] in *.
  rewrite (cert_header_get n a hv b SN F) in E. rewrite (cert_header_get n a hv' b SN F).
  destruct (header_from umod cap hv) as [hd| | |] eqn:HF; try discriminate. cbn [out_bind] in E.
  rewrite (proj1 (C157_what_a_header_says_decides umod cap hv hv' hd C S) HF). cbn [out_bind].
  assert (D1 : ~ same_name n (bs "Content-Encoding")).
  { intro X. apply same_name_lower in X. apply same_name_lower in SN. rewrite SN in X. vm_compute in X. discriminate X. }
  assert (D2 : ~ same_name n (bs "IC-CertificateExpression")).
  { intro X. apply same_name_lower in X. apply same_name_lower in SN. rewrite SN in X. vm_compute in X. discriminate X. }
  destruct (h_version hd <? mv); [discriminate|]. destruct (h_version hd =? 1).
  - assert (Q := other_header_get (bs "Content-Encoding") n a hv' hv b D1). change (lower (bs "Content-Encoding")) with (bs "content-encoding") in Q. rewrite Q.
    exists i. split; [exact E|]. split; [reflexivity|]. destruct (i_response i); [|exact Logic.I]. auto.
  - destruct (h_version hd =? 2); [|discriminate].
    assert (Q := other_header_get cert_expr_header_name n a hv' hv b D2). rewrite Q.
    destruct (header_get (lower cert_expr_header_name) (a ++ (n, hv) :: b)) as [text|]; [|discriminate].
    destruct (h_expr_path hd) as [e|]; [|discriminate]. destruct (cel_of_text text) as [c|]; [|discriminate]. cbn [of_opt out_bind] in *.
    unfold v2_verification in *. destruct (get_path up rq) as [path| | |]; try discriminate. cbn [out_bind] in *.
    destruct (verify_certificate _ _ _ _ _ _ _ _ _ _ _) as [u| | |]; try discriminate. cbn [out_bind] in *.
    destruct (negb (validate_tree _ _ _ _)); [discriminate|]. destruct (negb (validate_expr_path _ _ _)); [discriminate|].
    unfold filter_response_headers in *. cbn [rs_headers rs_status rs_body] in *. cbv zeta in *.
    destruct c as [|rc|qc rc].
    + exists i. split; [exact E|]. destruct (validate_expr_hash _ _ _); [|discriminate]. injection E as <-. split; [reflexivity|exact Logic.I].
    + rewrite (filter_cert rc n a hv b SN F None) in E. rewrite (filter_cert rc n a hv' b SN F None). cbn [out_bind fst snd] in *.
      destruct (validate_hashes _ _ _ _ _ _); [|discriminate]. injection E as <-. eexists. split; [reflexivity|]. split; [reflexivity|].
      cbn [i_response v_status v_body v_headers]. split; [reflexivity|]. split; [reflexivity|]. right. eexists. split; reflexivity.
    + destruct (request_hash H uq rq qc) as [rqh|]; [|discriminate]. cbn [of_opt out_bind] in *.
      rewrite (filter_cert rc n a hv b SN F None) in E. rewrite (filter_cert rc n a hv' b SN F None). cbn [out_bind fst snd] in *.
      destruct (validate_hashes _ _ _ _ _ _); [|discriminate]. injection E as <-. eexists. split; [reflexivity|]. split; [reflexivity|].
      cbn [i_response v_status v_body v_headers]. split; [reflexivity|]. split; [reflexivity|]. right. eexists. split; reflexivity.
Qed.
Print Assumptions C157_spelling_of_the_certificate_header.

(** The hypotheses are met: the fields of the library's own header in the opposite order, without colons. *)
Definition ex_tree : htree := HLabeled (bs "http_expr") (HLabeled (bs "<*>") (HLabeled (toy (print_cel CelSkip)) (HLeaf []))).
Definition ex_hv : bytes := v2_certificate_header (ex_certificate (digest toy ex_tree)) ex_tree [bs "http_expr"; bs "<*>"].
Definition ex_hv' : bytes :=
  bs " version=2 ,expr_path=" ++ b64_enc true (self_describe ++ enc_strings [bs "http_expr"; bs "<*>"]) ++
  bs ",tree=" ++ b64_enc true (self_describe ++ enc_tree ex_tree) ++ bs "  ,certificate=:" ++ b64_enc true (ex_certificate (digest toy ex_tree)).
Lemma says_in h n v : header_says h n v <-> In (Some (n, v)) (map header_field (split_on "," h)).
Proof.
  unfold header_says. rewrite in_map_iff. split.
  - intros (f & I & S). exists f. split; [apply header_field_says; exact S|exact I].
  - intros (f & E & I). exists f. split; [exact I|apply header_field_says; exact E].
Qed.
Definition ex_fields (h : bytes) : list (option (bytes * bytes)) := map header_field (split_on "," h).
Lemma ex_fields_rev : ex_fields ex_hv' = rev (ex_fields ex_hv).
Proof. vm_compute. reflexivity. Qed.
Definition ex_names (h : bytes) : list bytes := map (fun o => match o with Some p => fst p | None => [] end) (ex_fields h).
Lemma consistent_names h : NoDup (ex_names h) -> consistent h.
Proof.
  unfold ex_names, consistent. intros N n v w _ A B. rewrite says_in in A, B. fold (ex_fields h) in A, B. revert N A B. generalize (ex_fields h). intro l.
  induction l as [|o l IH]; [intros _ []|]. cbn [map]. intro N. inversion N as [|? ? N1 N2]; subst. intros [A|A] [B|B]; subst; auto.
  - injection B as ->. reflexivity.
  - exfalso. apply N1. apply (in_map (fun o : option (bytes * bytes) => match o with Some p => fst p | None => [] end)) in B. exact B.
  - exfalso. apply N1. apply (in_map (fun o : option (bytes * bytes) => match o with Some p => fst p | None => [] end)) in A. exact A.
Qed.
Definition known_order : list bytes := [bs "certificate"; bs "tree"; bs "expr_path"; bs "version"].
Lemma known_order_distinct : NoDup known_order.
Proof. unfold known_order. repeat (constructor; [cbn [In]; intro X; repeat (destruct X as [X|X]; [discriminate X|]); exact X|]). constructor. Qed.
Example C157_hypotheses :
  ex_hv <> ex_hv' /\ consistent ex_hv /\ (forall n v, In n known -> (header_says ex_hv n v <-> header_says ex_hv' n v)) /\
  let answer hv := verify (2 ^ 64) (2 ^ 60) true toy ex_ple (toy_signer (ex_state (digest toy ex_tree))) ex_uri ex_query ex_none ex_none
    ex_rq (mk_response 200 ([(bs "IC-CertificateExpression", print_cel CelSkip)] ++ (bs "IC-Certificate", hv) :: []) []) (bs "e") 1010 20 (ex_key x01) 2 in
  answer ex_hv = OOk (mk_info None 2) /\ answer ex_hv' = OOk (mk_info None 2).
Proof.
  split. { intro E. vm_compute in E. discriminate E. }
  split. { apply consistent_names. assert (X : ex_names ex_hv = known_order) by (vm_compute; reflexivity). rewrite X. exact known_order_distinct. }
  split. { intros n v _. rewrite !says_in. fold (ex_fields ex_hv) (ex_fields ex_hv'). rewrite ex_fields_rev. apply in_rev. }
  split; vm_compute; reflexivity.
Qed.
