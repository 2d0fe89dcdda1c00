(** Properties C51-C55, C64: the canister's certification tree against the verifier. *)
From Coq Require Import List Arith NArith Lia Bool Permutation.
From Verif Require Import Bytes Sha256 Text Utf8 Utf8Split HashTree HashTreeSpec HashTreeProofs HashTreeSpecProofs Props_HashTree RbWitness Nested NestedSpec NestedProofs Props_Nested
  Cbor CborSpec Props_Cbor HttpTypes HttpHash HttpSpec Props_Hash Cel CelSpec Props_Cel Wildcard WildcardSpec WildcardProofs V2 Props_Wildcard Leb128 CertVerify CertSpec Props_Cert
  Base64 Header HeaderProofs Props_Header Verify VerifySpec Props_Verify HttpTree HttpTreeSpec.
Import ListNotations.

(** ** C53 *)
Lemma path_to_segments_parts p x : path_to_segments p x = request_parts p ++ [x].
Proof. unfold path_to_segments, request_parts. destruct (ends_with_slash p); rewrite ?app_nil_r; reflexivity. Qed.
Lemma expr_segments_parts p x : path_to_string_segments p x = bs "http_expr" :: request_parts p ++ [x].
Proof. unfold path_to_string_segments, request_parts. destruct (ends_with_slash p); rewrite ?app_nil_r; reflexivity. Qed.
Theorem C53_expr_path_is_verifier_path :
  forall p : bytes,
  expr_path (PExact p) = bs "http_expr" :: request_parts p ++ [bs "<$>"] /\
  expr_path (PWildcard p) = bs "http_expr" :: request_parts p ++ [bs "<*>"] /\
  (forall c : cert_path, expr_path c = bs "http_expr" :: path_tree_path c) /\
  (forall en : entry, exists l, entry_tree_path en = path_tree_path (en_path en) ++ l /\ l <> []).
Proof.
  intro p. split; [apply expr_segments_parts|]. split; [apply expr_segments_parts|]. split.
  - intros [q|q]; unfold expr_path, path_tree_path; rewrite expr_segments_parts, path_to_segments_parts; reflexivity.
  - intros [q c]. exists (cert_tree_path c). split; [reflexivity|]. destruct c; discriminate.
Qed.
Print Assumptions C53_expr_path_is_verifier_path.
Example C53_ex : expr_path (PExact (bs "/a//b/")) = [bs "http_expr"; bs "a"; bs "b"; []; bs "<$>"] /\
  expr_path (PWildcard []) = [bs "http_expr"; bs "<*>"] /\ request_parts (bs "/a/b/") = [bs "a"; bs "b"; []].
Proof. repeat split. Qed.

(** ** C54 *)
Lemma validate_headers_true hs expr : validate_headers hs expr true = true <-> no_header (bs "IC-CertificateExpression") hs.
Proof.
  unfold no_header. induction hs as [|[n v] hs IH]; cbn [validate_headers]; [split; auto|].
  change (bytes_eqb (lower n) (lower cert_expr_header_name)) with (eq_nocase n (bs "IC-CertificateExpression")).
  destruct (eq_nocase n (bs "IC-CertificateExpression")) eqn:E.
  - apply eq_nocase_spec in E. split.
    + destruct (bytes_eqb v expr); discriminate.
    + intro F. inversion F; subst. contradiction.
  - apply eq_nocase_false in E. rewrite IH. split; intro F; [constructor; auto|inversion F; auto].
Qed.
Lemma validate_response_spec rs expr : validate_response rs expr = true <-> single_expression rs expr.
Proof.
  unfold validate_response, single_expression. destruct rs as [st hs body]. cbn [rs_headers]. clear st body.
  induction hs as [|[n v] hs IH]; cbn [validate_headers].
  - split; [discriminate|]. intros (a & n & b & E & _). destruct a; discriminate.
  - change (bytes_eqb (lower n) (lower cert_expr_header_name)) with (eq_nocase n (bs "IC-CertificateExpression")).
    destruct (eq_nocase n (bs "IC-CertificateExpression")) eqn:E.
    + apply eq_nocase_spec in E. destruct (bytes_eqb_spec v expr) as [->|N].
      * rewrite validate_headers_true. split.
        -- intro F. exists [], n, hs. repeat split; auto. constructor.
        -- intros (a & m & b & E1 & S & A & B). destruct a as [|x a].
           ++ injection E1 as -> ->. exact B.
           ++ injection E1 as <- ->. inversion A; subst. contradiction.
      * split; [discriminate|]. intros (a & m & b & E1 & S & A & B). destruct a as [|x a].
        -- injection E1 as -> -> ->. congruence.
        -- injection E1 as <- ->. inversion A; subst. contradiction.
    + apply eq_nocase_false in E. rewrite IH. split.
      * intros (a & m & b & -> & S & A & B). exists ((n, v) :: a), m, b. repeat split; auto. constructor; auto.
      * intros (a & m & b & E1 & S & A & B). destruct a as [|x a].
        -- injection E1 as -> -> ->. contradiction.
        -- injection E1 as <- ->. inversion A; subst. exists a, m, b. auto.
Qed.
Theorem C54_requires_exact_cel_header :
  forall (H : bytes -> bytes) (uri_query : bytes -> option (option bytes)) (qc : request_cert) (rc : response_cert)
         (rq : request) (rs : response) (body_hash : option bytes) (c : certification),
  (certify_response_only H rc rs body_hash = Some c <->
     single_expression rs (print_cel (CelResponseOnly rc)) /\
     c = CResponseOnly (H (print_cel (CelResponseOnly rc))) (response_hash H rs rc body_hash)) /\
  (certify_full H uri_query qc rc rq rs body_hash = Some c <->
     single_expression rs (print_cel (CelFull qc rc)) /\
     exists h, request_hash H uri_query rq qc = Some h /\
       c = CFull (H (print_cel (CelFull qc rc))) h (response_hash H rs rc body_hash)).
Proof.
  intros. unfold certify_response_only, certify_full. rewrite <- !validate_response_spec. split.
  - destruct (validate_response rs (print_cel (CelResponseOnly rc))); split; try discriminate.
    + intro E. injection E as <-. auto.
    + intros [_ ->]. reflexivity.
    + intros [E _]. discriminate E.
  - destruct (validate_response rs (print_cel (CelFull qc rc))).
    + destruct (request_hash H uri_query rq qc) as [h|]; split; try discriminate.
      * intro E. injection E as <-. eauto.
      * intros [_ (h' & E & ->)]. injection E as <-. reflexivity.
      * intros [_ (h' & E & _)]. discriminate E.
    + split; [discriminate|]. intros [E _]. discriminate E.
Qed.
Print Assumptions C54_requires_exact_cel_header.
Definition ro_cel := CelResponseOnly (HeaderExclusions []).
Example C54_ex_one : single_expression (mk_response 200 [(bs "A", bs "b"); (bs "ic-CERTIFICATEexpression", print_cel ro_cel)] []) (print_cel ro_cel) /\
  (exists c, certify_response_only sha256 (HeaderExclusions []) (mk_response 200 [(bs "A", bs "b"); (bs "ic-CERTIFICATEexpression", print_cel ro_cel)] []) None = Some c).
Proof.
  assert (V : validate_response (mk_response 200 [(bs "A", bs "b"); (bs "ic-CERTIFICATEexpression", print_cel ro_cel)] []) (print_cel ro_cel) = true) by reflexivity.
  split; [apply validate_response_spec; exact V|].
  unfold certify_response_only. change (CelResponseOnly (HeaderExclusions [])) with ro_cel. rewrite V. eexists. reflexivity.
Qed.
Example C54_ex_two : ~ single_expression (mk_response 200 [(bs "IC-CertificateExpression", print_cel ro_cel); (bs "ic-CERTIFICATEexpression", print_cel ro_cel)] []) (print_cel ro_cel) /\
  ~ single_expression (mk_response 200 [(bs "IC-CertificateExpression", bs "x"); (bs "ic-CERTIFICATEexpression", print_cel ro_cel)] []) (print_cel ro_cel) /\
  ~ single_expression (mk_response 200 [] []) (print_cel ro_cel).
Proof. repeat split; rewrite <- validate_response_spec; discriminate. Qed.

(** ** C52 *)
Lemma http_run_ok H ops : exists t, http_run H ops = Some t /\ nok H t /\ noempty t /\
  (forall q v, nget q t = Some v <-> holds (map http_nop ops) q v).
Proof. apply nrun_ok. Qed.
Lemma merge_all_ok H t : nok H t -> forall l acc, prunes H (nhtree H t) acc ->
  exists m, merge_all H t acc l = OOk m /\ prunes H (nhtree H t) m /\ prunes H m acc /\
    forall p, In p l -> exists w, nwitness H p t = Some w /\ prunes H m w.
Proof.
  intros K l. induction l as [|p l IH]; intros acc P; cbn [merge_all].
  - exists acc. split; [reflexivity|]. split; [exact P|]. split; [apply prunes_refl|]. intros p [].
  - destruct (nwitness_ok H p t K) as (w & Ew & Pw & _). rewrite Ew. destruct (merge_prunes H _ acc w P Pw) as (m & -> & Pm & Pa & Pb).
    destruct (IH m Pm) as (m' & -> & Pm' & Pmm & F). exists m'. split; [reflexivity|]. split; [exact Pm'|].
    split; [eapply prunes_trans; [exact Pmm|exact Pa]|].
    intros q [<-|I]; [|auto]. exists w. split; [exact Ew|]. eapply prunes_trans; [exact Pmm|exact Pb].
Qed.
Lemma nhtree_full H t : full (nhtree H t) = true.
Proof.
  induction t as [v|tr IH] using ntree_ind'; [reflexivity|].
  rewrite nhtree_nested. apply RbWitness.full_full. exact IH.
Qed.
Lemma prunes_to_full H a b : prunes H a b -> full b = true -> a = b.
Proof.
  intro P. induction P as [ | v | h | l r l' r' P1 IH1 P2 IH2 | lbl t t' P IH | t]; simpl; intro F; try discriminate; auto.
  - apply andb_prop in F. destruct F. rewrite IH1, IH2 by assumption. reflexivity.
  - rewrite IH by assumption. reflexivity.
Qed.
Lemma nget_app p : forall q t v, nget (p ++ q) t = Some v -> contains_path p t = true /\ (forall u, nget p t = Some u -> q = []).
Proof.
  induction p as [|k p IH]; intros q t v; simpl.
  - intro G. split; [reflexivity|]. intros u E. destruct t; [|discriminate]. destruct q; [reflexivity|discriminate G].
  - destruct t as [|tr]; [discriminate|]. destruct (RbTree.get ntree k tr) as [c|]; [|discriminate]. apply IH.
Qed.
(** a witness of [p] reveals every entry below [p] *)
Lemma nwitness_reveals H t p q v w : nok H t -> nwitness H p t = Some w -> nget (p ++ q) t = Some v ->
  lookup_path (p ++ q) (nhtree H t) = Found v -> lookup_path (p ++ q) w = Found v.
Proof.
  intros K E G L. destruct (nwitness_ok H p t K) as (w' & E' & P & W & M & _). assert (w' = w) by congruence. subst w'.
  destruct (nget_app p q t v G) as [C U]. destruct (nget p t) as [u|] eqn:N.
  - rewrite (U u eq_refl), app_nil_r in *. congruence.
  - rewrite C in M. destruct M as (c & M). destruct (nok_tree H t K) as (_ & WT & _).
    generalize (lookup_subtree_mono H p _ _ P WT). rewrite M. intros (s & S & Ps).
    apply prunes_to_full in Ps; [|apply nhtree_full]. subst s.
    rewrite lookup_path_subtree_all in L |- *. rewrite (lookup_subtree_app p q) in L |- *. rewrite M. rewrite S in L. exact L.
Qed.
Lemma lookup_root k p w : lookup_path (k :: p) (HLabeled k w) = lookup_path p w /\ lookup_subtree (k :: p) (HLabeled k w) = lookup_subtree p w.
Proof. simpl. destruct (bcmp k k) eqn:E; try (rewrite bcmp_refl in E; discriminate). split; reflexivity. Qed.

(** what a witness shows: a merge of witnesses of paths [l] *)
Lemma witness_shows H ops t en url : http_run H ops = Some t ->
  match http_witness H t en url with
  | OOk w => exists m, w = HLabeled (bs "http_expr") m /\ prunes H (nhtree H t) m /\
      (match en_path en with
       | PExact _ => exists w, nwitness H (entry_tree_path en) t = Some w /\ prunes H m w
       | PWildcard p => exists l, more_specific_wildcards_for (request_parts url ++ [bs "<$>"]) (request_parts p ++ [bs "<*>"]) = Some l /\
           length (request_parts p) <= length (request_parts url) /\
           forall p', In p' ((request_parts url ++ [bs "<$>"]) :: (request_parts p ++ [bs "<*>"]) :: l) ->
             exists w, nwitness H p' t = Some w /\ prunes H m w
       end)
  | OErr => exists p, en_path en = PWildcard p /\ length (request_parts url) < length (request_parts p)
  | _ => False
  end.
Proof.
  intro R. destruct (http_run_ok H ops) as (t' & R' & K & _). assert (t' = t) by congruence. subst t'.
  unfold http_witness. destruct (en_path en) as [p|p] eqn:EP.
  - destruct (nwitness_ok H (entry_tree_path en) t K) as (w & Ew & P & _). rewrite Ew. cbn [out_bind].
    exists w. split; [reflexivity|]. split; [exact P|]. exists w. split; [reflexivity|apply prunes_refl].
  - unfold path_tree_path. rewrite !path_to_segments_parts. change exact_terminator with (bs "<$>"). change wildcard_terminator with (bs "<*>").
    rewrite !app_length. cbn [length]. destruct (Nat.ltb_spec (length (request_parts url) + 1) (length (request_parts p) + 1)) as [L|L].
    { cbn [out_bind]. exists p. split; [reflexivity|lia]. }
    destruct (nwitness_ok H (request_parts url ++ [bs "<$>"]) t K) as (w1 & E1 & P1 & _).
    destruct (nwitness_ok H (request_parts p ++ [bs "<*>"]) t K) as (w2 & E2 & P2 & _). rewrite E1, E2.
    destruct (merge_prunes H _ w1 w2 P1 P2) as (w & -> & P & Pa & Pb).
    destruct (C34_more_specific_wildcards_terminates (request_parts url ++ [bs "<$>"]) (request_parts p ++ [bs "<*>"])) as (l & El & _).
    rewrite El. destruct (merge_all_ok H t K l w P) as (m & Em & Pm & Pmw & F). rewrite Em. cbn [out_bind].
    exists m. split; [reflexivity|]. split; [exact Pm|]. exists l. split; [reflexivity|]. split; [lia|].
    intros p' [<-|[<-|I]].
    + exists w1. split; [exact E1|]. eapply prunes_trans; [exact Pmw|exact Pa].
    + exists w2. split; [exact E2|]. eapply prunes_trans; [exact Pmw|exact Pb].
    + apply F. exact I.
Qed.
Theorem C52_witness_never_panics :
  forall (H : bytes -> bytes) (ops : list http_op),
  exists t, http_run H ops = Some t /\
  forall (en : entry) (request_url : bytes),
  (exists w, http_witness H t en request_url = OOk w /\ digest H w = http_root_hash H t) \/
  (http_witness H t en request_url = OErr /\
   exists p, en_path en = PWildcard p /\ length (request_parts request_url) < length (request_parts p)).
Proof.
  intros H ops. destruct (http_run_ok H ops) as (t & R & K & _). exists t. split; [exact R|]. intros en url.
  assert (X := witness_shows H ops t en url R). destruct (http_witness H t en url) as [w| | |]; try contradiction.
  - left. exists w. split; [reflexivity|]. destruct X as (m & -> & P & _). cbn [digest]. unfold http_root_hash.
    rewrite (prunes_digest H _ _ P). destruct (nok_tree H t K) as (-> & _). reflexivity.
  - right. auto.
Qed.
Print Assumptions C52_witness_never_panics.

(** ** C51, tree level *)
Lemma nowhere_absent H ops t p w : http_run H ops = Some t -> nwitness H p t = Some w -> p <> [] -> ~ occupied ops p -> lookup_subtree p w = SAbsent.
Proof.
  intros R E N O. destruct (C18_nested_witness_decides_path H (map http_nop ops) t p R) as (w' & E' & _ & _ & A & _).
  assert (w' = w) by congruence. subst w'. apply A; [|exact N]. intros q v X. apply O. exists q, v. exact X.
Qed.
Lemma reveals_held H ops t p q w : http_run H ops = Some t -> nwitness H p t = Some w ->
  holds (map http_nop ops) (p ++ q) [] -> lookup_path (p ++ q) w = Found [].
Proof.
  intros R E X. destruct (http_run_ok H ops) as (t' & R' & K & _ & Q). assert (t' = t) by congruence. subst t'.
  apply (nwitness_reveals H t p q [] w K E); [apply Q; exact X|].
  apply (C11_nested_root_hash_is_digest H (map http_nop ops) t R). exact X.
Qed.
Lemma found_mono H m a p v : prunes H m a -> wf m -> lookup_path p a = Found v -> lookup_path p m = Found v.
Proof. intros P W L. generalize (lookup_path_mono H p m a P W). rewrite L. auto. Qed.
Lemma absent_mono H m a p : prunes H m a -> wf m -> lookup_subtree p a = SAbsent -> lookup_subtree p m = SAbsent.
Proof. intros P W L. generalize (lookup_subtree_mono H p m a P W). rewrite L. auto. Qed.
Lemma found_prefix p q t v : lookup_path (p ++ q) t = Found v -> exists s, lookup_subtree p t = SFound s.
Proof. rewrite lookup_path_subtree_all, (lookup_subtree_app p q). destruct (lookup_subtree p t); try discriminate. eauto. Qed.

Theorem C51_certified_entry_verifies :
  forall (H : bytes -> bytes) (ops : list http_op) (t : ntree) (en : entry) (request_url path : bytes),
  http_run H ops = Some t -> held ops en -> answers ops (en_path en) path ->
  request_parts request_url = request_parts path ->
  unreserved (en_path en) path ->
  exists w, http_witness H t en request_url = OOk w /\ digest H w = http_root_hash H t /\
    validate_expr_path (expr_path (en_path en)) path w = true /\
    lookup_path (expr_path (en_path en) ++ cert_tree_path (en_certification en)) w = Found [].
Proof.
  intros H ops t en url path R He A U UR.
  destruct (http_run_ok H ops) as (t' & R' & K & _ & Q). assert (t' = t) by congruence. subst t'. clear R'.
  destruct (C52_witness_never_panics H ops) as (t' & R' & D). assert (t' = t) by congruence. subst t'. clear R'. specialize (D en url).
  assert (WT : wf (nhtree H t)) by apply (nok_tree H t K).
  assert (S := witness_shows H ops t en url R).
  destruct D as [(w & E & D)|(E & p & EP & L)].
  2:{ exfalso. rewrite EP in A. destruct A as (M & _). apply matches_length in M. rewrite U in L. lia. }
  rewrite E in S. destruct S as (m & -> & Pm & S). exists (HLabeled (bs "http_expr") m). split; [exact E|]. split; [exact D|].
  assert (Wm : wf m) by (eapply prunes_wf; eassumption).
  assert (XP := proj1 (proj2 (proj2 (C53_expr_path_is_verifier_path []))) (en_path en)).
  unfold held, entry_tree_path in He. unfold entry_tree_path in S.
  assert (F : lookup_path (expr_path (en_path en) ++ cert_tree_path (en_certification en)) (HLabeled (bs "http_expr") m) = Found []).
  { rewrite XP. cbn [app]. rewrite (proj1 (lookup_root _ _ _)).
    destruct (en_path en) as [p|p] eqn:EP.
    - destruct S as (w & Ew & Pw). apply (found_mono H m w _ _ Pw Wm).
      assert (Z := reveals_held H ops t _ [] w R Ew). rewrite !app_nil_r in Z. apply Z. exact He.
    - destruct S as (l & El & _ & S). unfold path_tree_path in *. rewrite path_to_segments_parts in *. change wildcard_terminator with (bs "<*>") in *.
      destruct (S (request_parts p ++ [bs "<*>"])) as (w & Ew & Pw); [right; left; reflexivity|].
      apply (found_mono H m w _ _ Pw Wm). apply (reveals_held H ops t _ _ w R Ew). exact He. }
  split; [|exact F].
  destruct (found_prefix _ _ _ _ F) as (s & Fs).
  destruct (en_path en) as [p|p] eqn:EP; cbn [answers] in A.
  - rewrite (proj1 (C53_expr_path_is_verifier_path p)) in *. change (bs "http_expr" :: request_parts p ++ [bs "<$>"]) with ((bs "http_expr" :: request_parts p) ++ [bs "<$>"]) in *.
    apply C37_exact_path_accepted_iff. rewrite A. split; [reflexivity|]. rewrite <- A. eauto.
  - destruct A as (M & NE & NM). destruct S as (l & El & _ & S). destruct UR as [OP NP].
    rewrite (proj1 (proj2 (C53_expr_path_is_verifier_path p))) in *. rewrite U in *.
    assert (RS := parts_segments path OP).
    destruct (C35_canister_side _ _ RS NP M) as (l1 & E1 & _ & I1). destruct (C35_lists_exactly_the_more_specific _ _ RS M) as (l2 & E2 & _ & I2).
    assert (El' : l = map (fun p => p ++ [bs "<*>"]) l1) by congruence. subst l. clear El E1.
    assert (AB : forall q, In q ((request_parts path ++ [bs "<$>"]) :: map (fun p => p ++ [bs "<*>"]) l1) -> ~ occupied ops q ->
              path_might_exist (path_prefix :: q) (HLabeled (bs "http_expr") m) = false).
    { intros q I O. unfold path_might_exist. change path_prefix with (bs "http_expr"). rewrite (proj2 (lookup_root _ _ _)).
      destruct (S q) as (w & Ew & Pw); [destruct I as [I|I]; [left|right; right]; exact I|].
      rewrite (absent_mono H m w q Pw Wm); [reflexivity|]. apply (nowhere_absent H ops t q w R Ew); [|exact O].
      destruct I as [<-|I]; [intro Z; apply app_eq_nil in Z; destruct Z; discriminate|].
      apply in_map_iff in I. destruct I as (x & <- & _). intro Z; apply app_eq_nil in Z; destruct Z; discriminate. }
    unfold validate_expr_path. change exact_terminator with (bs "<$>"). change wildcard_terminator with (bs "<*>") in *.
    change (first_is (bs "http_expr" :: request_parts p ++ [bs "<*>"]) path_prefix) with true. cbn [negb].
    change (bs "http_expr" :: request_parts p ++ [bs "<*>"]) with ((bs "http_expr" :: request_parts p) ++ [bs "<*>"]).
    rewrite !last_is_snoc. change (bytes_eqb (bs "<*>") (bs "<$>")) with false. change (bytes_eqb (bs "<*>") (bs "<*>")) with true. cbn [negb orb].
    destruct (path_eqb_spec ((bs "http_expr" :: request_parts p) ++ [bs "<*>"]) ((path_prefix :: request_parts path) ++ [bs "<$>"])) as [X|_].
    { apply app_inj_tail in X. destruct X as [_ X]. discriminate X. }
    change ((path_prefix :: request_parts path) ++ [bs "<$>"]) with (path_prefix :: (request_parts path ++ [bs "<$>"])).
    rewrite (AB (request_parts path ++ [bs "<$>"])); [|left; reflexivity|exact NE].
    rewrite removelast_last.
    assert (V : wildcard_valid (bs "http_expr" :: request_parts p) (path_prefix :: request_parts path) = true).
    { apply valid_matches. left. destruct M as [(s' & E')|(p' & x & s' & E' & E'')].
      - left. exists s'. cbn [app]. rewrite E'. reflexivity.
      - right. exists (bs "http_expr" :: p'), x, s'. rewrite E', E''. split; reflexivity. }
    rewrite V. cbn [negb].
    change (more_specific_wildcards_for (path_prefix :: request_parts path) ((bs "http_expr" :: request_parts p) ++ [bs "<*>"]))
      with (more_specific_wildcards_for (bs "http_expr" :: request_parts path) (bs "http_expr" :: request_parts p ++ [bs "<*>"])).
    rewrite E2. apply andb_true_intro. split.
    + apply forallb_forall. intros q I. apply in_map_iff in I. destruct I as (u & <- & I). apply I2 in I.
      assert (I' : In u l1) by (apply I1; exact I). rewrite AB; [reflexivity|right; apply in_map_iff; eauto|]. apply NM; apply I.
    + unfold path_exists. change ((bs "http_expr" :: request_parts p) ++ [bs "<*>"]) with (bs "http_expr" :: request_parts p ++ [bs "<*>"]).
      change (bs "<*>") with (bs "<*>"). rewrite Fs. reflexivity.
Qed.
Print Assumptions C51_certified_entry_verifies.

(** ** C51, end to end through [verify_request_response_pair] *)
Lemma strings_prunes H t w : prunes H t w -> incl (strings_of w) (strings_of t).
Proof.
  intro P. induction P as [ | v | h | l r l' r' P1 IH1 P2 IH2 | lbl t t' P IH | t]; simpl; try apply incl_refl.
  - apply incl_app; [apply incl_appl|apply incl_appr]; assumption.
  - apply incl_cons; [left; reflexivity|apply incl_tl; exact IH].
  - intros x [].
Qed.
Lemma strings_at x t : wf t -> In x (strings_of t) -> exists p s, at_path p t s /\ (In x p \/ s = HLeaf x).
Proof.
  induction t as [|l IHl r IHr|k t IH|v|h]; simpl; try contradiction.
  - intros (Wl & Wr & Fl & Fr & _) I. apply in_app_iff in I. destruct I as [I|I].
    + destruct (IHl Wl I) as (p & s & A & B). inversion A as [|k p' ? c ? Ch A']; subst.
      * destruct B as [[]| ->]. discriminate Fl.
      * exists (k :: p'), s. split; [|exact B]. econstructor; [apply ChLeft; exact Ch|exact A'].
    + destruct (IHr Wr I) as (p & s & A & B). inversion A as [|k p' ? c ? Ch A']; subst.
      * destruct B as [[]| ->]. discriminate Fr.
      * exists (k :: p'), s. split; [|exact B]. econstructor; [apply ChRight; exact Ch|exact A'].
  - intros W [<-|I].
    + exists [k], t. split; [|left; left; reflexivity]. econstructor; constructor.
    + destruct (IH W I) as (p & s & A & B). exists (k :: p), s. split; [econstructor; [constructor|exact A]|]. destruct B as [B|B]; [left; right; exact B|right; exact B].
  - intros _ [<-|[]]. exists [], (HLeaf v). split; [constructor|right; reflexivity].
Qed.
Lemma holds_inserted ops q v : holds (map http_nop ops) q v -> exists en, In (HInsert en) ops /\ q = entry_tree_path en /\ v = [].
Proof.
  induction ops as [|o ops IH] using rev_ind; rewrite ?map_app; cbn [map]; intro X.
  - inversion X; destruct ops; discriminate.
  - apply holds_snoc_inv in X. destruct o as [en|en|]; cbn [http_nop] in X.
    + destruct X as [[-> ->]|[X _]]; [exists en; split; [apply in_or_app; right; left; reflexivity|auto]|].
      destruct (IH X) as (e & I & R). exists e. split; [apply in_or_app; left; exact I|exact R].
    + destruct X as [X _]. destruct (IH X) as (e & I & R). exists e. split; [apply in_or_app; left; exact I|exact R].
    + contradiction.
Qed.
(** every string in the tree is a segment of an inserted entry, or empty *)
Lemma tree_strings H ops t x : http_run H ops = Some t -> In x (strings_of (nhtree H t)) ->
  x = [] \/ exists en, In (HInsert en) ops /\ In x (entry_tree_path en).
Proof.
  intros R I. destruct (http_run_ok H ops) as (t' & R' & K & _ & Q). assert (t' = t) by congruence. subst t'.
  destruct (nok_tree H t K) as (_ & W & F). destruct (strings_at x _ W I) as (p & s & A & [B|B]).
  - right. assert (N : p <> []) by (intros ->; contradiction).
    destruct (contains_path p t) eqn:C.
    + apply (C17_no_empty_subtrees H (map http_nop ops) t R) in C; [|exact N]. destruct C as (q & v & X).
      destruct (holds_inserted ops _ _ X) as (en & Ie & E & _). exists en. split; [exact Ie|]. rewrite <- E. apply in_or_app. left. exact B.
    + exfalso. destruct (C18_nested_witness_decides_path H (map http_nop ops) t p R) as (w & Ew & _ & _ & Z & _).
      destruct Z as [_ Z].
      { intros q v X. assert (contains_path p t = true) by (apply (C17_no_empty_subtrees H (map http_nop ops) t R); eauto). congruence. }
      destruct (nwitness_ok H p t K) as (w' & Ew' & P & _). assert (w' = w) by congruence. subst w'.
      generalize (lookup_subtree_sound H p _ _ W F P). rewrite (Z N). intro Y. exact (Y s A).
  - left. subst s. apply (lookup_path_at_iff p _ x W) in A. apply (C11_nested_root_hash_is_digest H (map http_nop ops) t R) in A.
    apply holds_inserted in A. destruct A as (_ & _ & _ & A). exact A.
Qed.
Lemma prunes32 H t w : (forall x, length (H x) = 32%nat) -> full t = true -> prunes H t w -> CborSpec.hashes32 w.
Proof.
  intros HL F P. revert F. induction P as [ | v | h | l r l' r' P1 IH1 P2 IH2 | lbl t t' P IH | t]; simpl; intro F; auto; try discriminate.
  - apply andb_prop in F. destruct F. auto.
  - apply digest_len; [exact HL|]. clear -F. induction t; simpl in *; auto; try discriminate. apply andb_prop in F. destruct F as [F1 F2]. rewrite IHt1, IHt2 by assumption. reflexivity.
Qed.

Lemma last_header_snoc name hs n v : same_name n name -> last_header name (hs ++ [(n, v)]) v.
Proof. intro S. exists hs, n, []. auto. Qed.
Lemma last_header_other name hs n v x : ~ same_name n name -> last_header name hs x -> last_header name (hs ++ [(n, v)]) x.
Proof.
  intros S (a & m & b & -> & M & F). exists a, m, (b ++ [(n, v)]). rewrite <- app_assoc. split; [reflexivity|]. split; [exact M|].
  apply Forall_app. split; [exact F|]. constructor; [exact S|constructor].
Qed.
Lemma filter_loop_app c hs1 hs2 : forall o, filter_loop c (hs1 ++ hs2) o =
  (fst (filter_loop c hs1 o) ++ fst (filter_loop c hs2 (snd (filter_loop c hs1 o))), snd (filter_loop c hs2 (snd (filter_loop c hs1 o)))).
Proof.
  induction hs1 as [|[n v] hs1 IH]; intro o; cbn [app filter_loop].
  - cbn [fst snd app]. destruct (filter_loop c hs2 o); reflexivity.
  - destruct (eq_nocase n certificate_header_name); [apply IH|]. rewrite IH. destruct (filter_loop c hs1 o) as [out cert]. cbn [fst snd].
    destruct (eq_nocase n cert_expr_header_name); [reflexivity|]. destruct (headers_filter c n); reflexivity.
Qed.
Lemma filter_certificate_added c rs hv :
  filter_response_headers (add_header rs (certificate_header_name, hv)) c = (fst (filter_response_headers rs c), Some hv).
Proof.
  unfold filter_response_headers, add_header. cbn [rs_headers]. rewrite filter_loop_app. cbn [filter_loop].
  change (eq_nocase certificate_header_name certificate_header_name) with true. cbn [fst snd]. rewrite app_nil_r. reflexivity.
Qed.
Lemma single_last rs expr : single_expression rs expr -> last_header (bs "IC-CertificateExpression") (rs_headers rs) expr.
Proof. intros (a & n & b & E & S & _ & B). exists a, n, b. auto. Qed.
Lemma response_hash_added H rs rc hv : response_hash H (add_header rs (certificate_header_name, hv)) rc None = response_hash H rs rc None.
Proof. unfold response_hash. rewrite filter_certificate_added. reflexivity. Qed.
Lemma split_short c s : Forall (fun p => (length p <= length s)%nat) (split_on c s).
Proof.
  induction s as [|b s IH]; simpl; [constructor; auto|]. destruct (byte_eqb b c).
  - constructor; [simpl; lia|]. eapply Forall_impl; [|exact IH]. simpl. intros; lia.
  - destruct (split_on c s) as [|p ps]; [constructor; [simpl; lia|constructor]|]. inversion IH; subst. constructor; [simpl; lia|].
    eapply Forall_impl; [|eassumption]. simpl. intros; lia.
Qed.
Lemma parts_utf8 umod p : (0 < umod)%N -> utf8_valid p = true -> short umod p -> Forall (fun s => utf8_valid s = true /\ short umod s) (request_parts p).
Proof.
  intros P U S. unfold request_parts. apply Forall_app. split.
  - apply Forall_forall. intros s I. apply filter_In in I. destruct I as [I _].
    assert (A := utf8_split "/" p ltac:(reflexivity) U). assert (B := split_short "/" p). rewrite Forall_forall in A, B.
    split; [apply A; exact I|]. specialize (B s I). unfold short in *. lia.
  - destruct (ends_with_slash p); constructor; [split; [reflexivity|exact P]|constructor].
Qed.
Lemma split_count c s : (length (split_on c s) <= S (length s))%nat.
Proof.
  induction s as [|b s IH]; simpl; [lia|]. destruct (byte_eqb b c); [simpl; lia|]. destruct (split_on c s); simpl in *; lia.
Qed.
Lemma filter_count {A} (f : A -> bool) l : (length (filter f l) <= length l)%nat.
Proof. induction l; simpl; [lia|]. destruct (f a); simpl; lia. Qed.
Lemma parts_count p : (length (request_parts p) <= length p + 2)%nat.
Proof.
  unfold request_parts. rewrite app_length. assert (A := filter_count (fun s => negb (is_nil s)) (split_on "/" p)). assert (B := split_count "/" p).
  destruct (ends_with_slash p); simpl; lia.
Qed.
Lemma expr_path_utf8 umod p : (32 < umod)%N -> utf8_valid (path_text p) = true -> (N.of_nat (length (path_text p)) + 4 < umod)%N ->
  Forall (fun s => utf8_valid s = true /\ short umod s) (expr_path p) /\ (N.of_nat (length (expr_path p)) < umod)%N.
Proof.
  intros P U S. assert (X : exists x, expr_path p = bs "http_expr" :: request_parts (path_text p) ++ [x] /\ (x = bs "<$>" \/ x = bs "<*>")).
  { destruct p as [p|p]; cbn [path_text]; [rewrite (proj1 (C53_expr_path_is_verifier_path p))|rewrite (proj1 (proj2 (C53_expr_path_is_verifier_path p)))]; eauto. }
  destruct X as (x & E & X). rewrite E. split.
  - constructor; [split; [reflexivity|unfold short; simpl; lia]|]. apply Forall_app. split; [apply parts_utf8; [lia|exact U|unfold short; lia]|].
    constructor; [|constructor]. destruct X as [-> | ->]; (split; [reflexivity|unfold short; simpl; lia]).
  - cbn [length]. rewrite app_length. simpl. assert (C := parts_count (path_text p)). lia.
Qed.

(** A certified response is accepted.  [rq0] is the request the certification
    was made for; [rq] the one being answered. *)
Theorem C51_certified_response_is_accepted :
  forall (umod cap_max : N) (checked : bool) (H : bytes -> bytes) ple vs uri_path uri_query gunzip inflate
         (ops : list http_op) (t : ntree) (en : entry) (ce : cel) (rq0 rq : request) (rs : response) (request_url path : bytes)
         (data_certificate : bytes) (c : certificate) (w : htree) canister_id now offset key min_version,
  (forall x, length (H x) = 32%nat) -> (32 < umod <= 2 ^ 64)%N -> (min_version <= 2)%N ->
  (* the tree holds the entry, made for this expression and response *)
  http_run H ops = Some t -> held ops en -> made H uri_query ce rq0 rs (en_certification en) ->
  Forall plain_name (cel_names ce) ->
  (ce = CelSkip -> last_header (bs "IC-CertificateExpression") (rs_headers rs) (print_cel ce)) ->
  (forall qc rc, ce = CelFull qc rc -> request_hash H uri_query rq qc = request_hash H uri_query rq0 qc) ->
  (* the entry answers the request *)
  path_of uri_path rq path -> answers ops (en_path en) path -> request_parts request_url = request_parts path ->
  unreserved (en_path en) path ->
  (* strings fit in memory, paths are strings *)
  Forall (fun o => match o with HInsert e => Forall (short umod) (entry_tree_path e) | _ => True end) ops ->
  utf8_valid (path_text (en_path en)) = true -> (N.of_nat (length (path_text (en_path en))) + 4 < umod)%N ->
  (* the certificate is valid and certifies the tree's root hash *)
  cert_from_cbor umod cap_max data_certificate = OOk c ->
  verify_certificate umod cap_max checked H ple vs c canister_id key now offset = OOk tt ->
  lookup_path (certified_data_path canister_id) (c_tree c) = Found (http_root_hash H t) ->
  http_witness H t en request_url = OOk w ->
  exists i,
  verify umod cap_max checked H ple vs uri_path uri_query gunzip inflate rq
    (add_v2_certificate_header data_certificate rs w (expr_path (en_path en))) canister_id now offset key min_version = OOk i /\
  i_version i = 2%N /\
  match ce with
  | CelSkip => i_response i = None
  | CelResponseOnly rc | CelFull _ rc => exists v hs hv, i_response i = Some v /\
      v_status v = Some (rs_status rs) /\ v_body v = rs_body rs /\ v_headers v = hs ++ [(bs "IC-Certificate", hv)] /\ picks (covered rc) (rs_headers rs) hs
  end.
Proof.
  intros umod cap ck H ple vs up uq gz df ops t en ce rq0 rq rs url path dc c w cid now off key mv
    HL UM MV R He Ma PN SK RH PO A U UR Sh U8 Len Ec Vc Lc Ew.
  destruct (C51_certified_entry_verifies H ops t en url path R He A U UR) as (w' & Ew' & D & V & L).
  assert (w' = w) by congruence. subst w'. clear Ew'.
  assert (X := witness_shows H ops t en url R). rewrite Ew in X. destruct X as (m & Em & Pm & _).
  destruct (http_run_ok H ops) as (t' & R' & K & _ & Q). assert (t' = t) by congruence. subst t'.
  assert (H32 : CborSpec.hashes32 w). { subst w. simpl. eapply prunes32; [exact HL|apply nhtree_full|exact Pm]. }
  assert (SS : Forall (short umod) (strings_of w)).
  { subst w. cbn [strings_of]. constructor; [unfold short; simpl; lia|]. apply Forall_forall. intros x I. apply (strings_prunes H _ _ Pm) in I.
    destruct (tree_strings H ops t x R I) as [->|(e & Ie & Ix)]; [unfold short; simpl; lia|].
    rewrite Forall_forall in Sh. specialize (Sh _ Ie). cbn in Sh. rewrite Forall_forall in Sh. auto. }
  destruct (expr_path_utf8 umod (en_path en) ltac:(lia) U8 Len) as [EU EL].
  assert (HH := C44_certificate_header_round_trip umod cap dc c w (expr_path (en_path en)) UM Ec H32 SS EU EL).
  set (hv := v2_certificate_header dc w (expr_path (en_path en))) in *.
  assert (LE : last_header (bs "IC-CertificateExpression") (rs_headers rs) (print_cel ce) /\
    shown_entry H uq w (expr_path (en_path en)) (print_cel ce) ce rq (add_header rs (certificate_header_name, hv))).
  { assert (LS : forall p, lookup_path p w = Found [] -> lookup_subtree p w = SFound (HLeaf [])).
    { intros p. rewrite lookup_path_subtree_all. destruct (lookup_subtree p w) as [| |[]]; intro Z; try discriminate Z. injection Z as ->. reflexivity. }
    apply LS in L. inversion Ma as [q0 r0 E1 E2 E3 E4|rc q0 r0 bh ec BH CE E1 E2 E3 E4|qc rc q0 r0 bh ec BH CE E1 E2 E3 E4]; subst.
    - split; [auto|]. unfold shown_entry. rewrite <- E4 in L. cbn [cert_tree_path certify_skip] in L. eauto.
    - apply (C54_requires_exact_cel_header H uq (mk_request_cert [] []) rc rq) in CE. destruct CE as [CE E]. split; [apply single_last; exact CE|].
      unfold shown_entry. rewrite response_hash_added. rewrite E in L. cbn [cert_tree_path] in L. unfold response_hash in *.
      destruct BH as [-> | ->]; exact L.
    - apply (C54_requires_exact_cel_header H uq qc rc rq0) in CE. destruct CE as [CE (h & Eh & E)]. split; [apply single_last; exact CE|].
      unfold shown_entry. rewrite response_hash_added. exists h. split; [rewrite (RH qc rc eq_refl); exact Eh|].
      rewrite E in L. cbn [cert_tree_path] in L. unfold response_hash in *. destruct BH as [-> | ->]; exact L. }
  destruct LE as [LE SE].
  set (o := match ce with
            | CelSkip => None
            | CelResponseOnly rc | CelFull _ rc => Some (mk_verified (Some (rs_status rs)) (fst (filter_response_headers rs rc) ++ [(certificate_header_name, hv)]) (rs_body rs))
            end).
  exists (mk_info o 2).
  assert (Y : verify umod cap ck H ple vs up uq gz df rq (add_v2_certificate_header dc rs w (expr_path (en_path en))) cid now off key mv = OOk (mk_info o 2) /\ i_version (mk_info o 2) = 2%N).
  { apply verify_v2_spec. exists hv, (mk_header c w 2 (Some (expr_path (en_path en)))), (print_cel ce), (expr_path (en_path en)), ce.
    unfold add_v2_certificate_header. fold hv. cbn [rs_headers add_header].
    split; [apply last_header_snoc; apply eq_nocase_spec; reflexivity|]. split; [exact HH|]. split; [reflexivity|]. split; [exact MV|].
    split; [apply last_header_other; [apply eq_nocase_false; reflexivity|exact LE]|]. split; [apply C30_cel_round_trip; exact PN|]. split; [reflexivity|].
    cbn [h_tree h_cert]. apply (v2_spec umod cap ck H ple vs up uq rq _ cid now off w c _ (H (print_cel ce)) (print_cel ce) key _ eq_refl).
    split; [exists path; split; [apply C63_request_path_exact; exact PO|exact V]|]. split; [exact Vc|].
    split; [apply validate_tree_spec; rewrite D; exact Lc|]. split; [exact SE|]. split; [|reflexivity].
    unfold o, shown_response. cbn [i_response]. destruct ce as [|rc|qc rc]; [reflexivity| |];
      (exists hv; change (mk_response (rs_status rs) (rs_headers rs ++ [(certificate_header_name, hv)]) (rs_body rs)) with (add_header rs (certificate_header_name, hv));
       rewrite filter_certificate_added; split; reflexivity). }
  destruct Y as [Y _]. split; [exact Y|]. split; [reflexivity|]. unfold o. cbn [i_response].
  destruct ce as [|rc|qc rc]; [reflexivity| |]; (eexists; exists (fst (filter_response_headers rs rc)), hv;
    split; [reflexivity|]; split; [reflexivity|]; split; [reflexivity|]; split; [reflexivity|apply C29_header_filter_exact]).
Qed.
Print Assumptions C51_certified_response_is_accepted.

(** ** C55: skip certification *)
Fixpoint chain (l : list bytes) : htree := match l with [] => HLeaf [] | k :: r => HLabeled k (chain r) end.
Lemma chain_lookup l : forall q, lookup_subtree q (chain l) = SAbsent \/ is_prefix q l.
Proof.
  induction l as [|k l IH]; intros [|x q]; try (right; exists []; reflexivity); try (right; eexists; reflexivity); simpl.
  - left. reflexivity.
  - destruct (bcmp x k) eqn:E.
    + apply bcmp_eq in E. subst x. destruct (IH q) as [A|(r & ->)]; [left; exact A|right]. exists r. reflexivity.
    + left. reflexivity.
    + left. reflexivity.
Qed.
Lemma skip_chain H : skip_tree H = chain [bs "http_expr"; bs "<*>"; H (print_cel CelSkip)].
Proof. reflexivity. Qed.
Lemma msw_loop_nonempty fuel : forall q l, msw_loop fuel q [] = Some l -> Forall (fun p => exists v, p = v ++ [bs "<*>"] /\ v <> []) l.
Proof.
  induction fuel as [|f IH]; intros q l; cbn [msw_loop length];
    (destruct q as [|x q]; [cbn; intro E; injection E as <-; constructor|]); cbn [length Nat.ltb Nat.leb orb].
  - discriminate.
  - match goal with |- option_map _ (msw_loop f ?q' []) = _ -> _ => destruct (msw_loop f q' []) as [l'|] eqn:E; [|discriminate] end.
    intro X. injection X as <-. constructor; [exists (x :: q); split; [reflexivity|discriminate]|]. eapply IH. exact E.
Qed.
Theorem C55_skip_path_accepted :
  forall (H : bytes -> bytes), (forall x, length (H x) = 32%nat) -> forall path : bytes,
  validate_expr_path (expr_path (PWildcard [])) path (skip_tree H) = true.
Proof.
  intros H HL path. change (expr_path (PWildcard [])) with [bs "http_expr"; bs "<*>"]. unfold validate_expr_path.
  change (first_is [bs "http_expr"; bs "<*>"] path_prefix) with true. cbn [negb].
  change (last_is [bs "http_expr"; bs "<*>"] exact_terminator || last_is [bs "http_expr"; bs "<*>"] wildcard_terminator) with true. cbn [negb].
  destruct (path_eqb_spec [bs "http_expr"; bs "<*>"] ((path_prefix :: request_parts path) ++ [exact_terminator])) as [X|_].
  { change [bs "http_expr"; bs "<*>"] with ([bs "http_expr"] ++ [bs "<*>"]) in X. apply app_inj_tail in X. destruct X as [_ X]. discriminate X. }
  change (last_is [bs "http_expr"; bs "<*>"] exact_terminator) with false.
  assert (AB : forall v x, (v <> [] \/ x = bs "<$>") -> (x = bs "<$>" \/ x = bs "<*>") -> path_might_exist (path_prefix :: v ++ [x]) (skip_tree H) = false).
  { intros v x N X. unfold path_might_exist. rewrite skip_chain.
    destruct (chain_lookup [bs "http_expr"; bs "<*>"; H (print_cel CelSkip)] (path_prefix :: v ++ [x])) as [->|(r & E)]; [reflexivity|exfalso].
    injection E as E. assert (LX : length x = 3%nat) by (destruct X as [-> | ->]; reflexivity).
    destruct v as [|a [|b v]].
    - injection E as <- _. destruct N as [N|N]; [congruence|discriminate N].
    - injection E as _ <- _. rewrite HL in LX. discriminate.
    - injection E as _ _ E. destruct v; discriminate E. }
  change ((path_prefix :: request_parts path) ++ [exact_terminator]) with (path_prefix :: request_parts path ++ [bs "<$>"]).
  rewrite (AB (request_parts path) (bs "<$>")) by auto.
  assert (V : wildcard_valid (removelast [bs "http_expr"; bs "<*>"]) (path_prefix :: request_parts path) = true).
  { apply valid_matches. left. left. exists (request_parts path). reflexivity. }
  rewrite V. cbn [negb].
  destruct (C34_more_specific_wildcards_terminates (path_prefix :: request_parts path) [bs "http_expr"; bs "<*>"]) as (l & E & _). rewrite E.
  unfold more_specific_wildcards_for in E. change (strip_path_affixes [bs "http_expr"; bs "<*>"]) with (@nil bytes) in E.
  assert (W : forall q : list bytes, (if wildcard_valid [] q then [] else []) = @nil bytes) by (intro q; destruct (wildcard_valid [] q); reflexivity).
  rewrite W in E. apply msw_loop_nonempty in E. apply andb_true_intro. split.
  - apply forallb_forall. intros q I. rewrite Forall_forall in E. destruct (E q I) as (v & -> & N). rewrite AB by auto. reflexivity.
  - reflexivity.
Qed.
Print Assumptions C55_skip_path_accepted.
Theorem C55_skip_response_is_accepted :
  forall (umod cap_max : N) (checked : bool) (H : bytes -> bytes) ple vs uri_path uri_query gunzip inflate
         (rq : request) (rs : response) (path data_certificate : bytes) (c : certificate) canister_id now offset key min_version,
  (forall x, length (H x) = 32%nat) -> (32 < umod <= 2 ^ 64)%N -> (min_version <= 2)%N ->
  path_of uri_path rq path ->
  cert_from_cbor umod cap_max data_certificate = OOk c ->
  verify_certificate umod cap_max checked H ple vs c canister_id key now offset = OOk tt ->
  lookup_path (certified_data_path canister_id) (c_tree c) = Found (skip_certified_data H) ->
  verify umod cap_max checked H ple vs uri_path uri_query gunzip inflate rq
    (add_skip_certification_header H data_certificate rs) canister_id now offset key min_version = OOk (mk_info None 2).
Proof.
  intros umod cap ck H ple vs up uq gz df rq rs path dc c cid now off key mv HL UM MV PO Ec Vc Lc.
  assert (HH : header_from umod cap (v2_certificate_header dc (skip_tree H) (expr_path (PWildcard []))) = OOk (mk_header c (skip_tree H) 2 (Some (expr_path (PWildcard []))))).
  { apply C44_certificate_header_round_trip; [exact UM|exact Ec|exact I| | |simpl; lia].
    - cbn [skip_tree strings_of]. repeat constructor; unfold short; try rewrite HL; simpl; lia.
    - repeat constructor; unfold short; simpl; lia. }
  assert (Y : verify umod cap ck H ple vs up uq gz df rq (add_skip_certification_header H dc rs) cid now off key mv = OOk (mk_info None 2) /\ i_version (mk_info None 2) = 2%N).
  { apply verify_v2_spec. eexists. exists (mk_header c (skip_tree H) 2 (Some (expr_path (PWildcard [])))), (print_cel CelSkip), (expr_path (PWildcard [])), CelSkip.
    split. { unfold add_skip_certification_header, add_v2_certificate_header, add_header. cbn [rs_headers].
             apply last_header_other; [apply eq_nocase_false; reflexivity|]. apply last_header_snoc. apply eq_nocase_spec. reflexivity. }
    split; [exact HH|]. split; [reflexivity|]. split; [exact MV|].
    split. { unfold add_skip_certification_header, add_header at 1. cbn [rs_headers]. apply last_header_snoc. apply eq_nocase_spec. reflexivity. }
    split; [apply C30_cel_round_trip; constructor|]. split; [reflexivity|]. cbn [h_tree h_cert].
    apply (v2_spec umod cap ck H ple vs up uq rq _ cid now off (skip_tree H) c _ (H (print_cel CelSkip)) (print_cel CelSkip) key _ eq_refl).
    split; [exists path; split; [apply C63_request_path_exact; exact PO|apply C55_skip_path_accepted; exact HL]|].
    split; [exact Vc|]. split; [apply validate_tree_spec; exact Lc|]. split; [|split; reflexivity].
    exists (HLeaf []). change (expr_path (PWildcard []) ++ [H (print_cel CelSkip)]) with [bs "http_expr"; bs "<*>"; H (print_cel CelSkip)].
    unfold skip_tree. rewrite (proj2 (lookup_root _ _ _)), (proj2 (lookup_root _ _ _)), (proj2 (lookup_root _ _ _)). reflexivity. }
  apply Y.
Qed.
Print Assumptions C55_skip_response_is_accepted.
Lemma at_chain l : forall q s, at_path q (chain l) s -> is_prefix q l.
Proof.
  induction l as [|k l IH]; intros q s A; inversion A as [|? ? ? ? ? Ch A']; subst; try (eexists; reflexivity).
  - inversion Ch.
  - inversion Ch; subst. apply IH in A'. destruct A' as (r & ->). exists r. reflexivity.
Qed.
(** No response accepted from a canister that skips certification is presented as verified content. *)
Theorem C55_skip_never_shows_content :
  forall umod cap_max checked (H : bytes -> bytes) ple vs uri_path uri_query gunzip inflate key (Root : htree -> Prop) (Sub : bytes -> htree -> Prop),
  (forall x, length (H x) = 32%nat) -> unforgeable H vs key Root Sub ->
  forall rq rs canister_id now offset min_version i,
  (forall St d, speaks_for umod cap_max ple Root Sub canister_id St -> at_path (certified_data_path canister_id) St (HLeaf d) -> d = skip_certified_data H) ->
  verify umod cap_max checked H ple vs uri_path uri_query gunzip inflate rq rs canister_id now offset key min_version = OOk i ->
  i_response i = None \/
  exists hv hd, last_header (bs "IC-Certificate") (rs_headers rs) hv /\ header_from umod cap_max hv = OOk hd /\
    (certificate_collision umod cap_max H Root Sub (h_cert hd) \/ collision H (preimages H (skip_tree H)) (preimages H (h_tree hd))).
Proof.
  intros umod cap ck H ple vs up uq gz df key Root Sub HL UF rq rs cid now off mv i CD V.
  assert (WF : wf (skip_tree H) /\ full (skip_tree H) = true) by (split; [exact I|reflexivity]).
  destruct (C46_no_success_below_version _ _ _ _ _ _ _ _ _ _ _ _ _ _ _ _ _ _ V) as (_ & [V1|V2] & _).
  - destruct (C49_v1_soundness umod cap ck H ple vs up uq gz df key Root Sub HL UF rq rs cid now off mv i V V1) as (_ & hv & hd & path & enc & d & L & Hd & _ & _ & _ & C).
    right. exists hv, hd. split; [exact L|]. split; [exact Hd|]. destruct C as [C|(St & data & Sp & At & C)]; [left; exact C|].
    apply (CD _ _ Sp) in At. destruct (C (skip_tree H)) as [X|X]; [apply WF|apply WF|symmetry; exact At|right; exact X|exfalso].
    assert (N : forall p s, ~ at_path (asset_path p) (skip_tree H) s).
    { intros p s A. rewrite skip_chain in A. apply at_chain in A. destruct A as (r & A). discriminate A. }
    destruct X as (v & _ & [X|[X _]]); exact (N _ _ X).
  - destruct (C47_v2_shows_canister_tree umod cap ck H ple vs up uq gz df key Root Sub HL UF rq rs cid now off mv i V V2) as (hv & hd & expr & e & c & path & L & Hd & LE & Ce & _ & C).
    destruct C as [C|(St & data & Sp & At & C)]; [right; exists hv, hd; auto|].
    apply (CD _ _ Sp) in At. destruct (C (skip_tree H)) as [X|[X _]]; [apply WF|apply WF|symmetry; exact At|right; exists hv, hd; auto|].
    destruct (C48_v2_returns_only_certified_data _ _ _ _ _ _ _ _ _ _ _ _ _ _ _ _ _ _ V V2) as (expr' & c' & LE' & Ce' & Sh).
    assert (expr' = expr) by (apply last_header_fun in LE, LE'; congruence). subst expr'. assert (c' = c) by congruence. subst c'.
    assert (N : forall k r s, ~ at_path (e ++ [H expr; k; r]) (skip_tree H) s).
    { intros k r s A. rewrite skip_chain in A. apply at_chain in A. destruct A as (q & A).
      assert (LL := f_equal (@length bytes) A). rewrite !app_length in LL. simpl in LL. destruct e; [|simpl in LL; lia].
      injection A as A _. assert (Z := HL expr). rewrite <- A in Z. discriminate Z. }
    destruct c as [|rc|qc rc]; [left; exact Sh|exfalso; exact (N _ _ _ X)|exfalso]. destruct X as (h & _ & X). exact (N _ _ _ X).
Qed.
Print Assumptions C55_skip_never_shows_content.
(** the constants of the repository's test and documentation (skip_certification.rs:40-41,100-106) *)
Example C55_certified_data_vector : map b2n (skip_certified_data sha256) =
  [85; 236; 195; 28; 62; 128; 71; 252; 21; 143; 32; 234; 10; 160; 96; 154; 172; 199; 181; 126; 6; 234; 64; 220; 65; 134; 2; 114; 167; 214; 66; 145]%N.
Proof. vm_compute. reflexivity. Qed.
Example C55_header_vector : rs_headers (add_skip_certification_header sha256 [x01; x02; x03] (mk_response 200 [] [])) =
  [(bs "IC-Certificate", bs "certificate=:AQID:, tree=:2dn3gwJJaHR0cF9leHBygwJDPCo+gwJYIMMautvQsFn51GT9bfTani3Ah659C0BGjTNyJtQTszcjggNA:, expr_path=:2dn3gmlodHRwX2V4cHJjPCo+:, version=2");
   (bs "IC-CertificateExpression", print_cel CelSkip)].
Proof. vm_compute. reflexivity. Qed.
Example C55_same_as_tree : option_map (http_root_hash sha256) (http_run sha256 [HInsert (mk_entry (PWildcard []) (certify_skip sha256))]) = Some (skip_certified_data sha256).
Proof. vm_compute. reflexivity. Qed.

(** ** C64: what the verifier accepts was certified *)
Lemma plain_or_error ce expr c : Forall token (cel_names ce) -> expr = print_cel ce -> cel_of_text expr = Some c -> c = ce.
Proof. intros T -> E. destruct (C31_header_names_partial ce T) as [[_ P]|[_ P]]; congruence. Qed.
Lemma token_params qc rc : Forall token (cel_names (CelFull qc rc)) -> ~ In [] (rc_query qc).
Proof.
  intros F I. rewrite Forall_forall in F. destruct (F []) as [N _]; [|congruence].
  cbn [cel_names]. apply in_or_app. right. apply in_or_app. left. exact I.
Qed.
Lemma at_root_inv k q t s : at_path (k :: q) (HLabeled (bs "http_expr") t) s -> k = bs "http_expr" /\ at_path q t s.
Proof. intro A. inversion A as [|? ? ? ? ? Ch A']; subst. inversion Ch; subst. auto. Qed.
Lemma at_path_app p q t s : at_path (p ++ q) t s -> exists u, at_path p t u.
Proof.
  revert t. induction p as [|k p IH]; intros t A; [exists t; constructor|].
  cbn [app] in A. inversion A as [|? ? ? ? ? Ch A']; subst. destruct (IH _ A') as (u & U). exists u. econstructor; eassumption.
Qed.
Lemma occupied_at H ops t p : http_run H ops = Some t -> occupied ops p -> exists s, at_path (bs "http_expr" :: p) (HLabeled (bs "http_expr") (nhtree H t)) s.
Proof.
  intros R (q & v & X). destruct (C11_nested_root_hash_is_digest H (map http_nop ops) t R) as (_ & _ & W & Q).
  apply Q in X. apply (lookup_path_at_iff _ _ _ W) in X. apply at_path_app in X. destruct X as (u & U). exists u. econstructor; [constructor|exact U].
Qed.

(** The entry's certification was made by the constructors, for an expression, request and response which
    the canister says it certified: [Src]. *)
Definition honest (H : bytes -> bytes) (uri_query : bytes -> option (option bytes)) (Src : entry -> cel -> request -> response -> Prop) (en : entry) : Prop :=
  exists ce rq rs, Src en ce rq rs /\ made H uri_query ce rq rs (en_certification en) /\ Forall token (cel_names ce) /\ no_pseudo (rq_headers rq) /\ no_pseudo (rs_headers rs).
(** An entry of a tree that certifies a request and response is one of the entries the history holds. *)
Lemma entry_of_tree :
  forall (H : bytes -> bytes) (uri_query : bytes -> option (option bytes)) (Made : entry -> cel -> request -> response -> Prop) (ops : list http_op) (t : ntree) rq rs e expr c path,
  (forall x, length (H x) = 32%nat) -> http_run H ops = Some t ->
  Forall (fun o => match o with HInsert en => exists ce rq0 rs0, Made en ce rq0 rs0 /\ made H uri_query ce rq0 rs0 (en_certification en) /\ Forall token (cel_names ce) /\ no_pseudo (rq_headers rq0) /\ no_pseudo (rs_headers rs0) | _ => True end) ops ->
  no_pseudo (rq_headers rq) -> no_pseudo (rs_headers rs) ->
  cel_of_text expr = Some c -> c <> CelSkip ->
  certified_entry H uri_query (HLabeled (bs "http_expr") (nhtree H t)) e expr c rq rs ->
  (ordinary_path path -> expression_path_for (HLabeled (bs "http_expr") (nhtree H t)) path e) ->
  exists en ce rq0 rs0, Made en ce rq0 rs0 /\ held ops en /\ made H uri_query ce rq0 rs0 (en_certification en) /\
     (ordinary_path path -> answers_or_slash ops (en_path en) path) /\
     (collision H [expr] [print_cel ce] \/
      expr = print_cel ce /\
      match ce with
      | CelSkip => False
      | CelResponseOnly rc => same_response H rc rs rs0
      | CelFull qc rc => same_response H rc rs rs0 /\ same_request H uri_query qc rq rq0
      end).
Proof.
  intros H uq Made ops t rq rs e expr c path HL R Ho NQ NR Ce NS X XP.
  destruct (http_run_ok H ops) as (t' & R' & K & _ & Q). assert (t' = t) by congruence. subst t'. clear R'.
  destruct (nok_tree H t K) as (DG & WT & FT).
  set (T := HLabeled (bs "http_expr") (nhtree H t)) in *.
  (* the entry: path e ++ [H expr; k; rsh] *)
  assert (En : exists k rc, c <> CelSkip /\
            at_path (e ++ [H expr; k; response_hash H rs rc None]) T (HLeaf []) /\
            (length k = 0%nat /\ c = CelResponseOnly rc \/ (length k = 32%nat /\ exists qc, c = CelFull qc rc /\ request_hash H uq rq qc = Some k))).
  { destruct c as [|rc|qc rc]; [congruence| |].
    - exists [], rc. split; [discriminate|]. split; [exact X|]. left. auto.
    - destruct X as (h & Eh & X). exists h, rc. split; [discriminate|]. split; [exact X|]. right. split; [|eauto].
      unfold request_hash in Eh. destruct (uq (rq_url rq)); [|discriminate]. injection Eh as <-. apply HL. }
  destruct En as (k & rc & _ & A & CK). clear X.
  destruct e as [|e0 e]. { exfalso. apply at_root_inv in A. destruct A as [A _]. assert (Z := HL expr). rewrite A in Z. discriminate Z. }
  cbn [app] in A. apply at_root_inv in A. destruct A as [-> A].
  apply (lookup_path_at_iff _ _ _ WT) in A. apply (C11_nested_root_hash_is_digest H (map http_nop ops) t R) in A.
  destruct (holds_inserted ops _ _ A) as (en & Ien & Een & _).
  assert (He : held ops en) by (unfold held; rewrite <- Een; exact A).
  rewrite Forall_forall in Ho. specialize (Ho _ Ien). cbn in Ho. destruct Ho as (ce & rq0 & rs0 & MG & Ma & Tk & NQ0 & NR0).
  exists en, ce, rq0, rs0. split; [exact MG|]. split; [exact He|]. split; [exact Ma|].
  (* the certification has three segments *)
  assert (Seg : exists rsh k' eh, e = path_tree_path (en_path en) /\ cert_tree_path (en_certification en) = [eh; k'; rsh] /\ eh = H expr /\ k' = k /\ rsh = response_hash H rs rc None).
  { unfold entry_tree_path in Een. destruct (en_certification en) as [eh|eh rsh|eh rqh rsh] eqn:Ec; cbn [cert_tree_path] in *.
    - exfalso. assert (Y : exists q x, path_tree_path (en_path en) = q ++ [x] /\ length x = 3%nat).
      { destruct (en_path en) as [p|p]; unfold path_tree_path; rewrite path_to_segments_parts; eexists; eexists; split; reflexivity. }
      destruct Y as (q & x & Y & Lx). rewrite Y in Een.
      change (e ++ [H expr; k; response_hash H rs rc None]) with (e ++ [H expr; k] ++ [response_hash H rs rc None]) in Een. rewrite app_assoc in Een.
      apply app_inj_tail in Een. destruct Een as [Een _].
      change [H expr; k] with ([H expr] ++ [k]) in Een. rewrite app_assoc in Een. apply app_inj_tail in Een. destruct Een as [_ Een].
      destruct CK as [[CK _]|[CK _]]; rewrite Een in CK; rewrite Lx in CK; discriminate.
    - apply app_inj_len_r in Een; [|reflexivity]. destruct Een as [E1 E2]. injection E2 as E2 E3 E4. exists rsh, [], eh. auto 6.
    - apply app_inj_len_r in Een; [|reflexivity]. destruct Een as [E1 E2]. injection E2 as E2 E3 E4. exists rsh, rqh, eh. auto 6. }
  destruct Seg as (rsh & k' & eh & Ep & Ect & Eeh & Ek & Er). split.
  - intro OP. destruct (XP OP) as [_ XX].
    assert (EX : bs "http_expr" :: e = expr_path (en_path en)) by (rewrite Ep; symmetry; apply (C53_expr_path_is_verifier_path [])).
    rewrite EX in XX. destruct (en_path en) as [p|p] eqn:EPP; cbn [answers_or_slash].
    + rewrite (proj1 (C53_expr_path_is_verifier_path p)) in XX. destruct XX as [XX|(v & XX & _)].
      * injection XX as XX. apply app_inj_tail in XX. apply XX.
      * injection XX as XX. apply app_inj_tail in XX. destruct XX as [_ XX]. discriminate XX.
    + rewrite (proj1 (proj2 (C53_expr_path_is_verifier_path p))) in XX. destruct XX as [XX|(v & XX & M & N1 & N2)].
      * injection XX as XX. apply app_inj_tail in XX. destruct XX as [_ XX]. discriminate XX.
      * injection XX as XX. apply app_inj_tail in XX. destruct XX as [XX _]. subst v. split; [exact M|]. split.
        -- intro O. destruct (occupied_at H ops t _ R O) as (s & S). exact (N1 s S).
        -- intros u Mu Su O. destruct (occupied_at H ops t _ R O) as (s & S). exact (N2 u Mu Su s S).
  - destruct (bytes_eq_dec expr (print_cel ce)) as [Ee|Ne].
    + right. split; [exact Ee|]. assert (c = ce) by (eapply plain_or_error; eassumption). subst c.
      assert (RH : forall rc0 bh, (bh = None \/ bh = Some (H (rs_body rs0))) -> rsh = response_hash H rs0 rc0 bh -> response_hash H rs rc None = response_hash H rs0 rc0 None).
      { intros rc0 bh BH E. rewrite <- Er, E. unfold response_hash. destruct BH as [-> | ->]; reflexivity. }
      assert (SR : forall rc0, response_hash H rs rc0 None = response_hash H rs0 rc0 None -> same_response H rc0 rs rs0).
      { intros rc0 E. destruct (C29_header_filter_exact rs rc0) as [P1 _]. destruct (C29_header_filter_exact rs0 rc0) as [P2 _].
        exists (fst (filter_response_headers rs rc0)), (fst (filter_response_headers rs0 rc0)). split; [exact P1|]. split; [exact P2|].
        apply (C27_response_hash_covers H rc0 rs rs0 _ _ HL NR NR0 P1 P2 E). }
      inversion Ma as [q0 r0 E1 E2 E3 E4|rc1 q0 r0 bh ec BH CE E1 E2 E3 E4|qc1 rc1 q0 r0 bh ec BH CE E1 E2 E3 E4]; subst ce.
      * destruct CK as [[_ CK]|[_ (qc & CK & _)]]; discriminate CK.
      * apply (C54_requires_exact_cel_header H uq (mk_request_cert [] []) rc1 rq) in CE. destruct CE as [_ E].
        rewrite E in Ect. cbn [cert_tree_path] in Ect. injection Ect as _ _ Ersh.
        destruct CK as [[_ CK]|[_ (qc & CK & _)]]; [|discriminate CK]. injection CK as CK. subst rc1.
        apply SR. eapply RH; [exact BH|]. congruence.
      * apply (C54_requires_exact_cel_header H uq qc1 rc1 rq0) in CE. destruct CE as [_ (h & Eh & E)].
        rewrite E in Ect. cbn [cert_tree_path] in Ect. injection Ect as _ Eh' Ersh.
        destruct CK as [[_ CK]|[_ (qc & CK & RQ)]]; [discriminate CK|]. injection CK as CK1 CK2. subst rc1 qc1.
        split; [apply SR; eapply RH; [exact BH|congruence]|].
        assert (RQ0 : request_hash H uq rq0 qc = Some k) by congruence.
        assert (Q1 : exists q, uq (rq_url rq) = Some q) by (unfold request_hash in RQ; destruct (uq (rq_url rq)); [eauto|discriminate]).
        assert (Q0 : exists q, uq (rq_url rq0) = Some q) by (unfold request_hash in RQ0; destruct (uq (rq_url rq0)); [eauto|discriminate]).
        destruct Q1 as (q1 & Q1). destruct Q0 as (q0' & Q0).
        destruct (C28_covered_parts_exist qc rq q1) as (hs1 & fs1 & P1 & F1). destruct (C28_covered_parts_exist qc rq0 q0') as (hs0 & fs0 & P0 & F0).
        exists q1, q0', hs1, hs0, fs1, fs0. do 6 (split; [assumption|]).
        apply (C28_request_hash_covers H uq qc rq rq0 k q1 q0' hs1 hs0 fs1 fs0 HL (token_params _ _ Tk) NQ NQ0 Q1 Q0 P1 P0 F1 F0 RQ RQ0).
    + left. exists expr, (print_cel ce). split; [left; reflexivity|]. split; [left; reflexivity|]. split; [exact Ne|].
      rewrite <- Eeh. inversion Ma as [q0 r0 E1 E2 E3 E4|rc1 q0 r0 bh ec BH CE E1 E2 E3 E4|qc1 rc1 q0 r0 bh ec BH CE E1 E2 E3 E4]; subst ce.
      * exfalso. rewrite <- E4 in Ect. discriminate Ect.
      * apply (C54_requires_exact_cel_header H uq (mk_request_cert [] []) rc1 rq) in CE. destruct CE as [_ E]. rewrite E in Ect. apply (f_equal (@List.hd bytes [])) in Ect. symmetry. exact Ect.
      * apply (C54_requires_exact_cel_header H uq qc1 rc1 rq0) in CE. destruct CE as [_ (h & _ & E)]. rewrite E in Ect. apply (f_equal (@List.hd bytes [])) in Ect. symmetry. exact Ect.
Qed.
Lemma accepted_entry :
  forall umod cap_max checked (H : bytes -> bytes) ple vs uri_path uri_query gunzip inflate key (Root : htree -> Prop) (Sub : bytes -> htree -> Prop),
  (forall x, length (H x) = 32%nat) -> unforgeable H vs key Root Sub ->
  forall (Made : entry -> cel -> request -> response -> Prop) (ops : list http_op) (t : ntree) rq rs canister_id now offset min_version i,
  http_run H ops = Some t ->
  (* every entry came from the constructors *)
  Forall (fun o => match o with HInsert en => exists ce rq0 rs0, Made en ce rq0 rs0 /\ made H uri_query ce rq0 rs0 (en_certification en) /\ Forall token (cel_names ce) /\ no_pseudo (rq_headers rq0) /\ no_pseudo (rs_headers rs0) | _ => True end) ops ->
  (* the canister certified the root hash of this tree, and nothing else *)
  (forall St d, speaks_for umod cap_max ple Root Sub canister_id St -> at_path (certified_data_path canister_id) St (HLeaf d) -> d = http_root_hash H t) ->
  no_pseudo (rq_headers rq) -> no_pseudo (rs_headers rs) ->
  verify umod cap_max checked H ple vs uri_path uri_query gunzip inflate rq rs canister_id now offset key min_version = OOk i ->
  i_response i <> None ->
  exists hv hd, last_header (bs "IC-Certificate") (rs_headers rs) hv /\ header_from umod cap_max hv = OOk hd /\
  (certificate_collision umod cap_max H Root Sub (h_cert hd) \/
   collision H (preimages H (HLabeled (bs "http_expr") (nhtree H t))) (preimages H (h_tree hd)) \/
   i_version i = 2%N /\
   exists en ce rq0 rs0 expr path, Made en ce rq0 rs0 /\ held ops en /\ made H uri_query ce rq0 rs0 (en_certification en) /\
     last_header (bs "IC-CertificateExpression") (rs_headers rs) expr /\ path_of uri_path rq path /\
     (ordinary_path path -> answers_or_slash ops (en_path en) path) /\
     (collision H [expr] [print_cel ce] \/
      expr = print_cel ce /\
      match ce with
      | CelSkip => False
      | CelResponseOnly rc => same_response H rc rs rs0
      | CelFull qc rc => same_response H rc rs rs0 /\ same_request H uri_query qc rq rq0
      end)).
Proof.
  intros umod cap ck H ple vs up uq gz df key Root Sub HL UF Made ops t rq rs cid now off mv i R Ho CD NQ NR V NN.
  destruct (http_run_ok H ops) as (t' & R' & K & _ & Q). assert (t' = t) by congruence. subst t'. clear R'.
  destruct (nok_tree H t K) as (DG & WT & FT).
  set (T := HLabeled (bs "http_expr") (nhtree H t)).
  assert (WF : wf T /\ full T = true) by (split; assumption).
  assert (DT : digest H T = http_root_hash H t) by (unfold http_root_hash; rewrite DG; reflexivity).
  destruct (C46_no_success_below_version _ _ _ _ _ _ _ _ _ _ _ _ _ _ _ _ _ _ V) as (_ & [V1|V2] & _).
  { destruct (C49_v1_soundness umod cap ck H ple vs up uq gz df key Root Sub HL UF rq rs cid now off mv i V V1) as (_ & hv & hd & path & enc & d & L & Hd & _ & _ & _ & C).
    exists hv, hd. split; [exact L|]. split; [exact Hd|]. destruct C as [C|(St & data & Sp & At & C)]; [left; exact C|].
    apply (CD _ _ Sp) in At. destruct (C T) as [X|X]; [apply WF|apply WF|congruence|right; left; exact X|exfalso].
    destruct X as (v & _ & [X|[X _]]); apply at_root_inv in X; destruct X as [X _]; discriminate X. }
  destruct (C47_v2_shows_canister_tree umod cap ck H ple vs up uq gz df key Root Sub HL UF rq rs cid now off mv i V V2) as (hv & hd & expr & e & c & path & L & Hd & LE & Ce & PO & C).
  exists hv, hd. split; [exact L|]. split; [exact Hd|]. destruct C as [C|(St & data & Sp & At & C)]; [left; exact C|].
  apply (CD _ _ Sp) in At. destruct (C T) as [X|[X XP]]; [apply WF|apply WF|congruence|right; left; exact X|]. right. right. split; [exact V2|].
  destruct (C48_v2_returns_only_certified_data _ _ _ _ _ _ _ _ _ _ _ _ _ _ _ _ _ _ V V2) as (expr' & c' & LE' & Ce' & Sh).
  assert (expr' = expr) by (apply last_header_fun in LE, LE'; congruence). subst expr'. assert (c' = c) by congruence. subst c'. clear LE' Ce'.
  assert (NS : c <> CelSkip) by (intros ->; contradiction).
  destruct (entry_of_tree H uq Made ops t rq rs e expr c path HL R Ho NQ NR Ce NS X XP) as (en & ce & rq0 & rs0 & X1 & X2 & X3 & X4 & X5).
  exists en, ce, rq0, rs0, expr, path. auto 10.
Qed.
Theorem C64_accepted_response_was_certified :
  forall umod cap_max checked (H : bytes -> bytes) ple vs uri_path uri_query gunzip inflate key (Root : htree -> Prop) (Sub : bytes -> htree -> Prop),
  (forall x, length (H x) = 32%nat) -> unforgeable H vs key Root Sub ->
  forall (Src : entry -> cel -> request -> response -> Prop) (ops : list http_op) (t : ntree) rq rs canister_id now offset min_version i,
  http_run H ops = Some t ->
  (* every entry came from the constructors, for something the canister certified *)
  Forall (fun o => match o with HInsert en => honest H uri_query Src en | _ => True end) ops ->
  (* the canister certified the root hash of this tree, and nothing else *)
  (forall St d, speaks_for umod cap_max ple Root Sub canister_id St -> at_path (certified_data_path canister_id) St (HLeaf d) -> d = http_root_hash H t) ->
  no_pseudo (rq_headers rq) -> no_pseudo (rs_headers rs) ->
  verify umod cap_max checked H ple vs uri_path uri_query gunzip inflate rq rs canister_id now offset key min_version = OOk i ->
  i_response i <> None ->
  exists hv hd, last_header (bs "IC-Certificate") (rs_headers rs) hv /\ header_from umod cap_max hv = OOk hd /\
  (certificate_collision umod cap_max H Root Sub (h_cert hd) \/
   collision H (preimages H (HLabeled (bs "http_expr") (nhtree H t))) (preimages H (h_tree hd)) \/
   i_version i = 2%N /\
   exists en ce rq0 rs0 expr path, Src en ce rq0 rs0 /\ held ops en /\ made H uri_query ce rq0 rs0 (en_certification en) /\
     last_header (bs "IC-CertificateExpression") (rs_headers rs) expr /\ path_of uri_path rq path /\
     (ordinary_path path -> answers_or_slash ops (en_path en) path) /\
     (collision H [expr] [print_cel ce] \/
      expr = print_cel ce /\
      match ce with
      | CelSkip => False
      | CelResponseOnly rc => same_response H rc rs rs0
      | CelFull qc rc => same_response H rc rs rs0 /\ same_request H uri_query qc rq rq0
      end)).
Proof.
  intros umod cap ck H ple vs up uq gz df key Root Sub HL UF Src ops t rq rs cid now off mv i R Ho CD NQ NR V NN.
  destruct (accepted_entry umod cap ck H ple vs up uq gz df key Root Sub HL UF Src ops t rq rs cid now off mv i R) as (hv & hd & L & Hd & D); try assumption.
  exists hv, hd. split; [exact L|]. split; [exact Hd|]. destruct D as [D|[D|(V2 & en & ce & rq0 & rs0 & expr & path & D)]]; [auto|auto|]. right; right. split; [exact V2|]. exists en, ce, rq0, rs0, expr, path. exact D.
Qed.
Print Assumptions C64_accepted_response_was_certified.

Lemma occupied_contains H ops t p : http_run H ops = Some t -> p <> [] -> occupied ops p -> contains_path p t = true.
Proof. intros R N O. unfold http_run in R. apply (proj1 (C17_no_empty_subtrees H (map http_nop ops) t R) p N). exact O. Qed.
Lemma held_get H ops t en : http_run H ops = Some t -> held ops en <-> nget (entry_tree_path en) t = Some [].
Proof. intro R. destruct (http_run_ok H ops) as (t' & R' & _ & _ & Q). assert (t' = t) by congruence. subst t'. symmetry. apply Q. Qed.

(** ** A concrete canister: "/a" certified with request and response, "/" as a
    wildcard with response only, "/b" skipped and then removed. *)
Definition exh_full : request_cert * response_cert := (mk_request_cert [bs "host"] [bs "q"], CertifiedHeaders [bs "Content-Type"]).
Definition exh_wrc : response_cert := HeaderExclusions [bs "date"].
Definition exh_wrs : response := mk_response 404 [(bs "ic-certificateexpression", print_cel (CelResponseOnly exh_wrc)); (bs "X", bs "y"); (bs "Date", bs "now")] (bs "nope").
Definition get_cert (o : option certification) : certification := match o with Some c => c | None => CSkip [] end.
Definition exh_x : entry := mk_entry (PExact (bs "/a")) (get_cert (certify_full sha256 ex_query (fst exh_full) (snd exh_full) ex_rq (ex_rs []) None)).
Definition exh_w : entry := mk_entry (PWildcard (bs "/")) (get_cert (certify_response_only sha256 exh_wrc exh_wrs (Some (sha256 (bs "nope"))))).
Definition exh_s : entry := mk_entry (PWildcard (bs "/b")) (certify_skip sha256).
Definition exh_ops : list http_op := [HInsert exh_x; HInsert exh_s; HInsert exh_w; HDelete exh_s].
Definition exh_tree : ntree := Eval vm_compute in match http_run sha256 exh_ops with Some t => t | None => ndefault end.
Lemma exh_run : http_run sha256 exh_ops = Some exh_tree. Proof. vm_compute. reflexivity. Qed.
Lemma exh_holds en : held exh_ops en <-> nget (entry_tree_path en) exh_tree = Some [].
Proof. exact (held_get sha256 exh_ops exh_tree en exh_run). Qed.
Lemma exh_occupied p : p <> [] -> occupied exh_ops p -> contains_path p exh_tree = true.
Proof. exact (occupied_contains sha256 exh_ops exh_tree p exh_run). Qed.
Lemma exh_made_x : made sha256 ex_query (CelFull (fst exh_full) (snd exh_full)) ex_rq (ex_rs []) (en_certification exh_x).
Proof.
  assert (X : exists c, certify_full sha256 ex_query (fst exh_full) (snd exh_full) ex_rq (ex_rs []) None = Some c).
  { unfold certify_full. assert (V : validate_response (ex_rs []) (print_cel (CelFull (fst exh_full) (snd exh_full))) = true) by reflexivity. rewrite V. eexists. reflexivity. }
  destruct X as (c & X). unfold exh_x. cbn [en_certification]. rewrite X. apply (MadeFull sha256 ex_query _ _ _ _ None); auto.
Qed.
Lemma exh_made_w rq : made sha256 ex_query (CelResponseOnly exh_wrc) rq exh_wrs (en_certification exh_w).
Proof.
  assert (X : exists c, certify_response_only sha256 exh_wrc exh_wrs (Some (sha256 (bs "nope"))) = Some c).
  { unfold certify_response_only. assert (V : validate_response exh_wrs (print_cel (CelResponseOnly exh_wrc)) = true) by reflexivity. rewrite V. eexists. reflexivity. }
  destruct X as (c & X). unfold exh_w. cbn [en_certification]. rewrite X. apply (MadeResponseOnly sha256 ex_query _ _ _ (Some (sha256 (bs "nope")))); auto.
Qed.
Lemma exh_matches u : matches u [bs "zz"; bs "y"] -> u = [] \/ (exists r, u = bs "zz" :: r) \/ u = [[]].
Proof.
  intros [(s & E)|(p & x & s & -> & E)].
  - destruct u as [|a u]; [left; reflexivity|]. injection E as <- _. eauto.
  - destruct p as [|a p]; [right; right; reflexivity|]. injection E as <- _. right. left. eexists. reflexivity.
Qed.
(** both entries meet the hypotheses of C51 *)
Example C51_hypotheses : held exh_ops exh_x /\ answers exh_ops (en_path exh_x) (bs "/a") /\
  held exh_ops exh_w /\ answers exh_ops (en_path exh_w) (bs "/zz/y") /\ ~ held exh_ops exh_s.
Proof.
  split. { apply exh_holds. vm_compute. reflexivity. } split; [reflexivity|]. split. { apply exh_holds. vm_compute. reflexivity. }
  split; [|intro X; apply exh_holds in X; revert X; vm_compute; discriminate].
  change (request_parts (bs "/zz/y")) with [bs "zz"; bs "y"]. cbn [answers en_path exh_w].
  change (request_parts (bs "/")) with [@nil byte]. change (request_parts (bs "/zz/y")) with [bs "zz"; bs "y"]. split; [|split].
  - right. exists [], (bs "zz"), [bs "y"]. split; reflexivity.
  - intro O. apply exh_occupied in O; [|discriminate]. revert O. vm_compute. discriminate.
  - intros u M S O. apply exh_occupied in O; [|intro Z; apply app_eq_nil in Z; destruct Z; discriminate].
    destruct (exh_matches u M) as [->|[(r & ->)| ->]].
    + revert O. vm_compute. discriminate.
    + revert O. cbn [contains_path app]. change (contains_path (bs "zz" :: r ++ [bs "<*>"]) exh_tree) with
        (match exh_tree with NLeaf _ => false | NNested tr => match RbTree.get ntree (bs "zz") tr with Some c => contains_path (r ++ [bs "<*>"]) c | None => false end end).
      assert (Z : match exh_tree with NLeaf _ => None | NNested tr => RbTree.get ntree (bs "zz") tr end = None) by (vm_compute; reflexivity).
      destruct exh_tree as [|tr]; [discriminate|]. rewrite Z. discriminate.
    + destruct S as [S|(_ & S & _)]; [simpl in S; lia|]. apply S. exists []. reflexivity.
Qed.
Definition exh_state : htree := ex_state (http_root_hash sha256 exh_tree).
Definition exh_serve (en : entry) (url : bytes) (rs : response) : response :=
  match http_witness sha256 exh_tree en url with
  | OOk w => add_v2_certificate_header (ex_certificate (http_root_hash sha256 exh_tree)) rs w (expr_path (en_path en))
  | _ => rs
  end.
Definition exh_verify (rq : request) (rs : response) : out info :=
  verify (2 ^ 64) (2 ^ 60) true sha256 ex_ple (ex_signer exh_state) ex_uri ex_query ex_none ex_none rq rs (bs "e") 1010 20 (ex_key x01) 2.
Definition exh_status (o : out info) : option N := match o with OOk i => match i_response i with Some v => v_status v | None => None end | _ => None end.
Example C51_exact_accepted : exh_status (exh_verify ex_rq (exh_serve exh_x (bs "/a") (ex_rs []))) = Some 200%N.
Proof. vm_compute. reflexivity. Qed.
Example C51_wildcard_accepted : exh_status (exh_verify (mk_request (bs "GET") (bs "/zz/y?k") [] []) (exh_serve exh_w (bs "/zz/y") exh_wrs)) = Some 404%N.
Proof. vm_compute. reflexivity. Qed.
(** the wildcard does not answer "/a", which has its own entry *)
Example C51_wildcard_rejected : exh_verify (mk_request (bs "GET") (bs "/a") [] []) (exh_serve exh_w (bs "/a") exh_wrs) = OErr.
Proof. vm_compute. reflexivity. Qed.
Example C52_wildcard_too_long : http_witness sha256 exh_tree (mk_entry (PWildcard (bs "/a/b")) (certify_skip sha256)) (bs "/a") = OErr.
Proof. vm_compute. reflexivity. Qed.
(** Finding: with request paths under "/http_expr" the two sides disagree on the more specific
    wildcards (C35_reserved_names_refuted), and a correctly certified wildcard response is refused. *)
Definition exr_skip (p : cert_path) : entry := mk_entry p (certify_skip sha256).
Definition exr_ops : list http_op :=
  [HInsert (exr_skip (PExact (bs "/http_expr/0"))); HInsert (exr_skip (PExact (bs "/http_expr/A"))); HInsert (exr_skip (PExact (bs "/http_expr/b"))); HInsert (exr_skip (PWildcard (bs "/")))].
Definition exr_tree : ntree := Eval vm_compute in match http_run sha256 exr_ops with Some t => t | None => ndefault end.
Theorem C51_reserved_prefix_refuted :
  exists (ops : list http_op) (t : ntree) (en : entry) (path : bytes) (w : htree),
  http_run sha256 ops = Some t /\ held ops en /\ answers ops (en_path en) path /\ ordinary_path path /\
  http_witness sha256 t en path = OOk w /\ validate_expr_path (expr_path (en_path en)) path w = false.
Proof.
  exists exr_ops, exr_tree, (exr_skip (PWildcard (bs "/"))), (bs "/http_expr/a").
  assert (R : http_run sha256 exr_ops = Some exr_tree) by (vm_compute; reflexivity).
  assert (O : forall p, p <> [] -> occupied exr_ops p -> contains_path p exr_tree = true).
  { intro p. exact (occupied_contains sha256 exr_ops exr_tree p R). }
  destruct (http_witness sha256 exr_tree (exr_skip (PWildcard (bs "/"))) (bs "/http_expr/a")) as [w| | |] eqn:E;
    [exists w|exfalso; revert E; vm_compute; discriminate|exfalso; revert E; vm_compute; discriminate|exfalso; revert E; vm_compute; discriminate].
  split; [exact R|]. split.
  { apply (held_get sha256 exr_ops exr_tree _ R). vm_compute. reflexivity. }
  split.
  { cbn [answers en_path exr_skip]. change (request_parts (bs "/")) with [@nil byte]. change (request_parts (bs "/http_expr/a")) with [bs "http_expr"; bs "a"]. split; [|split].
    - right. exists [], (bs "http_expr"), [bs "a"]. split; reflexivity.
    - intro X. apply O in X; [|discriminate]. revert X. vm_compute. discriminate.
    - intros u M S X. apply O in X; [|intro Z; apply app_eq_nil in Z; destruct Z; discriminate].
      assert (F : In u [[]; [[]]; [bs "http_expr"]; [bs "http_expr"; []]; [bs "http_expr"; bs "a"]]).
      { destruct M as [(s & E1)|(p & x & s & -> & E1)].
        - destruct u as [|a [|b [|? ?]]]; simpl in E1; [left; reflexivity| | |discriminate E1].
          + injection E1 as <- _. simpl; auto.
          + injection E1 as <- <- _. simpl; auto 6.
        - destruct p as [|a [|b p]]; simpl in E1; [simpl; auto| |destruct p; discriminate E1]. injection E1 as <- _ _. simpl; auto 6. }
      destruct F as [<-|[<-|[<-|[<-|[<-|[]]]]]];
        [vm_compute in X; discriminate X| |vm_compute in X; discriminate X|vm_compute in X; discriminate X|vm_compute in X; discriminate X].
      destruct S as [S|(_ & S & _)]; [simpl in S; lia|]. apply S. exists []. reflexivity. }
  split.
  { split; intros q Z; change (request_parts (bs "/http_expr/a")) with ([bs "http_expr"] ++ [bs "a"]) in Z; apply app_inj_tail in Z; destruct Z as [_ Z]; discriminate Z. }
  split; [exact E || reflexivity|]. assert (X : match http_witness sha256 exr_tree (exr_skip (PWildcard (bs "/"))) (bs "/http_expr/a") with OOk w => validate_expr_path (expr_path (PWildcard (bs "/"))) (bs "/http_expr/a") w | _ => true end = false) by (vm_compute; reflexivity).
  rewrite E in X. exact X.
Qed.
Print Assumptions C51_reserved_prefix_refuted.
(** the hypotheses of C64 are met by this canister and the responses above *)
Lemma plain_token s : s <> [] -> forallb (fun b => (match b2n b with n => ((48 <=? n) && (n <=? 57)) || ((65 <=? n) && (n <=? 90)) || ((97 <=? n) && (n <=? 122)) end)%N || byte_eqb b "-"%byte) s = true -> token s.
Proof.
  intros N F. split; [exact N|]. apply Forall_forall. intros b I. rewrite forallb_forall in F. specialize (F b I). unfold tchar.
  apply orb_prop in F. destruct F as [F|F].
  - left. apply orb_prop in F. destruct F as [F|F]; [apply orb_prop in F; destruct F as [F|F]|]; apply andb_prop in F; destruct F as [F1 F2]; apply N.leb_le in F1; apply N.leb_le in F2; lia.
  - right. assert (X : b = "-"%byte) by (destruct (byte_eqb_spec b "-"%byte); [assumption|discriminate F]); rewrite X; simpl; auto 10.
Qed.
Lemma plain_tokens l : forallb (fun s => match s with [] => false | _ => forallb (fun b => (match b2n b with n => ((48 <=? n) && (n <=? 57)) || ((65 <=? n) && (n <=? 90)) || ((97 <=? n) && (n <=? 122)) end)%N || byte_eqb b "-"%byte) s end) l = true -> Forall token l.
Proof.
  intro F. apply Forall_forall. intros s I. rewrite forallb_forall in F. specialize (F s I). destruct s as [|b s]; [discriminate F|].
  apply plain_token; [intro Z; discriminate Z|exact F].
Qed.
Lemma ex_state_certifies dd d : at_path (certified_data_path (bs "e")) (ex_state dd) (HLeaf d) -> d = dd.
Proof.
  intro A. unfold ex_state, certified_data_path in A.
    inversion A as [|? ? ? ? ? Ch A']; subst. inversion Ch as [|? ? ? ? Ch1|? ? ? ? Ch1]; subst; inversion Ch1; subst.
    inversion A' as [|? ? ? ? ? Ch2 A2]; subst. inversion Ch2; subst. inversion A2 as [|? ? ? ? ? Ch3 A3]; subst. inversion Ch3; subst. inversion A3; subst. reflexivity.
Qed.
(** what this canister certified *)
Definition exh_src (en : entry) (ce : cel) (rq : request) (rs : response) : Prop :=
  (en_path en = PExact (bs "/a") /\ ce = CelFull (fst exh_full) (snd exh_full) /\ rq = ex_rq /\ rs = ex_rs []) \/
  (en_path en = PWildcard (bs "/b") /\ ce = CelSkip) \/
  (en_path en = PWildcard (bs "/") /\ ce = CelResponseOnly exh_wrc /\ rs = exh_wrs).
Example C64_hypotheses :
  unforgeable sha256 (ex_signer exh_state) (ex_key x01) (fun t => t = exh_state) (fun _ _ => False) /\
  Forall (fun o => match o with HInsert en => honest sha256 ex_query exh_src en | _ => True end) exh_ops /\
  (forall St d, speaks_for (2 ^ 64) (2 ^ 60) ex_ple (fun t => t = exh_state) (fun _ _ => False) (bs "e") St ->
     at_path (certified_data_path (bs "e")) St (HLeaf d) -> d = http_root_hash sha256 exh_tree) /\
  (exists i, exh_verify ex_rq (exh_serve exh_x (bs "/a") (ex_rs [])) = OOk i /\ i_response i <> None).
Proof.
  split; [apply ex_signer_unforgeable|]. split; [|split].
  - repeat constructor.
    + exists (CelFull (fst exh_full) (snd exh_full)), ex_rq, (ex_rs []). split; [left; auto|]. split; [apply exh_made_x|].
      split; [apply plain_tokens; vm_compute; reflexivity|]. split; repeat constructor; intro Z; discriminate Z.
    + exists CelSkip, ex_rq, (ex_rs []). split; [right; left; auto|]. split; [constructor|]. split; [constructor|]. split; repeat constructor; intro Z; discriminate Z.
    + exists (CelResponseOnly exh_wrc), ex_rq, exh_wrs. split; [right; right; auto|]. split; [apply exh_made_w|]. split; [apply plain_tokens; vm_compute; reflexivity|]. split; repeat constructor; intro Z; discriminate Z.
  - intros St d [->|(r & s & enc & rg & lo & hi & _ & _ & _ & _ & _ & _ & [])] A. exact (ex_state_certifies _ _ A).
  - destruct (exh_verify ex_rq (exh_serve exh_x (bs "/a") (ex_rs []))) as [i| | |] eqn:E.
    + exists i. split; [reflexivity|]. assert (X := C51_exact_accepted). rewrite E in X. cbn [exh_status] in X. destruct (i_response i); [discriminate|discriminate X].
    + exfalso. assert (X := C51_exact_accepted). rewrite E in X. discriminate X.
    + exfalso. assert (X := C51_exact_accepted). rewrite E in X. discriminate X.
    + exfalso. assert (X := C51_exact_accepted). rewrite E in X. discriminate X.
Qed.
Example C55_accepted : verify (2 ^ 64) (2 ^ 60) true sha256 ex_ple (ex_signer (ex_state (skip_certified_data sha256))) ex_uri ex_query ex_none ex_none
  (mk_request (bs "POST") (bs "/%3C*%3E/x") [] []) (add_skip_certification_header sha256 (ex_certificate (skip_certified_data sha256)) (mk_response 200 [] (bs "any"))) (bs "e") 1010 20 (ex_key x01) 2
  = OOk (mk_info None 2).
Proof. vm_compute. reflexivity. Qed.

(** ** C69: inserting, deleting and clearing do what they say.  Two entries with the
    same number of tree labels are unrelated unless they are equal. *)
Theorem C69_tree_operations_are_exact :
  forall (H : bytes -> bytes) (ops : list http_op) (en : entry),
  let p := entry_tree_path en in
  held (ops ++ [HInsert en]) en /\
  (forall en', ~ is_prefix p (entry_tree_path en') -> ~ is_prefix (entry_tree_path en') p -> (held (ops ++ [HInsert en]) en' <-> held ops en')) /\
  ~ held (ops ++ [HDelete en]) en /\
  (forall en', ~ is_prefix p (entry_tree_path en') -> (held (ops ++ [HDelete en]) en' <-> held ops en')) /\
  (forall en', ~ held (ops ++ [HClear]) en') /\
  (* and the tree is what a history leaves *)
  (exists t, http_run H ops = Some t /\ forall en', held ops en' <-> nget (entry_tree_path en') t = Some []).
Proof.
  intros H ops en p. unfold held. rewrite !map_app. cbn [map http_nop]. fold p.
  split; [apply HoldsNew|]. split; [|split; [|split; [|split]]].
  - intros en' A B. split; [intro X; apply holds_snoc_inv in X; destruct X as [[X _]|(X & _)]; [exfalso; apply A; exists []; rewrite app_nil_r; exact X|exact X]|].
    intro X. apply HoldsIns; assumption.
  - intro X. apply holds_snoc_inv in X. destruct X as [_ X]. apply X. exists []. rewrite app_nil_r. reflexivity.
  - intros en' A. split; [intro X; apply holds_snoc_inv in X; apply X|]. intro X. apply HoldsDel; assumption.
  - intros en' X. apply holds_snoc_inv in X. exact X.
  - destruct (http_run_ok H ops) as (t & R & _). exists t. split; [exact R|]. intro en'. exact (held_get H ops t en' R).
Qed.
Print Assumptions C69_tree_operations_are_exact.
Theorem C69_unrelated_unless_equal :
  forall p q : list bytes, length p = length q -> (is_prefix p q \/ is_prefix q p) -> p = q.
Proof.
  assert (X : forall p q : list bytes, length p = length q -> is_prefix p q -> p = q).
  { intros p q L (r & ->). rewrite app_length in L. destruct r; [rewrite app_nil_r; reflexivity|cbn [length] in L; lia]. }
  intros p q L [A|A]; [apply X; assumption|symmetry; apply X; [symmetry; exact L|exact A]].
Qed.
Print Assumptions C69_unrelated_unless_equal.
(** Deleting one certification of a path leaves the other ones of that path. *)
Lemma held_computed H ops en : match http_run H ops with Some t => nget (entry_tree_path en) t | None => None end = Some [] -> held ops en.
Proof. destruct (http_run_ok H ops) as (t & R & _). rewrite R. exact (proj2 (held_get H ops t en R)). Qed.
Definition exh_other : entry := mk_entry (PExact (bs "/a")) (CResponseOnly (sha256 (bs "x")) (sha256 (bs "y"))).
Example C69_ex : held (exh_ops ++ [HInsert exh_other; HDelete exh_other]) exh_x.
Proof. apply (held_computed sha256). vm_compute. reflexivity. Qed.
