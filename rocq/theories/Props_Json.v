(** C87-C90: the json-api example canister: what it serves is accepted and current, and nothing else is accepted. *)
From Coq Require Import List Arith NArith Lia Bool Permutation.
From Verif Require Import Bytes Sha256 Text HashTree HashTreeSpec RbTree Nested NestedSpec NestedProofs Cbor CborSpec HttpTypes HttpHash HttpSpec Cel CelSpec V2 Wildcard WildcardSpec WildcardProofs Verify VerifySpec Header HeaderSpec HttpTree HttpTreeSpec CertVerify CertSpec Props_Cert Props_Header
  Props_Hash Props_Wildcard Props_Verify Props_HttpTree AssetRouter RangeSpec Props_Range AssetProofs JsonApi JsonSpec.
Import ListNotations.
Local Open Scope N_scope.

Lemma pair_eqb_eq a b : pair_eqb a b = true <-> a = b.
Proof. destruct a as [a1 a2], b as [b1 b2]. unfold pair_eqb. cbn [fst snd]. rewrite andb_true_iff, !bytes_eqb_eq. split; [intros [-> ->]; reflexivity|intro E; injection E; auto]. Qed.
Definition method_list : list bytes := bs "GET" :: refused.
Definition api_response (r : response) : Prop := rs_headers r = api_headers ++ [(bs "IC-CertificateExpression", print_cel todo_expression)].
Lemma api_single r : api_response r -> single_expression r (print_cel todo_expression).
Proof.
  intro E. exists api_headers, (bs "IC-CertificateExpression"), []. split; [exact E|]. split; [apply eq_nocase_spec; reflexivity|].
  split; [|constructor]. repeat constructor; cbn [fst]; intro Z; apply eq_nocase_spec in Z; vm_compute in Z; discriminate Z.
Qed.
Lemma missing_single : single_expression missing (print_cel fallback_expression).
Proof.
  exists api_headers, (bs "IC-CertificateExpression"), []. split; [reflexivity|]. split; [apply eq_nocase_spec; reflexivity|].
  split; [|constructor]. repeat constructor; cbn [fst]; intro Z; apply eq_nocase_spec in Z; vm_compute in Z; discriminate Z.
Qed.
Lemma api_no_pseudo r : api_response r -> no_pseudo (rs_headers r).
Proof. intros ->. repeat constructor; intro Z; discriminate Z. Qed.
Lemma missing_no_pseudo : no_pseudo (rs_headers missing).
Proof. repeat constructor; intro Z; discriminate Z. Qed.

Section Json.
  Variables (H : bytes -> bytes) (up : bytes -> option bytes) (uq : bytes -> option (option bytes))
            (pc : bytes -> option bytes) (pu : bytes -> option (option bytes * option bool)) (ck : bool).
  Hypothesis UP : up (bs "/todos") = Some (bs "/todos").
  Hypothesis UQ : uq (bs "/todos") = Some None.

  Definition todo_request (m : bytes) : request := mk_request m todos_path [] [].
  Lemma todo_get_path m : get_path up (todo_request m) = OOk todos_path.
  Proof. unfold get_path, todo_request. cbn [rq_url]. unfold todos_path at 1. rewrite UP. reflexivity. Qed.
  Definition rqh (m : bytes) : bytes := match request_hash H uq (todo_request m) todo_request_cert with Some h => h | None => [] end.
  Lemma rqh_some m : request_hash H uq (todo_request m) todo_request_cert = Some (rqh m).
  Proof. unfold rqh. unfold request_hash, todo_request, todos_path. cbn [rq_url]. rewrite UQ. reflexivity. Qed.
  Definition cert_of (m : bytes) (r : response) : certification := CFull (H (print_cel todo_expression)) (rqh m) (response_hash H r all_headers None).
  Definition ent (m : bytes) (r : response) : entry := mk_entry todos_tree_path (cert_of m r).
  Definition nf_cert : certification := CResponseOnly (H (print_cel fallback_expression)) (response_hash H missing all_headers None).
  Definition nf_ent : entry := mk_entry not_found_tree_path nf_cert.
  Lemma ent_made m r : api_response r -> made H uq todo_expression (todo_request m) r (cert_of m r).
  Proof.
    intro A. apply (MadeFull H uq todo_request_cert all_headers (todo_request m) r None (cert_of m r)); [left; reflexivity|].
    apply (C54_requires_exact_cel_header H uq todo_request_cert all_headers (todo_request m) r None (cert_of m r)). split; [exact (api_single r A)|].
    exists (rqh m). split; [apply rqh_some|reflexivity].
  Qed.
  Lemma nf_made rq : made H uq fallback_expression rq missing nf_cert.
  Proof.
    apply (MadeResponseOnly H uq all_headers rq missing None nf_cert); [left; reflexivity|].
    apply (C54_requires_exact_cel_header H uq todo_request_cert all_headers rq missing None nf_cert). split; [exact missing_single|reflexivity].
  Qed.
  Lemma ent_path m r : entry_tree_path (ent m r) = [bs "todos"; bs "<$>"; H (print_cel todo_expression); rqh m; response_hash H r all_headers None].
  Proof. reflexivity. Qed.
  Lemma nf_path : entry_tree_path nf_ent = [bs "<*>"; H (print_cel fallback_expression); []; response_hash H missing all_headers None].
  Proof. reflexivity. Qed.
  Lemma ent_prefix m r m' r' : is_prefix (entry_tree_path (ent m r)) (entry_tree_path (ent m' r')) -> entry_tree_path (ent m r) = entry_tree_path (ent m' r').
  Proof. intro P. apply C69_unrelated_unless_equal; [reflexivity|left; exact P]. Qed.
  Lemma nf_apart m r : ~ is_prefix (entry_tree_path (ent m r)) (entry_tree_path nf_ent) /\ ~ is_prefix (entry_tree_path nf_ent) (entry_tree_path (ent m r)).
  Proof. rewrite ent_path, nf_path. split; intros (z & E); discriminate E. Qed.
  Lemma ent_cert m r m' r' : entry_tree_path (ent m r) = entry_tree_path (ent m' r') -> cert_of m r = cert_of m' r'.
  Proof. rewrite !ent_path. unfold cert_of. intro E. injection E. intros. congruence. Qed.

  (** the responses: [R m] for method [m]; [fb]: the fallback is there *)
  Record inv (R : bytes -> option response) (fb : bool) (ops : list http_op) (st : api) : Prop := {
    i_run : http_run H ops = Some (ap_tree st);
    i_resp : forall m p, m_get pair_eqb (m, p) (ap_responses st) = if bytes_eqb p todos_path then option_map (fun r => mk_cresp r (cert_of m r)) (R m) else None;
    i_fb : m_get bytes_eqb [] (ap_fallbacks st) = if fb then Some (mk_cresp missing nf_cert) else None;
    i_dom : forall m r, R m = Some r -> In m method_list /\ api_response r;
    i_held : forall en, held ops en -> (exists m r, R m = Some r /\ entry_tree_path en = entry_tree_path (ent m r)) \/ fb = true /\ entry_tree_path en = entry_tree_path nf_ent;
    i_get : forall r, R (bs "GET") = Some r -> held ops (ent (bs "GET") r);
    i_all : forall m r, R m = Some r -> held ops (ent m r) \/ exists m' r', R m' <> None /\ m' <> m /\ rqh m = rqh m' /\ In m method_list /\ In m' method_list /\ r' = r;
    i_nf : fb = true -> held ops nf_ent;
    i_ops : Forall (fun o => match o with HInsert en => (exists m r, In m method_list /\ api_response r /\ en = ent m r) \/ en = nf_ent | HDelete _ => True | HClear => False end) ops }.
  Definition set (R : bytes -> option response) (m : bytes) (r : response) : bytes -> option response := fun x => if bytes_eqb x m then Some r else R x.

  Lemma run_snoc ops o t t' : http_run H ops = Some t -> nstep H t (http_nop o) = Some t' -> http_run H (ops ++ [o]) = Some t'.
  Proof. unfold http_run. intros A B. rewrite map_app, nrun_app, A. cbn [obind map nrun]. rewrite B. reflexivity. Qed.
  Lemma step_ok ops o t : http_run H ops = Some t -> exists t', nstep H t (http_nop o) = Some t' /\ http_run H (ops ++ [o]) = Some t'.
  Proof.
    intro R. destruct (http_run_ok H (ops ++ [o])) as (t' & R' & _). exists t'. split; [|exact R'].
    unfold http_run in R, R'. rewrite map_app, nrun_app, R in R'. cbn [obind map nrun] in R'. destruct (nstep H t (http_nop o)); [exact R'|discriminate].
  Qed.
  Lemma held_insert ops en en' : held (ops ++ [HInsert en]) en' <-> entry_tree_path en' = entry_tree_path en \/ held ops en' /\ ~ is_prefix (entry_tree_path en) (entry_tree_path en') /\ ~ is_prefix (entry_tree_path en') (entry_tree_path en).
  Proof.
    unfold held. rewrite map_app. cbn [map http_nop]. split.
    - intro X. apply holds_snoc_inv in X. destruct X as [[X _]|X]; auto.
    - intros [->|(X & A & B)]; [apply HoldsNew|apply HoldsIns; assumption].
  Qed.
  Lemma held_delete ops en en' : held (ops ++ [HDelete en]) en' <-> held ops en' /\ ~ is_prefix (entry_tree_path en) (entry_tree_path en').
  Proof.
    unfold held. rewrite map_app. cbn [map http_nop]. split.
    - intro X. apply holds_snoc_inv in X. exact X.
    - intros [X A]. apply HoldsDel; assumption.
  Qed.
  Lemma prefix_refl (p : list bytes) : is_prefix p p.
  Proof. exists []. rewrite app_nil_r. reflexivity. Qed.
  (** held entries after the old entry, if any, is deleted and the new one inserted *)
  Lemma held_replace ops (old : option entry) new en :
    held ((ops ++ match old with Some o => [HDelete o] | None => [] end) ++ [HInsert new]) en <->
    entry_tree_path en = entry_tree_path new \/
    (held ops en /\ (forall o, old = Some o -> ~ is_prefix (entry_tree_path o) (entry_tree_path en)) /\ ~ is_prefix (entry_tree_path new) (entry_tree_path en) /\ ~ is_prefix (entry_tree_path en) (entry_tree_path new)).
  Proof.
    rewrite held_insert. destruct old as [o|].
    - rewrite held_delete. split; (intros [E|X]; [left; exact E|right]).
      + destruct X as ((X & A) & B & C). repeat (split; auto). intros o' E. injection E as <-. exact A.
      + destruct X as (X & A & B & C). repeat (split; auto).
    - rewrite app_nil_r. split; (intros [E|X]; [left; exact E|right]).
      + destruct X as (X & B & C). repeat (split; auto). intros o' E. discriminate E.
      + destruct X as (X & A & B & C). auto.
  Qed.

  Lemma certify_step R fb ops st m status body : inv R fb ops st -> In m method_list -> (m = bs "GET" \/ R m = None) ->
    exists st' ops', certify_response H up uq (todo_request m) (create_response status body) todos_tree_path st = Some st' /\
    inv (set R m (with_expression (create_response status body) todo_expression)) fb ops' st' /\
    ap_next st' = ap_next st /\ ap_items st' = ap_items st /\ ap_data st' = Some (http_root_hash H (ap_tree st')).
  Proof.
    intros I IM MG. set (rs := with_expression (create_response status body) todo_expression).
    assert (AR : api_response rs) by reflexivity.
    unfold certify_response. rewrite todo_get_path. cbn [trap_of rq_method todo_request].
    rewrite (i_resp _ _ _ _ I). change (bytes_eqb todos_path todos_path) with true. cbv iota.
    set (old := option_map (fun r => ent m r) (R m)).
    assert (T1 : exists t1, match option_map (fun r => mk_cresp r (cert_of m r)) (R m) with
                            | Some e => ndelete H (entry_tree_path (mk_entry todos_tree_path (cr_certification e))) (ap_tree st)
                            | None => Some (ap_tree st) end = Some t1 /\ http_run H (ops ++ match old with Some o => [HDelete o] | None => [] end) = Some t1).
    { unfold old. destruct (R m) as [r|]; cbn [option_map cr_certification].
      - destruct (step_ok ops (HDelete (ent m r)) _ (i_run _ _ _ _ I)) as (t1 & E & E'). exists t1. split; [exact E|exact E'].
      - exists (ap_tree st). split; [reflexivity|]. rewrite app_nil_r. exact (i_run _ _ _ _ I). }
    destruct T1 as (t1 & E1 & R1). rewrite E1.
    change (m_get bytes_eqb todos_path full_cel_exprs) with (Some (todo_request_cert, all_headers)). cbv iota. cbn [fst snd].
    change (add_header (create_response status body) (cert_expr_header_name, print_cel (CelFull todo_request_cert all_headers))) with rs.
    assert (CF : certify_full H uq todo_request_cert all_headers (todo_request m) rs None = Some (cert_of m rs)).
    { apply (C54_requires_exact_cel_header H uq todo_request_cert all_headers (todo_request m) rs None (cert_of m rs)). split; [exact (api_single rs AR)|]. exists (rqh m). split; [apply rqh_some|reflexivity]. }
    rewrite CF. fold (ent m rs).
    destruct (step_ok _ (HInsert (ent m rs)) _ R1) as (t2 & E2 & R2). cbn [nstep http_nop] in E2. rewrite E2.
    eexists. exists ((ops ++ match old with Some o => [HDelete o] | None => [] end) ++ [HInsert (ent m rs)]). split; [reflexivity|]. cbn [ap_next ap_items ap_data ap_tree].
    split; [|repeat split]. assert (HR := held_replace ops old (ent m rs)).
    assert (Keep : forall m' r', R m' = Some r' -> held ops (ent m' r') -> (forall r0, R m = Some r0 -> entry_tree_path (ent m r0) <> entry_tree_path (ent m' r')) ->
       held ((ops ++ match old with Some o => [HDelete o] | None => [] end) ++ [HInsert (ent m rs)]) (ent m' r')).
    { intros m' r' _ He N. apply HR. destruct (list_eq_dec bytes_eq_dec (entry_tree_path (ent m' r')) (entry_tree_path (ent m rs))) as [E|E]; [left; exact E|right].
      split; [exact He|]. split; [|split].
      - intros o Eo P. unfold old in Eo. destruct (R m) as [r0|]; [|discriminate Eo]. injection Eo as <-. apply ent_prefix in P. exact (N r0 eq_refl P).
      - intro P. apply ent_prefix in P. congruence.
      - intro P. apply ent_prefix in P. congruence. }
    split; cbn [ap_tree ap_responses ap_fallbacks].
    - exact R2.
    - intros m' p. rewrite m_get_insert, m_get_remove by exact pair_eqb_eq. rewrite (i_resp _ _ _ _ I). unfold set.
      destruct (bytes_eqb p todos_path) eqn:EP.
      + apply bytes_eqb_eq in EP. subst p. destruct (bytes_eqb m' m) eqn:EM.
        * apply bytes_eqb_eq in EM. subst m'. rewrite (proj2 (pair_eqb_eq _ _) eq_refl). reflexivity.
        * assert (N : pair_eqb (m', todos_path) (m, todos_path) = false) by (unfold pair_eqb; cbn [fst snd]; rewrite EM; reflexivity). rewrite N. reflexivity.
      + assert (N : pair_eqb (m', p) (m, todos_path) = false) by (unfold pair_eqb; cbn [fst snd]; rewrite EP; apply andb_false_r). rewrite N. reflexivity.
    - exact (i_fb _ _ _ _ I).
    - intros m' r'. unfold set. destruct (bytes_eqb m' m) eqn:EM; [|apply (i_dom _ _ _ _ I)]. apply bytes_eqb_eq in EM. subst m'. intro E. injection E as <-. auto.
    - intros en He. apply HR in He. destruct He as [E|(He & NO & A & B)].
      + left. exists m, rs. split; [unfold set; rewrite bytes_eqb_refl; reflexivity|exact E].
      + destruct (i_held _ _ _ _ I en He) as [(m' & r' & E & P)|X]; [left|right; exact X]. exists m', r'. split; [|exact P].
        unfold set. destruct (bytes_eqb m' m) eqn:EM; [exfalso|exact E]. apply bytes_eqb_eq in EM. subst m'.
        apply (NO (ent m r')); [unfold old; rewrite E; reflexivity|]. rewrite P. apply prefix_refl.
    - intros r'. unfold set. destruct (bytes_eqb (bs "GET") m) eqn:EM.
      + apply bytes_eqb_eq in EM. subst m. intro E. injection E as <-. apply HR. left. reflexivity.
      + intro E. apply (Keep _ _ E (i_get _ _ _ _ I _ E)). destruct MG as [->|N]; [discriminate EM|]. intros r0 E0. congruence.
    - intros m' r'. unfold set. destruct (bytes_eqb m' m) eqn:EM.
      + apply bytes_eqb_eq in EM. subst m'. intro E. injection E as <-. left. apply HR. left. reflexivity.
      + intro E. assert (NM : m <> m') by (intros ->; rewrite bytes_eqb_refl in EM; discriminate EM).
        destruct (i_all _ _ _ _ I m' r' E) as [He|(m2 & r2 & X & N & Q & A & B & C)].
        * destruct (R m) as [r0|] eqn:Em; [|left; apply (Keep _ _ E He); intros r0 Z; discriminate Z].
          destruct (list_eq_dec bytes_eq_dec (entry_tree_path (ent m r0)) (entry_tree_path (ent m' r'))) as [P|P].
          -- right. exists m, r'. rewrite bytes_eqb_refl. split; [intro Z; discriminate Z|]. split; [exact NM|]. split; [|split; [apply (i_dom _ _ _ _ I _ _ E)|split; [exact IM|reflexivity]]].
             rewrite !ent_path in P. injection P. intros. congruence.
          -- left. apply (Keep _ _ E He). intros r1 Z. injection Z as <-. exact P.
        * right. exists m2, r2. split; [|auto]. destruct (bytes_eqb m2 m); [intro Z; discriminate Z|exact X].
    - intro F. apply HR. right. split; [exact (i_nf _ _ _ _ I F)|]. split; [|split].
      + intros o Eo. unfold old in Eo. destruct (R m) as [r0|]; [|discriminate Eo]. injection Eo as <-. apply nf_apart.
      + apply nf_apart.
      + apply nf_apart.
    - apply Forall_app. split; [apply Forall_app; split; [exact (i_ops _ _ _ _ I)|destruct old; repeat constructor]|].
      constructor; [left; exists m, rs; auto|constructor].
  Qed.

  (** ** init *)
  Definition whole (st : api) (l : list todo) : Prop :=
    exists R ops, inv R true ops st /\ R (bs "GET") = Some (listing l) /\ (forall m, In m refused -> R m = Some refusal) /\
    Permutation l (map snd (ap_items st)) /\ ap_data st = Some (http_root_hash H (ap_tree st)) /\
    NoDup (map fst (ap_items st)) /\ Forall (fun x => td_id (snd x) = fst x) (ap_items st).
  Lemma not_allowed_step : forall ms R fb ops st, inv R fb ops st -> incl ms refused -> NoDup ms -> (forall m, In m ms -> R m = None) ->
    (ms = [] -> ap_data st = Some (http_root_hash H (ap_tree st))) ->
    exists st' R' ops', certify_not_allowed H up uq ms st = Some st' /\ inv R' fb ops' st' /\ (forall m, In m ms -> R' m = Some refusal) /\ (forall m, ~ In m ms -> R' m = R m) /\
    ap_next st' = ap_next st /\ ap_items st' = ap_items st /\ ap_data st' = Some (http_root_hash H (ap_tree st')).
  Proof.
    induction ms as [|m ms IH]; intros R fb ops st I IN ND NR D.
    - exists st, R, ops. split; [reflexivity|]. split; [exact I|]. split; [intros m []|]. split; [reflexivity|]. split; [reflexivity|]. split; [reflexivity|]. exact (D eq_refl).
    - cbn [certify_not_allowed]. destruct (certify_step R fb ops st m 405 (json_err 405 (bs "Method not allowed")) I) as (st1 & ops1 & E & I1 & N1 & T1 & D1).
      { right. apply IN. left; reflexivity. } { right. apply NR. left; reflexivity. }
      change (certify_response H up uq (mk_request m todos_path [] []) not_allowed_response todos_tree_path st) with (certify_response H up uq (todo_request m) (create_response 405 (json_err 405 (bs "Method not allowed"))) todos_tree_path st).
      rewrite E. apply NoDup_cons_iff in ND. destruct ND as [NI ND].
      destruct (IH _ _ _ _ I1) as (st2 & R2 & ops2 & E2 & I2 & A & B & N2 & T2 & D2).
      { intros x X. apply IN. right; exact X. } { exact ND. }
      { intros x X. unfold set. destruct (bytes_eqb x m) eqn:EX; [apply bytes_eqb_eq in EX; subst x; contradiction|]. apply NR. right; exact X. }
      { intros _. exact D1. }
      exists st2, R2, ops2. split; [exact E2|]. split; [exact I2|]. split; [|split; [|repeat split; congruence]].
      + intros x [<-|X]; [|exact (A x X)]. rewrite (B m NI). unfold set. rewrite bytes_eqb_refl. reflexivity.
      + intros x X. rewrite B by (intro Z; apply X; right; exact Z). unfold set. destruct (bytes_eqb x m) eqn:EX; [|reflexivity]. apply bytes_eqb_eq in EX. subst x. exfalso. apply X. left; reflexivity.
  Qed.
  Lemma not_found_step R ops st : inv R false ops st -> exists st' ops', certify_not_found H st = Some st' /\ inv R true ops' st' /\
    ap_next st' = ap_next st /\ ap_items st' = ap_items st /\ ap_data st' = Some (http_root_hash H (ap_tree st')).
  Proof.
    intro I. unfold certify_not_found. change (m_get bytes_eqb not_found_path response_only_cel_exprs) with (Some all_headers). cbv iota.
    change (add_header not_found_response (cert_expr_header_name, print_cel (CelResponseOnly all_headers))) with missing.
    assert (CF : certify_response_only H all_headers missing None = Some nf_cert).
    { apply (C54_requires_exact_cel_header H uq todo_request_cert all_headers (todo_request []) missing None nf_cert). split; [exact missing_single|reflexivity]. }
    rewrite CF. destruct (step_ok ops (HInsert nf_ent) _ (i_run _ _ _ _ I)) as (t & E & RT). cbn [nstep http_nop] in E. fold not_found_tree_path. fold nf_ent. rewrite E.
    eexists. exists (ops ++ [HInsert nf_ent]). split; [reflexivity|]. cbn [ap_next ap_items ap_data ap_tree]. split; [|repeat split].
    assert (K : forall m r, held ops (ent m r) -> held (ops ++ [HInsert nf_ent]) (ent m r)).
    { intros m r He. apply held_insert. right. split; [exact He|]. split; apply nf_apart. }
    split; cbn [ap_tree ap_responses ap_fallbacks].
    - exact RT.
    - exact (i_resp _ _ _ _ I).
    - rewrite m_get_insert by exact bytes_eqb_eq. reflexivity.
    - exact (i_dom _ _ _ _ I).
    - intros en He. apply held_insert in He. destruct He as [P|(He & _)]; [right; auto|]. destruct (i_held _ _ _ _ I en He) as [X|[X _]]; [left; exact X|discriminate X].
    - intros r E'. apply K, (i_get _ _ _ _ I r E').
    - intros m r E'. destruct (i_all _ _ _ _ I m r E') as [X|X]; [left; apply K, X|right; exact X].
    - intros _. apply held_insert. left. reflexivity.
    - apply Forall_app. split; [exact (i_ops _ _ _ _ I)|]. constructor; [right; reflexivity|constructor].
  Qed.
  Lemma default_inv : inv (fun _ => None) false [] api_default.
  Proof.
    split; cbn [ap_tree ap_responses ap_fallbacks api_default m_get]; try reflexivity; try discriminate.
    - intros m p. destruct (bytes_eqb p todos_path); reflexivity.
    - intros en X. exfalso. unfold held in X. cbn [map] in X. remember [] as l eqn:E. destruct X; destruct ops; discriminate E.
    - constructor.
  Qed.
  Lemma init_whole order : (forall l, Permutation (order l) l) -> exists st, init H up uq order = Some st /\ whole st [] /\ ap_next st = 0 /\ ap_items st = [].
  Proof.
    intro O. unfold init, certify_list_todos. assert (O0 : order [] = []) by (apply Permutation_nil, Permutation_sym, O). cbn [api_default ap_items]. rewrite O0. cbn [map].
    destruct (certify_step _ _ _ _ (bs "GET") 200 (list_body []) default_inv) as (st1 & ops1 & E1 & I1 & N1 & T1 & D1); [left; reflexivity|left; reflexivity|].
    change (mk_request (bs "GET") todos_path [] []) with (todo_request (bs "GET")). fold api_default. rewrite E1.
    destruct (not_allowed_step not_allowed_methods _ _ _ _ I1) as (st2 & R2 & ops2 & E2 & I2 & A & B & N2 & T2 & D2).
    { intros x X. exact X. } { repeat constructor; simpl; intuition discriminate. }
    { intros m X. unfold set. destruct (bytes_eqb m (bs "GET")) eqn:EX; [|reflexivity]. apply bytes_eqb_eq in EX. subst m. simpl in X. intuition discriminate. }
    { discriminate. }
    rewrite E2. destruct (not_found_step _ _ _ I2) as (st3 & ops3 & E3 & I3 & N3 & T3 & D3). exists st3. split; [exact E3|].
    assert (T : ap_items st3 = []) by (rewrite T3, T2, T1; reflexivity). split; [|split; [rewrite N3, N2, N1; reflexivity|exact T]].
    exists R2, ops3. split; [exact I3|]. split; [rewrite B by (simpl; intuition discriminate); reflexivity|]. split; [exact A|]. rewrite T. split; [constructor|]. split; [exact D3|]. split; constructor.
  Qed.
  (** certifying the list again, after the items changed *)
  Lemma relist_whole order st l next items : (forall l, Permutation (order l) l) -> whole st l -> NoDup (map fst items) -> Forall (fun x => td_id (snd x) = fst x) items ->
    exists st' l', certify_list_todos H up uq order (with_items st next items) = Some st' /\ whole st' l' /\ ap_next st' = next /\ ap_items st' = items.
  Proof.
    intros O (R & ops & I & G & RF & _ & _ & _) ND F.
    assert (I' : inv R true ops (with_items st next items)) by (destruct I; split; assumption).
    unfold certify_list_todos. cbn [with_items ap_items]. fold (with_items st next items).
    destruct (certify_step R true ops _ (bs "GET") 200 (list_body (map snd (order items))) I') as (st1 & ops1 & E1 & I1 & N1 & T1 & D1); [left; reflexivity|left; reflexivity|].
    exists st1, (map snd (order items)). split; [exact E1|]. cbn [with_items ap_next ap_items] in N1, T1. split; [|auto].
    eexists _, ops1. split; [exact I1|]. split; [reflexivity|]. split.
    { intros m X. unfold set. destruct (bytes_eqb m (bs "GET")) eqn:EX; [|exact (RF m X)]. apply bytes_eqb_eq in EX. subst m. simpl in X. intuition discriminate. }
    rewrite T1. split; [apply Permutation_map, O|]. auto.
  Qed.

  (** ** Routes *)
  Lemma upper_same a b : upper a = upper b <-> same_name a b.
  Proof.
    assert (X : forallb (fun x => forallb (fun y => Bool.eqb (byte_eqb (upper_byte x) (upper_byte y)) (byte_eqb (lower_byte x) (lower_byte y))) (map n2b (map N.of_nat (List.seq 0%nat 256%nat)))) (map n2b (map N.of_nat (List.seq 0%nat 256%nat))) = true) by (vm_compute; reflexivity).
    assert (Al : forall b, In b (map n2b (map N.of_nat (List.seq 0%nat 256%nat)))).
    { intro x. rewrite <- (n2b_b2n x). apply in_map. rewrite <- (N2Nat.id (b2n x)). apply in_map. apply in_seq. assert (L := Byte.to_N_bounded x). change (Byte.to_N x) with (b2n x) in L. lia. }
    assert (Y : forall x y, upper_byte x = upper_byte y <-> lower_byte x = lower_byte y).
    { intros x y. rewrite forallb_forall in X. specialize (X x (Al x)). rewrite forallb_forall in X. specialize (X y (Al y)). apply Bool.eqb_prop in X.
      rewrite <- !byte_eqb_eq. rewrite X. reflexivity. }
    unfold same_name, upper. split.
    - revert b. induction a as [|x a IH]; intros [|y b] E; try discriminate E; [constructor|]. injection E as E1 E2. constructor; [apply Y, E1|apply IH, E2].
    - induction 1 as [|x y a b E F IH]; [reflexivity|]. cbn [map]. rewrite IH. f_equal. apply Y, E.
  Qed.
  Lemma strip_prefix_spec p : forall s r, strip_prefix p s = Some r <-> s = p ++ r.
  Proof.
    induction p as [|x p IH]; intros s r; cbn [strip_prefix app]; [split; [intro E; injection E; auto|intros ->; reflexivity]|].
    destruct s as [|y s]; [split; discriminate|]. destruct (byte_eqb x y) eqn:E.
    - apply byte_eqb_eq in E. subst y. rewrite IH. split; [intros ->; reflexivity|intro Z; injection Z; auto].
    - split; [discriminate|]. intro Z. injection Z as Z _. subst y. rewrite (proj2 (byte_eqb_eq x x) eq_refl) in E. discriminate E.
  Qed.
  Lemma route_inv {A} (routes : list (bytes * (pattern * A))) m path h p : route routes m path = Some (h, p) ->
    exists pat, In (upper m, (pat, h)) routes /\ pattern_match pat path = Some p.
  Proof.
    unfold route. destruct (m_get bytes_eqb (upper m) routes) as [[pat h']|] eqn:E; [|discriminate]. destruct (pattern_match pat path) as [x|] eqn:EP; [|discriminate].
    cbn [option_map]. intro Z. injection Z as <- <-. exists pat. split; [|exact EP]. apply (m_get_in bytes_eqb bytes_eqb_eq) in E. exact E.
  Qed.
  Lemma segment_spec p path s : pattern_match (OneSegment p) path = Some s <-> path = p ++ s /\ s <> [] /\ ~ In "/"%byte s.
  Proof.
    cbn [pattern_match]. destruct (strip_prefix p path) as [r|] eqn:E.
    - apply strip_prefix_spec in E. subst path. split.
      + destruct r as [|b r]; [discriminate|]. destruct (existsb (byte_eqb "/") (b :: r)) eqn:X; [discriminate|]. intro Z. injection Z as <-.
        split; [reflexivity|]. split; [discriminate|]. intro I. assert (Y : existsb (byte_eqb "/") (b :: r) = true) by (apply existsb_exists; exists "/"%byte; split; [exact I|reflexivity]). congruence.
      + intros (Z & N & I). apply app_inv_head in Z. subst s. destruct r as [|b r]; [congruence|]. destruct (existsb (byte_eqb "/") (b :: r)) eqn:X; [|reflexivity].
        exfalso. apply existsb_exists in X. destruct X as (x & X & Y). apply byte_eqb_eq in Y. subst x. exact (I X).
    - split; [discriminate|]. intros (Z & _). apply strip_prefix_spec in Z. congruence.
  Qed.
  Lemma number_segment s n : number s n -> s <> [] /\ ~ In "/"%byte s.
  Proof.
    intro X. destruct (number_chars _ _ X) as [N F]. split; [exact N|]. intro I. rewrite Forall_forall in F. destruct (F _ I) as [Y|Y]; [discriminate Y|]. vm_compute in Y. destruct Y as [Y _]. congruence.
  Qed.
  Lemma asks_create rq path t : path_of up rq path -> asks up pc pu rq (Create t) <-> route update_routes (rq_method rq) path = Some (RouteCreate, []) /\ pc (rq_body rq) = Some t.
  Proof.
    intro P. unfold asks. split.
    - intros (S & P' & E). split; [|exact E]. apply C63_request_path_exact in P, P'. assert (path = bs "/todos") by congruence. subst path.
      apply upper_same in S. unfold route. rewrite S. reflexivity.
    - intros (R & E). apply route_inv in R. destruct R as (pat & I & M). unfold update_routes in I. apply in_app_or in I.
      assert (X : upper (rq_method rq) = bs "POST" /\ pat = Literal todos_path).
      { destruct I as [I|I]; [|apply in_map_iff in I; destruct I as (x & Z & _); discriminate Z]. destruct I as [Z|[Z|[Z|[]]]]; try discriminate Z. injection Z as Z1 Z2. split; [symmetry; exact Z1|symmetry; exact Z2]. }
      destruct X as [X ->]. cbn [pattern_match] in M. destruct (bytes_eqb todos_path path) eqn:EP; [|discriminate M]. apply bytes_eqb_eq in EP. subst path.
      split; [apply upper_same; exact X|]. auto.
  Qed.
  Lemma asks_item M h rq path id : (M = bs "PATCH" /\ h = RouteUpdate \/ M = bs "DELETE" /\ h = RouteDelete) -> path_of up rq path ->
    same_name (rq_method rq) M /\ item_path up rq id <-> exists p, route update_routes (rq_method rq) path = Some (h, p) /\ parse_usize (2 ^ 32) p = Some id.
  Proof.
    intros MH P. split.
    - intros (S & s & P' & N & L). apply C63_request_path_exact in P, P'. assert (path = bs "/todos/" ++ s) by congruence. subst path.
      exists s. split; [|apply parse_usize_spec; [reflexivity|auto]]. apply upper_same in S. unfold route. rewrite S.
      assert (PM : pattern_match (OneSegment (bs "/todos/")) (bs "/todos/" ++ s) = Some s) by (apply segment_spec; split; [reflexivity|exact (number_segment _ _ N)]).
      destruct MH as [[-> ->]|[-> ->]];
        (match goal with |- match ?x with _ => _ end = _ => let y := eval vm_compute in x in change x with y end; cbv iota; match goal with |- option_map _ (pattern_match ?p _) = _ => change p with (OneSegment (bs "/todos/")) end; rewrite PM; reflexivity).
    - intros (p & R & E). apply parse_usize_spec in E; [|reflexivity]. apply route_inv in R. destruct R as (pat & I & M').
      assert (X : upper (rq_method rq) = M /\ pat = OneSegment (bs "/todos/")).
      { unfold update_routes in I. apply in_app_or in I. destruct I as [I|I].
        - destruct MH as [[-> ->]|[-> ->]]; destruct I as [Z|[Z|[Z|[]]]]; try discriminate Z; injection Z as Z1 Z2; (split; [symmetry; exact Z1|symmetry; exact Z2]).
        - exfalso. apply in_map_iff in I. destruct I as (x & Z & _). injection Z as _ _ Z. destruct MH as [[_ ->]|[_ ->]]; discriminate Z. }
      destruct X as [X ->]. apply segment_spec in M'. destruct M' as (-> & _). split.
      + apply upper_same. rewrite X. destruct MH as [[-> _]|[-> _]]; reflexivity.
      + exists p. tauto.
  Qed.

  (** ** Histories *)
  Definition represents (st : api) (s : todos) : Prop :=
    ap_next st = next_id s /\ next_id s < 2 ^ 32 /\ forall id, option_map (fun x => (td_title x, td_completed x)) (m_get N.eqb id (ap_items st)) = item_at s id.
  Lemma remove_keys k (items : list (N * todo)) : NoDup (map fst items) -> NoDup (map fst (m_remove N.eqb k items)) /\ ~ In k (map fst (m_remove N.eqb k items)).
  Proof.
    unfold m_remove. induction items as [|[x v] r IH]; intro ND; [split; [constructor|intros []]|]. cbn [map fst] in ND. apply NoDup_cons_iff in ND. destruct ND as [NI ND].
    destruct (IH ND) as [A B]. cbn [filter fst]. destruct (N.eqb k x) eqn:E; cbn [negb]; [auto|]. cbn [map fst]. split.
    - constructor; [|exact A]. intro I. apply NI. apply in_map_iff in I. destruct I as (y & <- & I). apply filter_In in I. apply in_map, I.
    - intros [Z|I]; [apply N.eqb_neq in E; congruence|exact (B I)].
  Qed.
  Lemma remove_ids k (items : list (N * todo)) : Forall (fun x => td_id (snd x) = fst x) items -> Forall (fun x => td_id (snd x) = fst x) (m_remove N.eqb k items).
  Proof. intro F. unfold m_remove. rewrite Forall_forall in *. intros x I. apply filter_In in I. apply F, I. Qed.
  Lemma insert_keys k v (items : list (N * todo)) : NoDup (map fst items) -> NoDup (map fst (m_insert N.eqb k v items)).
  Proof. intro ND. destruct (remove_keys k items ND) as [A B]. constructor; assumption. Qed.
  Lemma insert_ids k v (items : list (N * todo)) : td_id v = k -> Forall (fun x => td_id (snd x) = fst x) items -> Forall (fun x => td_id (snd x) = fst x) (m_insert N.eqb k v items).
  Proof. intros E F. constructor; [exact E|apply remove_ids, F]. Qed.

  Lemma asks_fun rq w w' : asks up pc pu rq w -> asks up pc pu rq w' -> w = w'.
  Proof.
    assert (D : forall a b, same_name (rq_method rq) a -> same_name (rq_method rq) b -> upper a = upper b) by (intros a b X Y; apply upper_same in X, Y; congruence).
    assert (J : forall i j, item_path up rq i -> item_path up rq j -> i = j).
    { intros i j (a & A & X & _) (b & B & Y & _). apply C63_request_path_exact in A, B. assert (bs "/todos/" ++ a = bs "/todos/" ++ b) by congruence. apply app_inv_head in H0. subst b. exact (number_fun _ _ _ X Y). }
    destruct w, w'; cbn [asks]; intros (A & B) (A' & B'); try (specialize (D _ _ A A'); discriminate D).
    - f_equal. destruct B, B'. congruence.
    - destruct B as [B C], B' as [B' C']. rewrite (J _ _ B B'). assert (Z : (title, completed) = (title0, completed0)) by congruence. injection Z as -> ->. reflexivity.
    - rewrite (J _ _ B B'). reflexivity.
  Qed.
  Lemma fulfils_fun w s s1 s2 : fulfils ck w s s1 -> fulfils ck w s s2 -> next_id s1 = next_id s2 /\ forall j, item_at s1 j = item_at s2 j.
  Proof.
    destruct w as [t|id t c|id]; cbn [fulfils].
    - intros (_ & N1 & A1 & B1) (_ & N2 & A2 & B2). split; [congruence|]. intro j. destruct (N.eq_dec j (next_id s)) as [->|NE]; [congruence|rewrite B1, B2 by exact NE; reflexivity].
    - intros (t1 & c1 & E1 & N1 & A1 & B1) (t2 & c2 & E2 & N2 & A2 & B2). rewrite E1 in E2. injection E2 as <- <-. split; [congruence|]. intro j. destruct (N.eq_dec j id) as [->|NE]; [congruence|rewrite B1, B2 by exact NE; reflexivity].
    - intros (N1 & A1 & B1) (N2 & A2 & B2). split; [congruence|]. intro j. destruct (N.eq_dec j id) as [->|NE]; [congruence|rewrite B1, B2 by exact NE; reflexivity].
  Qed.
  Lemma represents_ext st s1 s2 : next_id s1 = next_id s2 -> (forall j, item_at s1 j = item_at s2 j) -> represents st s1 -> represents st s2.
  Proof. intros N E (A & L & B). split; [congruence|]. split; [congruence|]. intro id. rewrite B. apply E. Qed.
  Lemma create_represents st s t st' : represents st s -> (ck = true -> next_id s + 1 < 2 ^ 32) ->
    ap_next st' = (ap_next st + 1) mod 2 ^ 32 -> ap_items st' = m_insert N.eqb (ap_next st) (mk_todo (ap_next st) t false) (ap_items st) ->
    exists s', fulfils ck (Create t) s s' /\ represents st' s'.
  Proof.
    intros (A & L & B) C N I. exists (mk_todos ((next_id s + 1) mod 2 ^ 32) (fun j => if j =? next_id s then Some (t, false) else item_at s j)).
    split; [|split; [|split]]; cbn [fulfils next_id item_at].
    - split; [exact C|]. split; [reflexivity|]. split; [rewrite N.eqb_refl; reflexivity|]. intros j NE. apply N.eqb_neq in NE. rewrite NE. reflexivity.
    - congruence.
    - apply N.mod_lt. discriminate.
    - intro id. rewrite I, m_get_insert by exact N.eqb_eq. rewrite <- A. destruct (id =? ap_next st); [reflexivity|apply B].
  Qed.
  Lemma change_represents st s id t c item st' : represents st s -> m_get N.eqb id (ap_items st) = Some item ->
    ap_next st' = ap_next st -> ap_items st' = m_insert N.eqb id (mk_todo (td_id item) (match t with Some x => x | None => td_title item end) (match c with Some x => x | None => td_completed item end)) (ap_items st) ->
    exists s', fulfils ck (Change id t c) s s' /\ represents st' s'.
  Proof.
    intros (A & L & B) G N I.
    exists (mk_todos (next_id s) (fun j => if j =? id then Some (match t with Some x => x | None => td_title item end, match c with Some x => x | None => td_completed item end) else item_at s j)).
    split; [|split; [|split]]; cbn [fulfils next_id item_at].
    - exists (td_title item), (td_completed item). split; [rewrite <- B, G; reflexivity|]. split; [reflexivity|]. split; [rewrite N.eqb_refl; reflexivity|]. intros j NE. apply N.eqb_neq in NE. rewrite NE. reflexivity.
    - congruence.
    - exact L.
    - intro j. rewrite I, m_get_insert by exact N.eqb_eq. destruct (j =? id); [reflexivity|apply B].
  Qed.
  Lemma remove_represents st s id st' : represents st s -> ap_next st' = ap_next st -> ap_items st' = m_remove N.eqb id (ap_items st) ->
    exists s', fulfils ck (Remove id) s s' /\ represents st' s'.
  Proof.
    intros (A & L & B) N I. exists (mk_todos (next_id s) (fun j => if j =? id then None else item_at s j)).
    split; [|split; [|split]]; cbn [fulfils next_id item_at].
    - split; [reflexivity|]. split; [rewrite N.eqb_refl; reflexivity|]. intros j NE. apply N.eqb_neq in NE. rewrite NE. reflexivity.
    - congruence.
    - exact L.
    - intro j. rewrite I, m_get_remove by exact N.eqb_eq. destruct (j =? id); [reflexivity|apply B].
  Qed.
  Lemma whole_items st l : whole st l -> NoDup (map fst (ap_items st)) /\ Forall (fun x => td_id (snd x) = fst x) (ap_items st).
  Proof. intros (R & ops & _ & _ & _ & _ & _ & X). exact X. Qed.

  Notation step := (step H up uq pc pu ck).
  Definition done_or_not (o : list (N * todo) -> list (N * todo)) (rq : request) (st : api) (s : todos) : Prop :=
    (exists w s' l', (asks up pc pu rq w /\ option_map snd (http_request_update H up uq pc pu ck o st rq) = Some (reply w s)) /\ fulfils ck w s s' /\ whole (step st (Update o rq)) l' /\ represents (step st (Update o rq)) s') \/
    ((forall w s', asks up pc pu rq w -> ~ fulfils ck w s s') /\ (http_request_update H up uq pc pu ck o st rq = None \/ http_request_update H up uq pc pu ck o st rq = Some (st, no_update))) /\ step st (Update o rq) = st.
  Lemma update_step o rq st l s : (forall l, Permutation (o l) l) -> whole st l -> represents st s -> done_or_not o rq st s.
  Proof.
    intros O W RS. destruct (whole_items st l W) as [ND FI]. unfold done_or_not. cbn [JsonApi.step]. unfold http_request_update.
    destruct (get_path up rq) as [path| | |] eqn:GP; cbn [trap_of];
      try (right; (split; [split; [|left; reflexivity]|reflexivity]); intros w s' A; exfalso; destruct w; cbn [asks] in A;
           [destruct A as (_ & A & _)|destruct A as (_ & (? & A & _) & _)|destruct A as (_ & (? & A & _))]; apply C63_request_path_exact in A; congruence).
    apply C63_request_path_exact in GP.
    assert (ItemU : forall id t c, asks up pc pu rq (Change id t c) <-> (exists p, route update_routes (rq_method rq) path = Some (RouteUpdate, p) /\ parse_usize (2 ^ 32) p = Some id) /\ pu (rq_body rq) = Some (t, c)).
    { intros id t c. cbn [asks]. rewrite <- (asks_item (bs "PATCH") RouteUpdate rq path id) by (auto; exact GP). tauto. }
    assert (ItemD : forall id, asks up pc pu rq (Remove id) <-> exists p, route update_routes (rq_method rq) path = Some (RouteDelete, p) /\ parse_usize (2 ^ 32) p = Some id).
    { intros id. cbn [asks]. rewrite <- (asks_item (bs "DELETE") RouteDelete rq path id) by (auto; exact GP). tauto. }
    assert (ItemC := asks_create rq path). specialize (ItemC).
    destruct (route update_routes (rq_method rq) path) as [[h p]|] eqn:RT.
    2:{ right. split; [split; [|left; reflexivity]|reflexivity]. intros [t|id t c|id] s' A; exfalso; [apply (ItemC t GP) in A|apply ItemU in A|apply ItemD in A]; [destruct A as [A _]|destruct A as [(? & A & _) _]|destruct A as (? & A & _)]; discriminate A. }
    destruct h.
    - (* create *)
      assert (p = []).
      { apply route_inv in RT. destruct RT as (pat & I & M). unfold update_routes in I. apply in_app_or in I. destruct I as [I|I]; [|apply in_map_iff in I; destruct I as (x & Z & _); discriminate Z].
        destruct I as [Z|[Z|[Z|[]]]]; try discriminate Z. injection Z as _ <-. cbn [pattern_match] in M. destruct (bytes_eqb todos_path path); [|discriminate M]. injection M as <-. reflexivity. }
      subst p. unfold create_handler. destruct (pc (rq_body rq)) as [t|] eqn:PC.
      2:{ right. split; [split; [|left; reflexivity]|reflexivity]. intros [t|id t c|id] s' A; exfalso; [apply (ItemC t GP) in A|apply ItemU in A|apply ItemD in A]; [destruct A as [_ A]|destruct A as [(? & A & _) _]|destruct A as (? & A & _)]; discriminate A. }
      assert (As : asks up pc pu rq (Create t)) by (apply (ItemC t GP); auto).
      destruct (ck && (ap_next st + 1 =? 2 ^ 32)) eqn:OV.
      + right. split; [split; [|left; reflexivity]|reflexivity]. apply andb_true_iff in OV. destruct OV as [CK OV]. intros w s' A F. assert (w = Create t) by (eapply asks_fun; eassumption). subst w. destruct F as (F & _).
        apply N.eqb_eq in OV. specialize (F CK). destruct RS as (RS & _). lia.
      + destruct (relist_whole o st l ((ap_next st + 1) mod 2 ^ 32) (m_insert N.eqb (ap_next st) (mk_todo (ap_next st) t false) (ap_items st)) O W) as (st' & l' & E & W' & N' & I').
        { apply insert_keys, ND. } { apply insert_ids; [reflexivity|exact FI]. }
        rewrite E. left. destruct (create_represents st s t st' RS) as (s' & F & RS'); [|exact N'|exact I'|exists (Create t), s', l'; split; [split; [exact As|cbn [option_map snd reply]; rewrite (proj1 RS); reflexivity]|auto]].
        intro CK. destruct RS as (RS & L & _). rewrite CK in OV. cbn [andb] in OV. apply N.eqb_neq in OV. lia.
    - (* change *)
      unfold update_handler. destruct (pu (rq_body rq)) as [[t c]|] eqn:PU.
      2:{ right. split; [split; [|left; reflexivity]|reflexivity]. intros [t|id t c|id] s' A; exfalso; [apply (ItemC t GP) in A|apply ItemU in A|apply ItemD in A]; [destruct A as [A _]|destruct A as [_ A]|destruct A as (? & A & _)]; discriminate A. }
      destruct (parse_usize (2 ^ 32) p) as [id|] eqn:PA.
      2:{ right. split; [split; [|left; reflexivity]|reflexivity]. intros [t'|id t' c'|id] s' A; exfalso; [apply (ItemC t' GP) in A; destruct A as [A _]; discriminate A|apply ItemU in A; destruct A as [(q & A & B) _]; injection A as <-; congruence|apply ItemD in A; destruct A as (? & A & _); discriminate A]. }
      assert (As : asks up pc pu rq (Change id t c)) by (apply ItemU; split; [exists p; auto|reflexivity]).
      destruct (m_get N.eqb id (ap_items st)) as [item|] eqn:G.
      2:{ right. split; [split; [|left; reflexivity]|reflexivity]. intros w s' A F. assert (w = Change id t c) by (eapply asks_fun; eassumption). subst w. destruct F as (t0 & c0 & F & _). destruct RS as (_ & _ & RS). specialize (RS id). rewrite G in RS. cbn [option_map] in RS. congruence. }
      cbn [fst snd].
      assert (EI : match c with Some c0 => mk_todo (td_id match t with Some t0 => mk_todo (td_id item) t0 (td_completed item) | None => item end) (td_title match t with Some t0 => mk_todo (td_id item) t0 (td_completed item) | None => item end) c0
                   | None => match t with Some t0 => mk_todo (td_id item) t0 (td_completed item) | None => item end end
                   = mk_todo (td_id item) (match t with Some x => x | None => td_title item end) (match c with Some x => x | None => td_completed item end)) by (destruct t, c, item; reflexivity).
      rewrite EI. clear EI.
      set (new := mk_todo (td_id item) (match t with Some x => x | None => td_title item end) (match c with Some x => x | None => td_completed item end)).
      destruct (relist_whole o st l (ap_next st) (m_insert N.eqb id new (ap_items st)) O W) as (st' & l' & E & W' & N' & I').
      { apply insert_keys, ND. }
      { apply insert_ids; [|exact FI]. apply (m_get_in N.eqb N.eqb_eq) in G. rewrite Forall_forall in FI. exact (FI _ G). }
      rewrite E. left. destruct (change_represents st s id t c item st' RS G N' I') as (s' & F & RS'). exists (Change id t c), s', l'. auto.
    - (* delete *)
      unfold delete_handler. destruct (parse_usize (2 ^ 32) p) as [id|] eqn:PA.
      2:{ right. split; [split; [|left; reflexivity]|reflexivity]. intros [t'|id t' c'|id] s' A; exfalso; [apply (ItemC t' GP) in A; destruct A as [A _]; discriminate A|apply ItemU in A; destruct A as [(q & A & B) _]; discriminate A|apply ItemD in A; destruct A as (q & A & B); injection A as <-; congruence]. }
      assert (As : asks up pc pu rq (Remove id)) by (apply ItemD; exists p; auto).
      destruct (relist_whole o st l (ap_next st) (m_remove N.eqb id (ap_items st)) O W) as (st' & l' & E & W' & N' & I').
      { apply remove_keys, ND. } { apply remove_ids, FI. }
      rewrite E. left. destruct (remove_represents st s id st' RS N' I') as (s' & F & RS'). exists (Remove id), s', l'. auto.
    - right. split; [split; [|right; reflexivity]|reflexivity]. intros [t|id t c|id] s' A; exfalso; [apply (ItemC t GP) in A|apply ItemU in A|apply ItemD in A]; [destruct A as [A _]|destruct A as [(? & A & _) _]|destruct A as (? & A & _)]; discriminate A.
  Qed.

  Notation follows := (follows up pc pu ck).
  Lemma step_cases e st l s : some_order e -> whole st l -> represents st s ->
    (exists l', whole (step st e) l') /\
    match e with Upgrade _ => represents (step st e) no_todos | Update o rq => done_or_not o rq st s end.
  Proof.
    intros O W RS. destruct e as [o rq|o]; cbn [some_order] in O.
    - assert (D := update_step o rq st l s O W RS). split; [|exact D]. destruct D as [(w & s' & l' & _ & _ & W' & _)|[_ E]]; [eauto|]. rewrite E. eauto.
    - destruct (init_whole o O) as (st' & E & W' & N & I). cbn [JsonApi.step]. rewrite E. split; [eauto|]. split; [exact N|]. split; [reflexivity|]. intro id. rewrite I. reflexivity.
  Qed.
  Lemma run_cases order0 st0 : (forall l, Permutation (order0 l) l) -> init H up uq order0 = Some st0 -> forall es, Forall some_order es ->
    (exists l, whole (run_events H up uq pc pu ck es st0) l) /\ (exists s, follows es s) /\ (forall s, follows es s -> represents (run_events H up uq pc pu ck es st0) s).
  Proof.
    intros O0 E0. induction es as [|e es IH] using rev_ind; intro F.
    - destruct (init_whole order0 O0) as (st' & E & W & N & I). assert (st' = st0) by congruence. subst st'. split; [eauto|]. split; [exists no_todos; constructor|].
      intros s X. assert (s = no_todos) by (inversion X; auto; match goal with Z : ?a ++ [_] = [] |- _ => destruct a; discriminate Z end). subst s. split; [exact N|]. split; [reflexivity|]. intro id. cbn [run_events fold_left]. rewrite I. reflexivity.
    - apply Forall_app in F. destruct F as [F Fe]. inversion Fe as [|? ? Oe _]; subst. destruct (IH F) as ((l & W) & (s & Fs) & RS). unfold run_events in *. rewrite fold_left_app. cbn [fold_left].
      set (st := fold_left step es st0) in *. destruct (step_cases e st l s Oe W (RS s Fs)) as [W' SC]. split; [exact W'|].
      assert (SC' : forall s, follows es s -> match e with Upgrade _ => represents (step st e) no_todos | Update o rq => done_or_not o rq st s end) by (intros s1 X; exact (proj2 (step_cases e st l s1 Oe W (RS s1 X)))).
      split.
      + destruct e as [o rq|o]; [|exists no_todos; eapply FollowsUpgrade; exact Fs]. destruct SC as [(w & s' & l' & (A & _) & Fu & _)|[(N & _) _]]; [exists s'; eapply FollowsUpdate; eassumption|exists s; apply FollowsNothing; assumption].
      + intros s1 X. inversion X as [Z|es1 s2 o1 X1 Z|es1 s2 s3 o1 rq w X1 A Fu Z|es1 s2 o1 rq X1 N Z]; try (destruct es; discriminate Z); apply app_inj_tail in Z; destruct Z as [-> <-].
        * exact (SC' _ X1).
        * destruct (SC' _ X1) as [(w' & s' & l' & (A' & _) & Fu' & _ & R')|[(N & _) _]]; [|exfalso; exact (N _ _ A Fu)]. assert (w' = w) by (eapply asks_fun; eassumption). subst w'.
          destruct (fulfils_fun _ _ _ _ Fu' Fu) as [Q1 Q2]. exact (represents_ext _ _ _ Q1 Q2 R').
        * subst s2. destruct (SC' _ X1) as [(w' & s' & l' & (A' & _) & Fu' & _)|[_ E]]; [exfalso; exact (N _ _ A' Fu')|]. rewrite E. exact (RS _ X1).
  Qed.
  Lemma whole_shows st l s : whole st l -> represents st s -> shows l s.
  Proof.
    intros (R & ops & _ & _ & _ & P & _ & ND & FI) (_ & _ & RS).
    assert (EM : map td_id (map snd (ap_items st)) = map fst (ap_items st)). { rewrite map_map. apply map_ext_in. intros x I. rewrite Forall_forall in FI. exact (FI x I). }
    assert (G : forall id t, In (id, t) (ap_items st) -> m_get N.eqb id (ap_items st) = Some t).
    { clear -ND. induction (ap_items st) as [|[x v] r IH]; intros id t II; [destruct II|]; destruct II as [II|II]; cbn [map fst] in ND; apply NoDup_cons_iff in ND; destruct ND as [NI ND]; cbn [m_get].
      - injection II as -> ->. rewrite N.eqb_refl. reflexivity.
      - destruct (id =? x) eqn:E; [|apply IH; assumption]. apply N.eqb_eq in E. subst x. exfalso. apply NI. change id with (fst (id, t)). apply in_map. exact II. }
    split.
    - eapply Permutation_NoDup; [apply Permutation_sym, Permutation_map, P|]. rewrite EM. exact ND.
    - intros id t c. rewrite <- RS. split.
      + intro I. apply (Permutation_in _ P) in I. apply in_map_iff in I. destruct I as ([k v] & E & I). cbn [snd] in E. subst v. rewrite Forall_forall in FI. specialize (FI _ I) as K. cbn [snd fst td_id] in K. subst k. rewrite (G _ _ I). reflexivity.
      + intro E. destruct (m_get N.eqb id (ap_items st)) as [v|] eqn:Gv; [|discriminate E]. cbn [option_map] in E. apply (m_get_in N.eqb N.eqb_eq) in Gv. apply (Permutation_in _ (Permutation_sym P)).
        rewrite Forall_forall in FI. specialize (FI _ Gv) as K. cbn [snd fst] in K. destruct v as [i ti co]. cbn [td_id td_title td_completed] in *. subst i. injection E as -> ->. change (mk_todo id t c) with (snd (id, mk_todo id t c)). apply in_map. exact Gv.
  Qed.

  (** ** What is served *)
  Hypothesis HL : forall x, length (H x) = 32%nat.
  Lemma rqh_len m : length (rqh m) = 32%nat.
  Proof. assert (E := rqh_some m). unfold request_hash in E. destruct (uq (rq_url (todo_request m))); [|discriminate E]. injection E as <-. apply HL. Qed.
  Lemma no_headers_covered hs : filtered_request_headers hs todo_request_cert = [].
  Proof. unfold filtered_request_headers. replace (filter _ hs) with (@nil (bytes * bytes)); [reflexivity|]. induction hs as [|h hs IH]; [reflexivity|exact IH]. Qed.
  Lemma plain_request_hash rq : plain_request uq rq -> request_hash H uq rq todo_request_cert = Some (rqh (rq_method rq)).
  Proof.
    intros [B Q]. rewrite <- rqh_some. unfold request_hash. rewrite Q. unfold todo_request, todos_path. cbn [rq_url rq_body]. rewrite UQ, B.
    unfold request_entries. rewrite no_headers_covered. cbn [rq_headers rq_method]. rewrite no_headers_covered. reflexivity.
  Qed.
  Lemma resp_hash_len r : length (response_hash H r all_headers None) = 32%nat.
  Proof. unfold response_hash. apply HL. Qed.
  Lemma ops_short umod R fb ops st : 32 < umod -> inv R fb ops st -> Forall (fun o => match o with HInsert e => Forall (short umod) (entry_tree_path e) | _ => True end) ops.
  Proof.
    intros U I. eapply Forall_impl; [|exact (i_ops _ _ _ _ I)]. intros [e|e|]; auto. intros [(m & r & _ & _ & ->)| ->].
    - rewrite ent_path. repeat (apply Forall_cons; [unfold short; rewrite ?HL, ?rqh_len, ?resp_hash_len; try (cbn; lia)|]). constructor.
    - rewrite nf_path. repeat (apply Forall_cons; [unfold short; rewrite ?HL, ?resp_hash_len; try (cbn; lia)|]). constructor.
  Qed.
  Lemma todos_parts : request_parts todos_path = [bs "todos"]. Proof. reflexivity. Qed.
  Lemma root_parts : request_parts [] = []. Proof. reflexivity. Qed.
  Lemma refused_apart : ~ In (bs "GET") refused. Proof. simpl. intuition discriminate. Qed.
  Lemma rqh_collide m m' : In m method_list -> In m' method_list -> m <> m' -> rqh m = rqh m' -> methods_collide H.
  Proof.
    intros I I' N E. exists m, m'. split; [exact I|]. split; [exact I'|]. split; [exact N|].
    destruct (C28_request_hash_covers H uq todo_request_cert (todo_request m) (todo_request m') (rqh m) None None [] [] None None HL) as [(X & _)|X]; cbn [rq_headers rq_url todo_request rq_method]; auto; try constructor.
    - apply rqh_some.
    - rewrite E. apply rqh_some.
    - contradiction.
  Qed.

  Lemma route_query m path : queried m -> (exists b r, path = "/"%byte :: b :: r) -> exists p, route query_routes m path = Some (RouteQuery, p).
  Proof.
    intros Q (b & r & ->). assert (E : In (upper m) query_methods). { unfold queried in Q. apply Exists_exists in Q. destruct Q as (x & I & S). apply upper_same in S. rewrite S.
      repeat (destruct I as [<-|I]; [vm_compute; tauto|]). destruct I. }
    exists (b :: r). unfold route. assert (G : m_get bytes_eqb (upper m) query_routes = Some (Rest (bs "/"), RouteQuery)).
    { repeat (destruct E as [<-|E]; [reflexivity|]). destruct E. }
    rewrite G. reflexivity.
  Qed.
  (** the response of the entry the query handler finds *)
  Lemma served R ops st rq path r en dc : inv R true ops st -> path_of up rq path -> queried (rq_method rq) -> (exists b r, path = "/"%byte :: b :: r) ->
    (exists m, R m = Some r /\ m = rq_method rq /\ path = todos_path /\ en = ent m r) \/
      ((path <> todos_path \/ R (rq_method rq) = None) /\ r = missing /\ en = nf_ent) ->
    exists w, http_witness H (ap_tree st) en path = OOk w /\
    http_request H up st dc rq = Some (add_v2_certificate_header dc r w (expr_path (en_path en)), None).
  Proof.
    intros I P Q PS C. assert (W : exists w, http_witness H (ap_tree st) en path = OOk w).
    { destruct (C52_witness_never_panics H ops) as (t & RT & W). assert (t = ap_tree st) by (assert (RI := i_run _ _ _ _ I); congruence). subst t.
      destruct (W en path) as [(w & E & _)|(_ & p & E & L)]; [eauto|exfalso]. destruct C as [(m & _ & _ & _ & ->)|(_ & _ & ->)]; [discriminate E|]. injection E as <-. cbn in L. lia. }
    destruct W as (w & EW). exists w. split; [exact EW|]. unfold http_request. assert (P' := P). apply C63_request_path_exact in P'. rewrite P'. cbn [trap_of].
    destruct (route_query (rq_method rq) path Q PS) as (x & ->). unfold query_handler. rewrite P'. cbn [trap_of]. rewrite (i_resp _ _ _ _ I), (i_fb _ _ _ _ I : m_get bytes_eqb not_found_path _ = _).
    destruct C as [(m & ER & -> & -> & ->)|([N|N] & -> & ->)].
    - change (bytes_eqb todos_path todos_path) with true. cbv iota. rewrite ER. cbn [option_map fst snd cr_certification cr_response].
      change (mk_entry (PExact todos_path) (cert_of (rq_method rq) r)) with (ent (rq_method rq) r). rewrite EW. reflexivity.
    - rewrite (proj2 (bytes_eqb_neq _ _) N). cbv iota. cbn [option_map fst snd cr_certification cr_response]. fold nf_ent. rewrite EW. reflexivity.
    - rewrite N. cbn [option_map]. destruct (bytes_eqb path todos_path); cbn [option_map fst snd cr_certification cr_response]; fold nf_ent; rewrite EW; reflexivity.
  Qed.
  Lemma path_todos_shape : exists b r, todos_path = "/"%byte :: b :: r. Proof. exists "t"%byte, (bs "odos"). reflexivity. Qed.
  Lemma GET_queried : queried (bs "GET"). Proof. left. apply upper_same. reflexivity. Qed.
  Lemma exact_not_nf (ops : list http_op) (path : bytes) R st l : inv R true ops st -> R (bs "GET") = Some (listing l) -> request_parts path = [bs "todos"] -> occupied ops (request_parts path ++ [bs "<$>"]).
  Proof.
    intros I G E. rewrite E. exists (cert_tree_path (cert_of (bs "GET") (listing l))), []. exact (i_get _ _ _ _ I _ G).
  Qed.
  Lemma holds_is_held ops p v : holds (map http_nop ops) p v -> Forall (fun o => match o with HInsert en => (exists m r, In m method_list /\ api_response r /\ en = ent m r) \/ en = nf_ent | HDelete _ => True | HClear => False end) ops ->
    exists en, ((exists m r, In m method_list /\ api_response r /\ en = ent m r) \/ en = nf_ent) /\ entry_tree_path en = p.
  Proof.
    induction ops as [|o ops IH] using rev_ind; intros X F.
    - exfalso. cbn [map] in X. remember [] as l eqn:E. destruct X; destruct ops; discriminate E.
    - apply Forall_app in F. destruct F as [F Fo]. inversion Fo as [|? ? O _]; subst. rewrite map_app in X. cbn [map] in X. destruct o as [en|en|]; cbn [http_nop] in X; apply holds_snoc_inv in X.
      + destruct X as [[X _]|(X & _)]; [exists en; auto|exact (IH X F)].
      + apply IH; [apply X|exact F].
      + destruct O.
  Qed.
  (** the fallback answers every path that is not /todos *)
  Lemma nf_answers R ops st path : inv R true ops st -> request_parts path <> [bs "todos"] -> answers ops not_found_tree_path path.
  Proof.
    intros I N. cbn [answers not_found_tree_path]. change (request_parts not_found_path) with (@nil bytes).
    assert (K : forall q x, occupied ops (q ++ [x]) -> x = bs "<$>" \/ x = bs "<*>" -> q = [bs "todos"] /\ x = bs "<$>" \/ q = [] /\ x = bs "<*>").
    { intros q x (z & v & X) S. assert (HX : forall y, length y = 32%nat \/ length y = 0%nat -> x <> y) by (intros y L ->; destruct S as [-> | ->]; destruct L as [L|L]; discriminate L).
      destruct (holds_is_held ops _ v X (i_ops _ _ _ _ I)) as (en & [(m & r & _ & _ & ->)| ->] & E); rewrite <- app_assoc in E; cbn [app] in E.
      - rewrite ent_path in E. destruct q as [|a [|b [|c [|d [|e q]]]]]; cbn [app] in E.
        + injection E as E _. subst x. destruct S as [S|S]; discriminate S.
        + injection E as <- <- _. auto.
        + exfalso. injection E as _ _ E _. apply (HX x); [left; rewrite <- E; apply HL|reflexivity].
        + exfalso. injection E as _ _ _ E _. apply (HX x); [left; rewrite <- E; apply rqh_len|reflexivity].
        + exfalso. injection E as _ _ _ _ E _. apply (HX x); [left; rewrite <- E; apply resp_hash_len|reflexivity].
        + exfalso. injection E as _ _ _ _ _ E. destruct q; discriminate E.
      - rewrite nf_path in E. destruct q as [|a [|b [|c [|d q]]]]; cbn [app] in E.
        + injection E as <- _. auto.
        + exfalso. injection E as _ E _. apply (HX x); [left; rewrite <- E; apply HL|reflexivity].
        + exfalso. injection E as _ _ E _. apply (HX x); [right; rewrite <- E; reflexivity|reflexivity].
        + exfalso. injection E as _ _ _ E _. apply (HX x); [left; rewrite <- E; apply resp_hash_len|reflexivity].
        + exfalso. injection E as _ _ _ _ E. destruct q; discriminate E. }
    split; [left; exists (request_parts path); reflexivity|]. split.
    - intro O. destruct (K _ _ O) as [[E _]|[_ E]]; [left; reflexivity|exact (N E)|discriminate E].
    - intros u M S O. destruct (K _ _ O) as [[_ E]|[E _]]; [right; reflexivity|discriminate E|]. subst u. destruct S as [S|(_ & _ & q & S)]; [cbn in S; lia|destruct q; discriminate S].
  Qed.
End Json.

Section Theorems.
  Variables (umod cap_max : N) (checked : bool) (H : bytes -> bytes) (ple : bytes -> bytes -> bool) (vs : bytes -> bytes -> bytes -> bool)
            (uri_path : bytes -> option bytes) (uri_query : bytes -> option (option bytes)) (gunzip inflate : bytes -> option bytes)
            (parse_create : bytes -> option bytes) (parse_update : bytes -> option (option bytes * option bool)) (checked_canister : bool).
  Notation verify := (verify umod cap_max checked H ple vs uri_path uri_query gunzip inflate).
  Notation run_events := (run_events H uri_path uri_query parse_create parse_update checked_canister).
  Notation http_request := (http_request H uri_path).
  Notation follows := (follows uri_path parse_create parse_update checked_canister).
  Notation init := (init H uri_path uri_query).
  Hypothesis HL : forall x, length (H x) = 32%nat.
  (** the oracles of the http crate's Uri *)
  Hypothesis UP : uri_path (bs "/todos") = Some (bs "/todos").
  Hypothesis UQ : uri_query (bs "/todos") = Some None.

  (** The certificate [dc] holds [d] as the canister's certified data, validly signed. *)
  Definition certifies_data (dc : bytes) (canister_id key : bytes) (now offset : N) (d : option bytes) : Prop :=
    exists c x, cert_from_cbor umod cap_max dc = OOk c /\ verify_certificate umod cap_max checked H ple vs c canister_id key now offset = OOk tt /\
      d = Some x /\ lookup_path (certified_data_path canister_id) (c_tree c) = Found x.
  Definition shown (i : info) (rs : response) : Prop :=
    i_version i = 2 /\ exists v, i_response i = Some v /\ v_status v = Some (rs_status rs) /\ v_body v = rs_body rs.
  Lemma accepted_full st R ops r rq dc w cid key now off mv :
    32 < umod <= 2 ^ 64 -> mv <= 2 -> inv H uri_query R true ops st -> ap_data st = Some (http_root_hash H (ap_tree st)) ->
    R (rq_method rq) = Some r -> held ops (ent H uri_query (rq_method rq) r) -> path_of uri_path rq todos_path -> plain_request uri_query rq ->
    certifies_data dc cid key now off (ap_data st) -> http_witness H (ap_tree st) (ent H uri_query (rq_method rq) r) todos_path = OOk w ->
    exists i, verify rq (add_v2_certificate_header dc r w (expr_path todos_tree_path)) cid now off key mv = OOk i /\ shown i r.
  Proof.
    intros UM MV I D ER He P PR (c & x & Ec & Vc & Ed & Lc) Ew. assert (x = http_root_hash H (ap_tree st)) by congruence. subst x.
    destruct (i_dom _ _ _ _ _ _ I _ _ ER) as [IM AR].
    destruct (C51_certified_response_is_accepted umod cap_max checked H ple vs uri_path uri_query gunzip inflate ops (ap_tree st) (ent H uri_query (rq_method rq) r)
      todo_expression (todo_request (rq_method rq)) rq r todos_path todos_path dc c w cid now off key mv) as (i & V & V2 & v & hs & hv & E1 & E2 & E3 & _); auto.
    - exact (i_run _ _ _ _ _ _ I).
    - apply ent_made; assumption.
    - constructor.
    - intro Z; discriminate Z.
    - intros qc rc Z. unfold todo_expression in Z. injection Z as <- <-. change (mk_request_cert [] []) with todo_request_cert. rewrite (plain_request_hash H uri_query UQ rq PR), (rqh_some H uri_query UQ). reflexivity.
    - reflexivity.
    - exact Logic.I.
    - eapply ops_short; try eassumption. lia.
    - cbn. lia.
    - exists i. split; [exact V|]. split; [exact V2|]. exists v. auto.
  Qed.
  Lemma accepted_fallback st R ops rq path dc w cid key now off mv :
    32 < umod <= 2 ^ 64 -> mv <= 2 -> inv H uri_query R true ops st -> ap_data st = Some (http_root_hash H (ap_tree st)) ->
    path_of uri_path rq path -> request_parts path <> [bs "todos"] -> ordinary_path path -> (forall r, request_parts path <> bs "http_expr" :: r) ->
    certifies_data dc cid key now off (ap_data st) -> http_witness H (ap_tree st) (nf_ent H) path = OOk w ->
    exists i, verify rq (add_v2_certificate_header dc missing w (expr_path not_found_tree_path)) cid now off key mv = OOk i /\ shown i missing.
  Proof.
    intros UM MV I D P NP OP NH (c & x & Ec & Vc & Ed & Lc) Ew. assert (x = http_root_hash H (ap_tree st)) by congruence. subst x.
    destruct (C51_certified_response_is_accepted umod cap_max checked H ple vs uri_path uri_query gunzip inflate ops (ap_tree st) (nf_ent H)
      fallback_expression rq rq missing path path dc c w cid now off key mv) as (i & V & V2 & v & hs & hv & E1 & E2 & E3 & _); auto.
    - exact (i_run _ _ _ _ _ _ I).
    - apply (i_nf _ _ _ _ _ _ I). reflexivity.
    - apply nf_made.
    - constructor.
    - intro Z; discriminate Z.
    - eapply nf_answers; eassumption.
    - split; assumption.
    - eapply ops_short; try eassumption. lia.
    - cbn. lia.
    - exists i. split; [exact V|]. split; [exact V2|]. exists v. auto.
  Qed.

  (** C87: after every history of update calls and upgrades, a query GET /todos without body and query
      string gets a response with the current todo list, and the response verifies. *)
  Lemma c87_holds :
    forall order0 events, (forall l, Permutation (order0 l) l) -> Forall some_order events ->
    exists st0, init order0 = Some st0 /\ (exists s, follows events s) /\
    forall s rq dc canister_id key now offset min_version,
    let st := run_events events st0 in
    follows events s -> 32 < umod <= 2 ^ 64 -> min_version <= 2 ->
    rq_method rq = bs "GET" -> path_of uri_path rq (bs "/todos") -> plain_request uri_query rq ->
    certifies_data dc canister_id key now offset (ap_data st) ->
    exists l hv i, shows l s /\ http_request st dc rq = Some (with_certificate (listing l) hv, None) /\
      verify rq (with_certificate (listing l) hv) canister_id now offset key min_version = OOk i /\ shown i (listing l).
  Proof.
    intros o0 es O0 F. destruct (init_whole H uri_path uri_query UP UQ o0 O0) as (st0 & E0 & _). exists st0. split; [exact E0|].
    destruct (run_cases H uri_path uri_query parse_create parse_update checked_canister UP UQ o0 st0 O0 E0 es F) as ((l & W) & EX & RS). split; [exact EX|].
    intros s rq dc cid key now off mv st Fs UM MV M P PR CD. specialize (RS s Fs). fold st in W, RS.
    assert (Sh := whole_shows H uri_query st l s W RS). destruct W as (R & ops & I & G & _ & _ & D & _).
    destruct (served H uri_path uri_query parse_create parse_update HL R ops st rq todos_path (listing l) (ent H uri_query (bs "GET") (listing l)) dc I P) as (w & Ew & Es).
    { rewrite M. exact (GET_queried H parse_create parse_update). } { exact path_todos_shape. } { left. exists (bs "GET"). rewrite M. auto. }
    assert (He := i_get _ _ _ _ _ _ I _ G). rewrite <- M in G, He, Ew.
    destruct (accepted_full st R ops (listing l) rq dc w cid key now off mv UM MV I D G He P PR CD Ew) as (i & V & S).
    eexists l, _, i. split; [exact Sh|]. split; [exact Es|]. split; [exact V|exact S].
  Qed.

  (** C89: the other responses that verify. *)
  Lemma c89_holds :
    forall order0 events, (forall l, Permutation (order0 l) l) -> Forall some_order events ->
    exists st0, init order0 = Some st0 /\
    forall rq path dc canister_id key now offset min_version,
    let st := run_events events st0 in
    32 < umod <= 2 ^ 64 -> min_version <= 2 -> queried (rq_method rq) -> path_of uri_path rq path ->
    certifies_data dc canister_id key now offset (ap_data st) ->
    (path = bs "/todos" -> In (rq_method rq) refused -> plain_request uri_query rq ->
      exists hv, http_request st dc rq = Some (with_certificate refusal hv, None) /\
      (methods_collide H \/ exists i, verify rq (with_certificate refusal hv) canister_id now offset key min_version = OOk i /\ shown i refusal)) /\
    ((exists b r, path = "/"%byte :: b :: r) -> request_parts path <> [bs "todos"] -> ordinary_path path -> (forall r, request_parts path <> bs "http_expr" :: r) ->
      exists hv i, http_request st dc rq = Some (with_certificate missing hv, None) /\
      verify rq (with_certificate missing hv) canister_id now offset key min_version = OOk i /\ shown i missing).
  Proof.
    intros o0 es O0 F. destruct (init_whole H uri_path uri_query UP UQ o0 O0) as (st0 & E0 & _). exists st0. split; [exact E0|].
    destruct (run_cases H uri_path uri_query parse_create parse_update checked_canister UP UQ o0 st0 O0 E0 es F) as ((l & W) & _ & _).
    intros rq path dc cid key now off mv st UM MV QM P CD. fold st in W. destruct W as (R & ops & I & G & RF & _ & D & _). split.
    - intros -> M PR. assert (ER := RF _ M).
      destruct (served H uri_path uri_query parse_create parse_update HL R ops st rq todos_path refusal (ent H uri_query (rq_method rq) refusal) dc I P QM path_todos_shape) as (w & Ew & Es).
      { left. exists (rq_method rq). auto. }
      eexists. split; [exact Es|]. destruct (i_all _ _ _ _ _ _ I _ _ ER) as [He|(m' & r' & _ & N & Q & A & B & _)].
      + right. destruct (accepted_full st R ops refusal rq dc w cid key now off mv UM MV I D ER He P PR CD Ew) as (i & V & S). exists i. split; [exact V|exact S].
      + left. eapply (rqh_collide H uri_query UQ HL (rq_method rq) m'); [exact A|exact B|auto|exact Q].
    - intros PS NP OP NH. destruct (served H uri_path uri_query parse_create parse_update HL R ops st rq path missing (nf_ent H) dc I P QM PS) as (w & Ew & Es).
      { right. split; [|auto]. left. intros ->. apply NP. reflexivity. }
      destruct (accepted_fallback st R ops rq path dc w cid key now off mv UM MV I D P NP OP NH CD Ew) as (i & V & S). eexists _, i. split; [exact Es|]. split; [exact V|exact S].
  Qed.

  (** What the entries of the tree mean after a history. *)
  Definition api_outcome (s : todos) (rq : request) (rs : response) (expr path : bytes) : Prop :=
    collision H [expr] [print_cel todo_expression] \/ collision H [expr] [print_cel fallback_expression] \/
    (exists m q, In m (bs "GET" :: refused) /\ uri_query (rq_url rq) = Some q /\ collision H (request_messages H rq [] (option_map (fun _ => []) q)) (request_messages H (mk_request m (bs "/todos") [] []) [] None)) \/
    (ordinary_path path -> exists good, correct uri_query s rq path good /\ same_response H (HeaderExclusions []) rs good).
  Lemma c88_core :
    forall order0 events st0 s rq rs,
    (forall l, Permutation (order0 l) l) -> Forall some_order events -> init order0 = Some st0 -> follows events s ->
    let st := run_events events st0 in
    no_pseudo (rq_headers rq) ->
    ap_data st = Some (http_root_hash H (ap_tree st)) /\
    exists (Made : entry -> cel -> request -> response -> Prop) ops, http_run H ops = Some (ap_tree st) /\
    Forall (fun o => match o with HInsert en => exists ce rq0 rs0, Made en ce rq0 rs0 /\ made H uri_query ce rq0 rs0 (en_certification en) /\ Forall token (cel_names ce) /\ no_pseudo (rq_headers rq0) /\ no_pseudo (rs_headers rs0) | _ => True end) ops /\
    forall en ce rq0 rs0 expr path, Made en ce rq0 rs0 -> held ops en -> path_of uri_path rq path ->
      (ordinary_path path -> answers_or_slash ops (en_path en) path) ->
      (collision H [expr] [print_cel ce] \/
       expr = print_cel ce /\
       match ce with
       | CelSkip => False
       | CelResponseOnly rc => same_response H rc rs rs0
       | CelFull qc rc => same_response H rc rs rs0 /\ same_request H uri_query qc rq rq0
       end) -> api_outcome s rq rs expr path.
  Proof.
    intros o0 es st0 s rq rs O0 F E0 Fs st NQ.
    destruct (run_cases H uri_path uri_query parse_create parse_update checked_canister UP UQ o0 st0 O0 E0 es F) as ((l & W) & _ & RS). specialize (RS s Fs). fold st in W, RS.
    assert (Sh := whole_shows H uri_query st l s W RS). destruct W as (R & ops & I & G & RF & _ & D & _).
    pose (Made := fun (en : entry) (ce : cel) (rq0 : request) (rs0 : response) => held ops en ->
      (exists m, R m = Some rs0 /\ entry_tree_path en = entry_tree_path (ent H uri_query m rs0) /\ ce = todo_expression /\ rq0 = todo_request m /\ en_path en = todos_tree_path) \/
      (ce = fallback_expression /\ rs0 = missing /\ en_path en = not_found_tree_path)).
    split; [exact D|]. exists Made, ops. split; [exact (i_run _ _ _ _ _ _ I)|]. split.
    { eapply Forall_impl; [|exact (i_ops _ _ _ _ _ _ I)]. intros [en|en|]; auto. intros [(m & r & IM & AR & ->)| ->].
      - destruct (nget (entry_tree_path (ent H uri_query m r)) (ap_tree st)) as [v|] eqn:GE.
        + destruct (bytes_eqb_spec v []) as [->|NV].
          * apply (held_get H ops (ap_tree st) _ (i_run _ _ _ _ _ _ I)) in GE. destruct (i_held _ _ _ _ _ _ I _ GE) as [(m' & r' & ER & EP)|[_ EP]].
            -- exists todo_expression, (todo_request m'), r'. destruct (i_dom _ _ _ _ _ _ I _ _ ER) as [_ AR']. split; [intros _; left; exists m'; auto|]. split.
               ++ cbn [en_certification ent]. rewrite (ent_cert H uri_query _ _ _ _ EP). apply ent_made; assumption.
               ++ split; [constructor|]. split; [constructor|apply api_no_pseudo; exact AR'].
            -- exfalso. apply (proj1 (nf_apart H uri_query m r)). rewrite EP. apply prefix_refl.
          * exists todo_expression, (todo_request m), r. split; [intro He; exfalso; apply (held_get H ops (ap_tree st) _ (i_run _ _ _ _ _ _ I)) in He; congruence|].
            split; [apply ent_made; assumption|]. split; [constructor|]. split; [constructor|apply api_no_pseudo; exact AR].
        + exists todo_expression, (todo_request m), r. split; [intro He; exfalso; apply (held_get H ops (ap_tree st) _ (i_run _ _ _ _ _ _ I)) in He; congruence|].
          split; [apply ent_made; assumption|]. split; [constructor|]. split; [constructor|apply api_no_pseudo; exact AR].
      - exists fallback_expression, rq, missing. split; [intros _; right; auto|]. split; [apply nf_made|]. split; [constructor|]. split; [exact NQ|exact missing_no_pseudo]. }
    intros en ce rq0 rs0 expr path M He PO AN C. unfold api_outcome. destruct (M He) as [(m & ER & EP & -> & -> & EN)|(-> & -> & EN)].
    - destruct C as [C|(_ & SR & q & q0 & hs & hs0 & fs & fs0 & U1 & U0 & K1 & K0 & Q1 & Q0 & C)]; [auto|]. right; right.
      cbn [todo_request rq_url] in U0. change (mk_request_cert [] []) with todo_request_cert in *. unfold todos_path in U0. rewrite UQ in U0. injection U0 as <-.
      destruct (i_dom _ _ _ _ _ _ I _ _ ER) as [IM _].
      assert (Z : hs = []). { clear -K1. cbn [rc_headers todo_request_cert] in K1. induction K1 as [|n v hs o (x & [] & _)|n v hs o _ _ IH]; auto. } subst hs.
      assert (Z : hs0 = []). { inversion K0. reflexivity. } subst hs0.
      assert (Z : fs0 = None) by (destruct fs0; [destruct Q0|reflexivity]). subst fs0.
      destruct C as [(EM & EB & _ & ->)|C]; [|left; exists m, q; split; [exact IM|]; split; [exact U1|]; assert (Z : fs = option_map (fun _ => []) q) by (destruct q as [q|], fs as [fl|]; try contradiction; [|reflexivity]; destruct Q1 as (fl0 & _ & FF); clear -FF; cbn [option_map]; f_equal; induction FF as [|g fl1 o (n & _ & y & [] & _)|]; auto); subst fs; exact C]. right. intro OP. specialize (AN OP). rewrite EN in AN. cbn [answers_or_slash todos_tree_path] in AN.
      assert (EQ : q = None) by (destruct q; [destruct Q1|reflexivity]). subst q. cbn [todo_request rq_method rq_body] in EM, EB. assert (PR : plain_request uri_query rq) by (split; assumption).
      exists rs0. split; [|exact SR]. destruct IM as [<-|IM].
      + assert (rs0 = listing l) by congruence. subst rs0. apply CorrectList; auto.
      + assert (rs0 = refusal) by (rewrite (RF m IM) in ER; congruence). subst rs0. apply CorrectRefusal; auto. rewrite EM. exact IM.
    - destruct C as [C|(_ & SR)]; [auto|]. right; right; right. intro OP. specialize (AN OP). rewrite EN in AN. destruct AN as (_ & NO & _). exists missing. split; [|exact SR].
      apply CorrectMissing. intro Z. apply NO. eapply exact_not_nf; eassumption.
  Qed.
  (** C88: nothing else verifies: an accepted response is the one the api is to give to the request
      in its current state, or hashes collide. *)
  Lemma c88_holds :
    forall key (Root : htree -> Prop) (Sub : bytes -> htree -> Prop), unforgeable H vs key Root Sub ->
    forall order0 events st0 s rq rs canister_id now offset min_version i,
    (forall l, Permutation (order0 l) l) -> Forall some_order events -> init order0 = Some st0 -> follows events s ->
    let st := run_events events st0 in
    (* the canister's certified data is what it last set *)
    (forall St d, speaks_for umod cap_max ple Root Sub canister_id St -> at_path (certified_data_path canister_id) St (HLeaf d) -> ap_data st = Some d) ->
    no_pseudo (rq_headers rq) -> no_pseudo (rs_headers rs) ->
    verify rq rs canister_id now offset key min_version = OOk i -> i_response i <> None ->
    exists hv hd, last_header (bs "IC-Certificate") (rs_headers rs) hv /\ header_from umod cap_max hv = OOk hd /\
    (certificate_collision umod cap_max H Root Sub (h_cert hd) \/
     collision H (preimages H (HLabeled (bs "http_expr") (nhtree H (ap_tree st)))) (preimages H (h_tree hd)) \/
     i_version i = 2 /\
     exists expr path, last_header (bs "IC-CertificateExpression") (rs_headers rs) expr /\ path_of uri_path rq path /\
     (collision H [expr] [print_cel todo_expression] \/ collision H [expr] [print_cel fallback_expression] \/
      (exists m q, In m (bs "GET" :: refused) /\ uri_query (rq_url rq) = Some q /\ collision H (request_messages H rq [] (option_map (fun _ => []) q)) (request_messages H (mk_request m (bs "/todos") [] []) [] None)) \/
      (ordinary_path path -> exists good, correct uri_query s rq path good /\ same_response H (HeaderExclusions []) rs good))).
  Proof.
    intros key Root Sub UF o0 es st0 s rq rs cid now off mv i O0 F E0 Fs st CD NQ NR V NN.
    destruct (c88_core o0 es st0 s rq rs O0 F E0 Fs NQ) as (D & Made & ops & Rn & Fo & K). fold st in D, Rn.
    destruct (accepted_entry umod cap_max checked H ple vs uri_path uri_query gunzip inflate key Root Sub HL UF Made ops (ap_tree st) rq rs cid now off mv i Rn) as (hv & hd & L & Hd & C); auto.
    { intros St d SP AT. specialize (CD St d SP AT). congruence. }
    exists hv, hd. split; [exact L|]. split; [exact Hd|]. destruct C as [C|[C|(V2 & en & ce & rq0 & rs0 & expr & path & M & He & _ & LE & PO & AN & C)]]; [auto|auto|]. right; right. split; [exact V2|].
    exists expr, path. split; [exact LE|]. split; [exact PO|]. exact (K en ce rq0 rs0 expr path M He PO AN C).
  Qed.
End Theorems.

(** C87: after every history of update calls and upgrades, a query GET /todos without body and query
    string gets a response with the current todo list, and the response verifies. *)
Theorem C87_current_list_is_served_and_accepted :
  forall (umod cap_max : N) (checked : bool) (H : bytes -> bytes) ple vs uri_path uri_query gunzip inflate parse_create parse_update (checked_canister : bool),
  (forall x, length (H x) = 32%nat) ->
  (* the http crate's Uri on the one URL the canister itself uses *)
  uri_path (bs "/todos") = Some (bs "/todos") -> uri_query (bs "/todos") = Some None ->
  forall order0 events, (forall l, Permutation (order0 l) l) -> Forall some_order events ->
  exists st0, init H uri_path uri_query order0 = Some st0 /\ (exists s, follows uri_path parse_create parse_update checked_canister events s) /\
  forall s rq dc canister_id key now offset min_version,
  let st := run_events H uri_path uri_query parse_create parse_update checked_canister events st0 in
  follows uri_path parse_create parse_update checked_canister events s -> 32 < umod <= 2 ^ 64 -> min_version <= 2 ->
  rq_method rq = bs "GET" -> path_of uri_path rq (bs "/todos") -> plain_request uri_query rq ->
  certifies_data umod cap_max checked H ple vs dc canister_id key now offset (ap_data st) ->
  exists l hv i, shows l s /\ http_request H uri_path st dc rq = Some (with_certificate (listing l) hv, None) /\
    verify umod cap_max checked H ple vs uri_path uri_query gunzip inflate rq (with_certificate (listing l) hv) canister_id now offset key min_version = OOk i /\ shown i (listing l).
Proof. exact c87_holds. Qed.
Print Assumptions C87_current_list_is_served_and_accepted.

(** C89: the other responses that verify. *)
Theorem C89_refusals_and_not_found_are_accepted :
  forall (umod cap_max : N) (checked : bool) (H : bytes -> bytes) ple vs uri_path uri_query gunzip inflate parse_create parse_update (checked_canister : bool),
  (forall x, length (H x) = 32%nat) ->
  (* the http crate's Uri on the one URL the canister itself uses *)
  uri_path (bs "/todos") = Some (bs "/todos") -> uri_query (bs "/todos") = Some None ->
  forall order0 events, (forall l, Permutation (order0 l) l) -> Forall some_order events ->
  exists st0, init H uri_path uri_query order0 = Some st0 /\
  forall rq path dc canister_id key now offset min_version,
  let st := run_events H uri_path uri_query parse_create parse_update checked_canister events st0 in
  32 < umod <= 2 ^ 64 -> min_version <= 2 -> queried (rq_method rq) -> path_of uri_path rq path ->
  certifies_data umod cap_max checked H ple vs dc canister_id key now offset (ap_data st) ->
  (path = bs "/todos" -> In (rq_method rq) refused -> plain_request uri_query rq ->
    exists hv, http_request H uri_path st dc rq = Some (with_certificate refusal hv, None) /\
    (methods_collide H \/ exists i, verify umod cap_max checked H ple vs uri_path uri_query gunzip inflate rq (with_certificate refusal hv) canister_id now offset key min_version = OOk i /\ shown i refusal)) /\
  ((exists b r, path = "/"%byte :: b :: r) -> request_parts path <> [bs "todos"] -> ordinary_path path -> (forall r, request_parts path <> bs "http_expr" :: r) ->
    exists hv i, http_request H uri_path st dc rq = Some (with_certificate missing hv, None) /\
    verify umod cap_max checked H ple vs uri_path uri_query gunzip inflate rq (with_certificate missing hv) canister_id now offset key min_version = OOk i /\ shown i missing).
Proof. exact c89_holds. Qed.
Print Assumptions C89_refusals_and_not_found_are_accepted.

(** C88: nothing else verifies: an accepted response is the one the api is to give to the request
    in its current state, or hashes collide. *)
Theorem C88_accepted_responses_are_current :
  forall (umod cap_max : N) (checked : bool) (H : bytes -> bytes) ple vs uri_path uri_query gunzip inflate parse_create parse_update (checked_canister : bool),
  (forall x, length (H x) = 32%nat) ->
  (* the http crate's Uri on the one URL the canister itself uses *)
  uri_path (bs "/todos") = Some (bs "/todos") -> uri_query (bs "/todos") = Some None ->
  forall key (Root : htree -> Prop) (Sub : bytes -> htree -> Prop), unforgeable H vs key Root Sub ->
  forall order0 events st0 s rq rs canister_id now offset min_version i,
  (forall l, Permutation (order0 l) l) -> Forall some_order events -> init H uri_path uri_query order0 = Some st0 -> follows uri_path parse_create parse_update checked_canister events s ->
  let st := run_events H uri_path uri_query parse_create parse_update checked_canister events st0 in
  (* the canister's certified data is what it last set *)
  (forall St d, speaks_for umod cap_max ple Root Sub canister_id St -> at_path (certified_data_path canister_id) St (HLeaf d) -> ap_data st = Some d) ->
  no_pseudo (rq_headers rq) -> no_pseudo (rs_headers rs) ->
  verify umod cap_max checked H ple vs uri_path uri_query gunzip inflate rq rs canister_id now offset key min_version = OOk i -> i_response i <> None ->
  exists hv hd, last_header (bs "IC-Certificate") (rs_headers rs) hv /\ header_from umod cap_max hv = OOk hd /\
  (certificate_collision umod cap_max H Root Sub (h_cert hd) \/
   collision H (preimages H (HLabeled (bs "http_expr") (nhtree H (ap_tree st)))) (preimages H (h_tree hd)) \/
   i_version i = 2 /\
   exists expr path, last_header (bs "IC-CertificateExpression") (rs_headers rs) expr /\ path_of uri_path rq path /\
   (collision H [expr] [print_cel todo_expression] \/ collision H [expr] [print_cel fallback_expression] \/
    (exists m q, In m (bs "GET" :: refused) /\ uri_query (rq_url rq) = Some q /\ collision H (request_messages H rq [] (option_map (fun _ => []) q)) (request_messages H (mk_request m (bs "/todos") [] []) [] None)) \/
    (ordinary_path path -> exists good, correct uri_query s rq path good /\ same_response H (HeaderExclusions []) rs good))).
Proof. exact c88_holds. Qed.
Print Assumptions C88_accepted_responses_are_current.


(** C91: the answer to an update call reports what the call did to the todo list, whatever happened
    before; a call that changes nothing traps or is answered with status 400. *)
Theorem C91_update_answers :
  forall (H : bytes -> bytes) uri_path uri_query parse_create parse_update (checked_canister : bool),
  uri_path (bs "/todos") = Some (bs "/todos") -> uri_query (bs "/todos") = Some None ->
  forall order0 events st0 s o rq,
  (forall l, Permutation (order0 l) l) -> Forall some_order events -> (forall l, Permutation (o l) l) ->
  init H uri_path uri_query order0 = Some st0 -> follows uri_path parse_create parse_update checked_canister events s ->
  let answer := http_request_update H uri_path uri_query parse_create parse_update checked_canister o
                  (run_events H uri_path uri_query parse_create parse_update checked_canister events st0) rq in
  (forall w s', asks uri_path parse_create parse_update rq w -> fulfils checked_canister w s s' -> exists st', answer = Some (st', reply w s)) /\
  (forall st' rs, answer = Some (st', rs) ->
    (exists w s', asks uri_path parse_create parse_update rq w /\ fulfils checked_canister w s s' /\ rs = reply w s) \/
    rs = no_update /\ st' = run_events H uri_path uri_query parse_create parse_update checked_canister events st0).
Proof.
  intros H up uq pc pu ck UP UQ o0 es st0 s o rq O0 F O E0 Fs answer.
  destruct (run_cases H up uq pc pu ck UP UQ o0 st0 O0 E0 es F) as ((l & W) & _ & RS).
  assert (D := update_step H up uq pc pu ck UP UQ o rq _ l s O W (RS s Fs)). destruct D as [(w & s' & l' & (A & E) & Fu & _)|((N & E) & _)]; fold answer in E.
  - destruct answer as [[st' rs]|]; [|discriminate E]. cbn [option_map snd] in E. assert (rs = reply w s) by congruence. subst rs. split.
    + intros w2 s2 A2 _. assert (w2 = w) by (eapply asks_fun; eassumption). subst w2. exists st'. reflexivity.
    + intros st2 rs2 Z. injection Z as <- <-. left. exists w, s'. auto.
  - split; [intros w2 s2 A2 F2; exfalso; exact (N _ _ A2 F2)|]. intros st2 rs2 Z. destruct E as [E|E]; rewrite E in Z; [discriminate Z|]. right. injection Z as <- <-. auto.
Qed.
Print Assumptions C91_update_answers.
