(** C102-C104: the custom-assets example canister: what it serves is accepted, nothing else is, and
    certification can be skipped at /uncertified only. *)
From Coq Require Import List Arith NArith Lia Bool Permutation.
From Verif Require Import Bytes Text Utf8 HashTree HashTreeSpec RbTree Nested NestedSpec NestedProofs Cbor CborSpec HttpTypes HttpHash HttpSpec Cel V2 Wildcard WildcardSpec WildcardProofs Verify VerifySpec Header HeaderSpec HttpTree HttpTreeSpec CertVerify CertSpec Props_Cert Props_Header
  Props_Hash Props_Wildcard Props_Verify Props_HttpTree AssetRouter RangeSpec Props_Range AssetSpec AssetProofs JsonApi Props_Json Props_Trip Props_Skip CustomAssets CustomSpec.
Import ListNotations.
Local Open Scope N_scope.

Lemma contains_text_spec n : forall s, contains_text n s = true <-> exists x y, s = x ++ n ++ y.
Proof.
  induction s as [|c s IH]; cbn [contains_text]; rewrite orb_true_iff, bprefix_spec.
  - split; [intros [(z & E)|E]; [exists [], z; exact E|discriminate E]|]. intros ([|a x] & y & E); [left; exists y; exact E|discriminate E].
  - rewrite IH. split.
    + intros [(z & E)|(x & y & E)]; [exists [], z; exact E|exists (c :: x), y; cbn [app]; congruence].
    + intros ([|a x] & y & E); [left; exists y; exact E|right]. injection E as -> E. exists x, y. exact E.
Qed.
Lemma accept_encoding_spec rq : match accept_encoding (rq_headers rq) with
  | Some v => forall e, accepts rq e <-> contains_text e v = true
  | None => forall e, ~ accepts rq e end.
Proof.
  assert (G : forall hs a0, no_header (bs "Accept-Encoding") a0 -> rq_headers rq = a0 ++ hs ->
    match accept_encoding hs with Some v => exists a n b, rq_headers rq = a ++ (n, v) :: b /\ same_name n (bs "Accept-Encoding") /\ no_header (bs "Accept-Encoding") a
    | None => no_header (bs "Accept-Encoding") (rq_headers rq) end).
  { induction hs as [|[n v] hs IH]; intros a0 NA E; cbn [accept_encoding].
    - rewrite app_nil_r in E. rewrite E. exact NA.
    - change (bytes_eqb (lower n) (bs "accept-encoding")) with (eq_nocase n (bs "Accept-Encoding")).
      destruct (eq_nocase n (bs "Accept-Encoding")) eqn:Q.
      + apply eq_nocase_spec in Q. exists a0, n, hs. auto.
      + apply eq_nocase_false in Q. apply (IH (a0 ++ [(n, v)])).
        * unfold no_header in *. apply Forall_app. split; [exact NA|constructor; [exact Q|constructor]].
        * rewrite <- app_assoc. exact E. }
  specialize (G (rq_headers rq) [] ltac:(constructor) eq_refl). destruct (accept_encoding (rq_headers rq)) as [v|].
  - destruct G as (a & n & b & E & S & NA). intro e. rewrite contains_text_spec. split.
    + intros (a' & n' & v' & b' & x & y & E' & S' & NA' & Ev).
      assert (EQ : v' = v); [clear Ev|exists x, y; congruence].
      rewrite E in E'. clear -E' S S' NA NA'. revert a' E' NA'. induction a as [|h a IH]; intros [|h' a'] E' NA'; cbn [app] in E'.
      * congruence.
      * exfalso. injection E' as <- _. inversion NA' as [|? ? Z _]; subst. apply Z. exact S.
      * exfalso. injection E' as -> _. inversion NA as [|? ? Z _]; subst. apply Z. exact S'.
      * injection E' as -> E'. apply (IH ltac:(inversion NA; assumption) a' E'). inversion NA'; assumption.
    + intros (x & y & Ev). exists a, n, v, b, x, y. auto.
  - intros e (a & n & v & b & x & y & E & S & _). rewrite E in G. unfold no_header in G. apply Forall_app in G. destruct G as [_ G]. inversion G as [|? ? Z _]; subst. apply Z. exact S.
Qed.
Lemma get_file_in d p c : get_file d p = Some c -> has_file d p c.
Proof.
  unfold has_file. induction d as [|[q x|q] d IH]; cbn [get_file]; [discriminate| |intro E; right; auto].
  destruct (bytes_eqb_spec q p) as [->|N]; [intro E; injection E as <-; left; reflexivity|intro E; right; auto].
Qed.
Lemma get_file_none d p : get_file d p = None -> forall c, ~ has_file d p c.
Proof.
  unfold has_file. induction d as [|[q x|q] d IH]; cbn [get_file]; intros E c I.
  - destruct I.
  - destruct (bytes_eqb_spec q p) as [->|N]; [discriminate E|]. destruct I as [I|I]; [injection I; congruence|exact (IH E c I)].
  - destruct I as [I|I]; [discriminate I|exact (IH E c I)].
Qed.

(** entries that are only ever inserted, and only unrelated or equal ones, are all held *)
Lemma all_held ops : (forall o, In o ops -> exists en, o = HInsert en) ->
  (forall a b, In (HInsert a) ops -> In (HInsert b) ops -> is_prefix (entry_tree_path a) (entry_tree_path b) -> entry_tree_path a = entry_tree_path b) ->
  forall a, In (HInsert a) ops -> held ops a.
Proof.
  induction ops as [|o ops IH] using rev_ind; intros AI AP a I; [destruct I|].
  destruct (AI o) as (en & ->); [apply in_or_app; right; left; reflexivity|].
  apply held_insert. destruct (list_eq_dec bytes_eq_dec (entry_tree_path a) (entry_tree_path en)) as [E|E]; [left; exact E|right].
  apply in_app_or in I. destruct I as [I|[I|[]]]; [|injection I as ->; congruence].
  split; [|split].
  - apply IH; [intros o' I'; apply AI, in_or_app; left; exact I'| |exact I].
    intros x y Ix Iy. apply AP; apply in_or_app; left; assumption.
  - intro P. apply E. symmetry. apply AP; [apply in_or_app; right; left; reflexivity|apply in_or_app; left; exact I|exact P].
  - intro P. apply E. apply AP; [apply in_or_app; left; exact I|apply in_or_app; right; left; reflexivity|exact P].
Qed.

Section Custom.
  Variables (H : bytes -> bytes) (up : bytes -> option bytes) (uq : bytes -> option (option bytes)) (glob : bytes -> bytes -> bool) (d : list item).
  Definition asset_ce : cel := CelResponseOnly (HeaderExclusions []).
  Definition crt (rs : response) : certification := CResponseOnly (H (print_cel asset_ce)) (response_hash H rs asset_cert None).
  Definition tp_of (k : bytes) : cert_path := if bytes_eqb k [] then index_tree_path else PExact k.
  Definition aent (k : bytes) (rs : response) : entry := mk_entry (tp_of k) (crt rs).
  Definition skip_ent : entry := mk_entry (PExact uncertified_path) (certify_skip H).
  (** the file behind a key of the response maps, and the headers it is served with *)
  Definition names (k p : bytes) (hs : list (bytes * bytes)) : Prop :=
    (k = [] /\ p = bs "index.html" /\ hs = index_with) \/ (k = req_path_of p /\ exists ct, published glob d p ct /\ hs = immutable_of ct).
  Definition src (k : bytes) (enc : option bytes) (rs : response) : Prop := exists p hs, names k p hs /\ an_encoding enc /\ shows_variant d p hs enc rs.
  Record cinv (ops : list http_op) (st : custom) : Prop := {
    c_run : http_run H ops = Some (cu_tree st);
    c_ops : forall o, In o ops -> o = HInsert skip_ent \/ exists k enc rs, src k enc rs /\ o = HInsert (aent k rs);
    c_skip : In (HInsert skip_ent) ops;
    c_resp : forall k r, m_get bytes_eqb k (cu_responses st) = Some r -> exists rs, r = mk_cresp rs (crt rs) /\ src k None rs /\ In (HInsert (aent k rs)) ops;
    c_enc : forall k e r, m_get pair_eqb (k, e) (cu_encoded st) = Some r -> exists rs, r = mk_cresp rs (crt rs) /\ src k (Some e) rs /\ In (HInsert (aent k rs)) ops }.
  Definition grows (st st' : custom) : Prop :=
    (forall k, m_get bytes_eqb k (cu_responses st) <> None -> m_get bytes_eqb k (cu_responses st') <> None) /\
    (forall k, m_get pair_eqb k (cu_encoded st) <> None -> m_get pair_eqb k (cu_encoded st') <> None).
  Lemma grows_refl st : grows st st. Proof. split; auto. Qed.
  Lemma grows_trans a b c : grows a b -> grows b c -> grows a c. Proof. intros [A B] [C D]. split; auto. Qed.
  Definition has_encoded (k p e : bytes) (st : custom) : Prop := (exists c, has_file d (p ++ bs "." ++ e) c) -> m_get pair_eqb (k, e) (cu_encoded st) <> None.
  Definition complete (k p : bytes) (st : custom) : Prop :=
    m_get bytes_eqb k (cu_responses st) <> None /\ has_encoded k p (bs "gzip") st /\ has_encoded k p (bs "br") st.
  Lemma complete_grows k p a b : grows a b -> complete k p a -> complete k p b.
  Proof. intros [A B] (X & Y & Z). split; [auto|]. split; intro W; apply B; auto. Qed.

  Lemma same_enc : bytes_eqb (bs "content-encoding") cert_expr_header_name = false. Proof. reflexivity. Qed.
  Lemma page_single hs body : Forall (fun h => ~ same_name (fst h) (bs "IC-CertificateExpression")) hs -> single_expression (page hs body) (print_cel asset_ce).
  Proof.
    intro F. exists (firstn 9 (custom_headers hs (N.of_nat (length body)) (print_cel asset_ce))), (bs "IC-CertificateExpression"), hs. split; [reflexivity|].
    split; [apply eq_nocase_spec; reflexivity|]. split; [|exact F]. cbn [firstn custom_headers app].
      repeat (apply Forall_cons; [intro Z; apply eq_nocase_spec in Z; vm_compute in Z; discriminate Z|]). constructor.
  Qed.
  Lemma src_headers k enc rs : src k enc rs -> exists hs body, rs = page hs body /\ Forall (fun h : bytes * bytes => ~ same_name (fst h) (bs "IC-CertificateExpression") /\ match fst h with b :: _ => b <> ":"%byte | [] => True end) hs.
  Proof.
    intros (p & hs & N & _ & V).
    assert (F : Forall (fun h : bytes * bytes => ~ same_name (fst h) (bs "IC-CertificateExpression") /\ match fst h with b :: _ => b <> ":"%byte | [] => True end) hs).
    { assert (Q : forall ct cc, Forall (fun h : bytes * bytes => ~ same_name (fst h) (bs "IC-CertificateExpression") /\ match fst h with b :: _ => b <> ":"%byte | [] => True end) [(bs "content-type", ct); (bs "cache-control", cc)]).
      { intros ct cc. repeat (apply Forall_cons; [split; [intro Z; apply eq_nocase_spec in Z; vm_compute in Z; discriminate Z|intro Z; discriminate Z]|]). constructor. }
      destruct N as [(_ & _ & ->)|(_ & ct & _ & ->)]; apply Q. }
    destruct enc as [e|]; destruct V as (c & _ & ->); eexists _, c; (split; [reflexivity|]); [|exact F].
    apply Forall_cons; [|exact F]. split; [intro Z; apply eq_nocase_spec in Z; vm_compute in Z; discriminate Z|intro Z; discriminate Z].
  Qed.
  Lemma src_single k enc rs : src k enc rs -> single_expression rs (print_cel asset_ce).
  Proof. intro S. destruct (src_headers _ _ _ S) as (hs & body & -> & F). apply page_single. eapply Forall_impl; [|exact F]. intros h [A _]. exact A. Qed.
  Lemma src_certify k enc rs : src k enc rs -> certify_response_only H asset_cert rs None = Some (crt rs).
  Proof.
    intro S. apply (C54_requires_exact_cel_header H uq (mk_request_cert [] []) asset_cert (mk_request [] [] [] []) rs None (crt rs)). split; [exact (src_single _ _ _ S)|reflexivity].
  Qed.
  Lemma src_made k enc rs rq : src k enc rs -> made H uq asset_ce rq rs (crt rs).
  Proof. intro S. apply (MadeResponseOnly H uq asset_cert rq rs None (crt rs)); [left; reflexivity|exact (src_certify _ _ _ S)]. Qed.

  Lemma insert_run ops en t : http_run H ops = Some t -> exists t', ninsert H (entry_tree_path en) [] t = Some t' /\ http_run H (ops ++ [HInsert en]) = Some t'.
  Proof. intro R. destruct (step_ok H ops (HInsert en) t R) as (t' & E & E'). exists t'. auto. Qed.

  Lemma response_step ops st k p hs body : cinv ops st -> names k p hs -> has_file d p body ->
    exists st' ops', certify_asset_response H body hs (tp_of k) k st = Some st' /\ cinv ops' st' /\ incl ops ops' /\ grows st st' /\ m_get bytes_eqb k (cu_responses st') <> None.
  Proof.
    intros I N HF. assert (S : src k None (page hs body)) by (exists p, hs; split; [exact N|]; split; [left; reflexivity|exists body; auto]).
    unfold certify_asset_response. fold asset_ce. change (create_asset_response hs body asset_cel) with (page hs body). rewrite (src_certify _ _ _ S).
    destruct (insert_run ops (aent k (page hs body)) _ (c_run _ _ I)) as (t & E & R). unfold aent in E. rewrite E.
    eexists. exists (ops ++ [HInsert (aent k (page hs body))]). split; [reflexivity|]. split; [split; cbn [cu_tree cu_responses cu_encoded]|split; [|split]].
    - exact R.
    - intros o Io. apply in_app_or in Io. destruct Io as [Io|[<-|[]]]; [exact (c_ops _ _ I o Io)|]. right. exists k, None, (page hs body). auto.
    - apply in_or_app. left. exact (c_skip _ _ I).
    - intros k' r. rewrite m_get_insert by exact bytes_eqb_eq. destruct (bytes_eqb_spec k' k) as [->|NK].
      + intro X. injection X as <-. exists (page hs body). split; [reflexivity|]. split; [exact S|]. apply in_or_app. right. left. reflexivity.
      + intro X. destruct (c_resp _ _ I _ _ X) as (rs & A & B & C). exists rs. split; [exact A|]. split; [exact B|]. apply in_or_app. left. exact C.
    - intros k' e r X. destruct (c_enc _ _ I _ _ _ X) as (rs & A & B & C). exists rs. split; [exact A|]. split; [exact B|]. apply in_or_app. left. exact C.
    - intros o Io. apply in_or_app. left. exact Io.
    - split; cbn [cu_responses cu_encoded]; [|auto]. intros k' X. rewrite m_get_insert by exact bytes_eqb_eq. destruct (bytes_eqb k' k); [discriminate|exact X].
    - cbn [cu_responses]. rewrite m_get_insert by exact bytes_eqb_eq. rewrite bytes_eqb_refl. discriminate.
  Qed.
  Lemma encoding_step ops st k p hs e : cinv ops st -> names k p hs -> an_encoding (Some e) ->
    exists st' ops', certify_asset_with_encoding H d p (tp_of k) k e hs st = Some st' /\ cinv ops' st' /\ incl ops ops' /\ grows st st' /\ has_encoded k p e st'.
  Proof.
    intros I N AE. unfold certify_asset_with_encoding. destruct (get_file d (p ++ bs "." ++ e)) as [body|] eqn:G.
    2: { exists st, ops. split; [reflexivity|]. split; [exact I|]. split; [apply incl_refl|]. split; [apply grows_refl|]. intros (c & X). exfalso. exact (get_file_none _ _ G c X). }
    set (hs' := (bs "content-encoding", e) :: hs).
    assert (S : src k (Some e) (page hs' body)) by (exists p, hs; split; [exact N|]; split; [exact AE|]; exists body; split; [apply get_file_in; exact G|reflexivity]).
    change (create_asset_response hs' body asset_cel) with (page hs' body). rewrite (src_certify _ _ _ S).
    destruct (insert_run ops (aent k (page hs' body)) _ (c_run _ _ I)) as (t & E & R). unfold aent in E. rewrite E.
    eexists. exists (ops ++ [HInsert (aent k (page hs' body))]). split; [reflexivity|]. split; [split; cbn [cu_tree cu_responses cu_encoded]|split; [|split]].
    - exact R.
    - intros o Io. apply in_app_or in Io. destruct Io as [Io|[<-|[]]]; [exact (c_ops _ _ I o Io)|]. right. exists k, (Some e), (page hs' body). auto.
    - apply in_or_app. left. exact (c_skip _ _ I).
    - intros k' r X. destruct (c_resp _ _ I _ _ X) as (rs & A & B & C). exists rs. split; [exact A|]. split; [exact B|]. apply in_or_app. left. exact C.
    - intros k' e' r. rewrite m_get_insert by exact pair_eqb_eq. destruct (pair_eqb (k', e') (k, e)) eqn:PE.
      + apply pair_eqb_eq in PE. injection PE as -> ->. intro X. injection X as <-. exists (page hs' body). split; [reflexivity|]. split; [exact S|]. apply in_or_app. right. left. reflexivity.
      + intro X. destruct (c_enc _ _ I _ _ _ X) as (rs & A & B & C). exists rs. split; [exact A|]. split; [exact B|]. apply in_or_app. left. exact C.
    - intros o Io. apply in_or_app. left. exact Io.
    - split; cbn [cu_responses cu_encoded]; [auto|]. intros k' X. rewrite m_get_insert by exact pair_eqb_eq. destruct (pair_eqb k' (k, e)); [discriminate|exact X].
    - intros _. cbn [cu_encoded]. rewrite m_get_insert by exact pair_eqb_eq. rewrite (proj2 (pair_eqb_eq _ _) eq_refl). discriminate.
  Qed.
  Lemma asset_step ops st k p hs body : cinv ops st -> names k p hs -> has_file d p body ->
    exists st' ops', certify_asset H d body p (tp_of k) k hs st = Some st' /\ cinv ops' st' /\ grows st st' /\ complete k p st'.
  Proof.
    intros I N HF. unfold certify_asset. destruct (response_step ops st k p hs body I N HF) as (s1 & o1 & E1 & I1 & _ & G1 & M1). rewrite E1.
    destruct (encoding_step o1 s1 k p hs (bs "gzip") I1 N) as (s2 & o2 & E2 & I2 & _ & G2 & M2); [right; left; reflexivity|]. rewrite E2.
    destruct (encoding_step o2 s2 k p hs (bs "br") I2 N) as (s3 & o3 & E3 & I3 & _ & G3 & M3); [right; right; reflexivity|]. rewrite E3.
    exists s3, o3. split; [reflexivity|]. split; [exact I3|]. split; [eapply grows_trans; [exact G1|]; eapply grows_trans; eassumption|].
    split; [apply G3, G2, M1|]. split; [intro X; apply G3, M2, X|exact M3].
  Qed.
  Lemma req_path_nonempty p : req_path_of p <> [].
  Proof. unfold req_path_of. destruct (bprefix (bs "/") p) eqn:B; [intros ->; discriminate B|intro Z; discriminate Z]. Qed.
  Lemma tp_exact k : k <> [] -> tp_of k = PExact k.
  Proof. intro N. unfold tp_of. rewrite (proj2 (bytes_eqb_neq _ _) N). reflexivity. Qed.
  Lemma each_step ct k0 (K : In (k0, ct) kinds) : forall l ops st, cinv ops st -> (forall x, In x l -> In x d /\ glob k0 (item_path x) = true) ->
    (forall q, ~ In (AFolder q) l) ->
    exists st' ops', certify_each H d l ct st = Some st' /\ cinv ops' st' /\ grows st st' /\ forall p c, In (AFile p c) l -> complete (req_path_of p) p st'.
  Proof.
    induction l as [|[p c|p] l IH]; intros ops st I A NF; cbn [certify_each].
    - exists st, ops. split; [reflexivity|]. split; [exact I|]. split; [apply grows_refl|]. intros p c [].
    - destruct (A _ (or_introl eq_refl)) as [ID GB]. cbn [item_path] in GB.
      assert (N : names (req_path_of p) p (file_headers ct)).
      { right. split; [reflexivity|]. exists ct. split; [|reflexivity]. split; [exists k0; auto|exists c; exact ID]. }
      rewrite <- (tp_exact _ (req_path_nonempty p)).
      destruct (asset_step ops st _ p _ c I N ID) as (s1 & o1 & E1 & I1 & G1 & C1). rewrite E1.
      destruct (IH o1 s1 I1) as (s2 & o2 & E2 & I2 & G2 & C2); [intros x Ix; apply A; right; exact Ix|intros q Iq; apply (NF q); right; exact Iq|].
      exists s2, o2. split; [exact E2|]. split; [exact I2|]. split; [eapply grows_trans; eassumption|]. intros p' c' [E|J]; [|exact (C2 p' c' J)].
      injection E as <- <-. eapply complete_grows; eassumption.
    - exfalso. apply (NF p). left. reflexivity.
  Qed.
  Lemma each_folder ct q : forall l st, In (AFolder q) l -> certify_each H d l ct st = None.
  Proof.
    induction l as [|[p c|p] l IH]; intros st I; cbn [certify_each]; [destruct I| |reflexivity]. destruct I as [I|I]; [discriminate I|].
    destruct (certify_asset H d c p (PExact (req_path_of p)) (req_path_of p) (file_headers ct) st); [apply IH; exact I|reflexivity].
  Qed.
  Lemma globs_step : forall l ops st, incl l kinds -> cinv ops st ->
    (forall k ct q, In (k, ct) l -> In (AFolder q) d -> glob k q = false) ->
    exists st' ops', certify_globs H glob d l st = Some st' /\ cinv ops' st' /\ grows st st' /\
      forall k ct p c, In (k, ct) l -> glob k p = true -> has_file d p c -> complete (req_path_of p) p st'.
  Proof.
    induction l as [|[k ct] l IH]; intros ops st SL I NF; cbn [certify_globs].
    - exists st, ops. split; [reflexivity|]. split; [exact I|]. split; [apply grows_refl|]. intros k ct p c [].
    - unfold certify_asset_glob. destruct (each_step ct k (SL _ (or_introl eq_refl)) (filter (fun x => glob k (item_path x)) d) ops st I) as (s1 & o1 & E1 & I1 & G1 & C1).
      { intros x Ix. apply filter_In in Ix. exact Ix. }
      { intros q Iq. apply filter_In in Iq. destruct Iq as [Iq Gq]. cbn [item_path] in Gq. rewrite (NF k ct q (or_introl eq_refl) Iq) in Gq. discriminate Gq. }
      rewrite E1. destruct (IH o1 s1) as (s2 & o2 & E2 & I2 & G2 & C2); [intros x Ix; apply SL; right; exact Ix|exact I1|intros k' ct' q Ik; apply (NF k' ct' q); right; exact Ik|].
      exists s2, o2. split; [exact E2|]. split; [exact I2|]. split; [eapply grows_trans; eassumption|].
      intros k' ct' p c [E|J] G HF; [|exact (C2 k' ct' p c J G HF)]. injection E as <- <-.
      eapply complete_grows; [exact G2|]. apply (C1 p c). apply filter_In. split; [exact HF|exact G].
  Qed.
  Lemma globs_folder q k ct : forall l st, In (k, ct) l -> In (AFolder q) d -> glob k q = true -> certify_globs H glob d l st = None.
  Proof.
    induction l as [|[k' ct'] l IH]; intros st I ID G; cbn [certify_globs]; [destruct I|]. destruct I as [I|I].
    - injection I as -> ->. unfold certify_asset_glob. rewrite (each_folder ct q); [reflexivity|]. apply filter_In. auto.
    - destruct (certify_asset_glob H glob d k' ct' st); [apply IH; assumption|reflexivity].
  Qed.
  (** the state after [init] *)
  Record ready (st : custom) : Prop := {
    r_inv : exists ops, cinv ops st;
    r_data : cu_data st = Some (http_root_hash H (cu_tree st));
    r_index : complete [] (bs "index.html") st;
    r_files : forall p ct, published glob d p ct -> complete (req_path_of p) p st }.
  Lemma init_ready st : custom_init H glob d = Some st -> ready st.
  Proof.
    unfold custom_init, add_certification_skips. destruct (insert_run [] skip_ent _ eq_refl) as (t & E & R). change ndefault with (cu_tree custom_default) in E. unfold skip_ent in E. rewrite E.
    set (s0 := mk_custom t (cu_encoded custom_default) (cu_responses custom_default) (cu_data custom_default)).
    assert (I0 : cinv ([] ++ [HInsert skip_ent]) s0).
    { split; [exact R| | | |]; cbn [app].
      - intros o [<-|[]]. left. reflexivity.
      - left. reflexivity.
      - intros k r X. discriminate X.
      - intros k e r X. discriminate X. }
    unfold certify_index_asset. destruct (get_file d index_file_path) as [body|] eqn:G; [|intro Z; discriminate Z].
    destruct (asset_step _ s0 [] index_file_path index_headers body I0) as (s1 & o1 & E1 & I1 & G1 & C1); [left; auto|apply get_file_in; exact G|].
    change (tp_of []) with index_tree_path in E1. change (@nil byte) with index_req_path in E1. rewrite E1.
    assert (NF : certify_globs H glob d patterns s1 <> None -> forall k ct q, In (k, ct) patterns -> In (AFolder q) d -> glob k q = false).
    { intros N k ct q I ID. destruct (glob k q) eqn:GQ; [|reflexivity]. exfalso. apply N. eapply globs_folder; eassumption. }
    destruct (certify_globs H glob d patterns s1) as [s2|] eqn:E2; [|intro Z; discriminate Z].
    destruct (globs_step patterns o1 s1) as (s2' & o2 & E2' & I2 & G2 & C2); [apply incl_refl|exact I1|apply NF; intro Z; discriminate Z|].
    assert (s2' = s2) by congruence. subst s2'. intro Z. injection Z as <-. split; cbn [cu_data cu_tree]; [exists o2; destruct I2; split; assumption|reflexivity| |].
    - apply (complete_grows _ _ _ _ G2) in C1. exact C1.
    - intros p ct ((k & Ik & Gk) & c & HF). exact (C2 k ct p c Ik Gk HF).
  Qed.
  Lemma init_starts : (exists c, has_file d (bs "index.html") c) -> (forall k ct q, In (k, ct) kinds -> In (AFolder q) d -> glob k q = false) -> exists st, custom_init H glob d = Some st.
  Proof.
    intros (c & HF) NF. unfold custom_init, add_certification_skips. destruct (insert_run [] skip_ent _ eq_refl) as (t & E & R). change ndefault with (cu_tree custom_default) in E. unfold skip_ent in E. rewrite E.
    set (s0 := mk_custom t (cu_encoded custom_default) (cu_responses custom_default) (cu_data custom_default)).
    assert (I0 : cinv ([] ++ [HInsert skip_ent]) s0).
    { split; [exact R| | | |]; cbn [app].
      - intros o [<-|[]]. left. reflexivity.
      - left. reflexivity.
      - intros k r X. discriminate X.
      - intros k e r X. discriminate X. }
    unfold certify_index_asset. destruct (get_file d index_file_path) as [body|] eqn:G; [|exfalso; exact (get_file_none _ _ G c HF)].
    destruct (asset_step _ s0 [] index_file_path index_headers body I0) as (s1 & o1 & E1 & I1 & G1 & C1); [left; auto|apply get_file_in; exact G|].
    change (tp_of []) with index_tree_path in E1. change (@nil byte) with index_req_path in E1. rewrite E1.
    destruct (globs_step patterns o1 s1) as (s2 & o2 & E2 & _); [apply incl_refl|exact I1|exact NF|]. rewrite E2. eexists. reflexivity.
  Qed.
  Lemma init_needs st : custom_init H glob d = Some st -> (exists c, has_file d (bs "index.html") c) /\ forall k ct q, In (k, ct) kinds -> In (AFolder q) d -> glob k q = false.
  Proof.
    intro E. split.
    - unfold custom_init, certify_index_asset in E. destruct (add_certification_skips H custom_default) as [s0|]; [|discriminate E].
      destruct (get_file d index_file_path) as [body|] eqn:G; [|discriminate E]. exists body. apply get_file_in. exact G.
    - intros k ct q I ID. destruct (glob k q) eqn:GQ; [|reflexivity]. exfalso. unfold custom_init in E.
      destruct (add_certification_skips H custom_default) as [s0|]; [|discriminate E]. destruct (certify_index_asset H d s0) as [s1|]; [|discriminate E].
      rewrite (globs_folder q k ct patterns s1 I ID GQ) in E. discriminate E.
  Qed.
End Custom.

Section Theorems.
  Variables (umod cap_max : N) (checked : bool) (H : bytes -> bytes) (ple : bytes -> bytes -> bool) (vs : bytes -> bytes -> bytes -> bool)
            (uri_path : bytes -> option bytes) (uri_query : bytes -> option (option bytes)) (gunzip inflate : bytes -> option bytes)
            (glob : bytes -> bytes -> bool) (d : list item).
  Hypothesis HL : forall x, length (H x) = 32%nat.
  Hypothesis TF : tidy_files glob d umod.
  Hypothesis UM : 32 < umod <= 2 ^ 64.
  Notation src := (src glob d).
  Notation names := (names glob d).
  Notation verify := (verify umod cap_max checked H ple vs uri_path uri_query gunzip inflate).

  Lemma names_url k p hs : names k p hs -> (k = [] /\ p = bs "index.html" /\ hs = index_with) \/ (k = url_of p /\ exists ct, published glob d p ct /\ hs = immutable_of ct).
  Proof.
    intros [X|(E & ct & P & Eh)]; [left; exact X|right]. split; [|exists ct; auto]. destruct (TF _ _ P) as [R _]. rewrite E. unfold req_path_of. rewrite R. reflexivity.
  Qed.
  Lemma req_path_url p ct : published glob d p ct -> req_path_of p = url_of p.
  Proof. intro P. destruct (TF _ _ P) as [R _]. unfold req_path_of. rewrite R. reflexivity. Qed.
  Lemma url_nonempty p : url_of p <> []. Proof. intro Z; discriminate Z. Qed.
  Lemma names_path k p hs : names k p hs -> clean_url (path_text (tp_of k)) /\ utf8_valid (path_text (tp_of k)) = true /\ N.of_nat (length (path_text (tp_of k))) + 4 < umod /\
    (k = [] /\ tp_of k = index_tree_path \/ k <> [] /\ tp_of k = PExact k /\ request_parts k <> [bs "uncertified"] /\ exists ct, published glob d p ct /\ k = url_of p).
  Proof.
    intro N. apply names_url in N. destruct N as [(-> & _)|(-> & ct & P & _)].
    - split; [split; intros []|]. split; [reflexivity|]. split; [cbn; lia|]. left. split; reflexivity.
    - destruct (TF _ _ P) as (_ & C & NU & U8 & L). rewrite (tp_exact _ (url_nonempty p)). cbn [path_text]. split; [exact C|]. split; [exact U8|]. split; [exact L|]. right.
      split; [apply url_nonempty|]. split; [reflexivity|]. split; [exact NU|]. exists ct. auto.
  Qed.
  Lemma cert_segments : (forall rs s, In s (cert_tree_path (crt H rs)) -> ~ terminator s) /\ (forall s, In s (cert_tree_path (certify_skip H)) -> ~ terminator s).
  Proof.
    split; intros; intro T; assert (Q : length s = 0%nat \/ length s = 32%nat).
    - cbn [cert_tree_path crt In] in H0. destruct H0 as [<-|[<-|[<-|[]]]]; [right; apply HL|left; reflexivity|right; unfold response_hash; apply HL].
    - destruct T as [->| ->]; destruct Q as [Q|Q]; discriminate Q.
    - cbn [cert_tree_path certify_skip In] in H0. destruct H0 as [<-|[]]. right. apply HL.
    - destruct T as [->| ->]; destruct Q as [Q|Q]; discriminate Q.
  Qed.
  (** where the canister's entries are *)
  Lemma entry_at ops st en q t r : cinv H glob d ops st -> In (HInsert en) ops -> terminator t -> entry_tree_path en = q ++ t :: r ->
    (en = skip_ent H /\ q = [bs "uncertified"] /\ t = bs "<$>") \/
    (exists k enc rs, src k enc rs /\ en = aent H k rs /\ (k = [] /\ q = [] /\ t = bs "<*>" \/ k <> [] /\ q = request_parts k /\ t = bs "<$>")) .
  Proof.
    intros I Ie T E. destruct (c_ops _ _ _ _ _ I _ Ie) as [X|(k & enc & rs & S & X)]; injection X as ->.
    - left. split; [reflexivity|]. change (entry_tree_path (skip_ent H)) with ([bs "uncertified"] ++ bs "<$>" :: cert_tree_path (certify_skip H)) in E.
      apply (only_at terminator) in E; [|intros s [<-|[]] [Z|Z]; discriminate Z|exact (proj2 cert_segments)|exact T]. destruct E as (<- & <- & _). auto.
    - right. exists k, enc, rs. split; [exact S|]. split; [reflexivity|]. destruct S as (p & hs & N & _). destruct (names_path _ _ _ N) as (C & _ & _ & K).
      destruct (path_segments (tp_of k)) as (t' & PE & T' & TD). unfold aent, entry_tree_path in E. cbn [en_path en_certification] in E. rewrite PE, <- app_assoc in E. cbn [app] in E.
      apply (only_at terminator) in E; [|intros s Is [->| ->]; [apply (proj1 C), Is|apply (proj2 C), Is]|apply (proj1 cert_segments)|exact T]. destruct E as (<- & <- & _).
      destruct K as [(-> & Et)|(NE & Et & _)]; rewrite Et in TD |- *; cbn [path_text index_tree_path] in *; auto.
  Qed.
  Lemma entry_form ops st en : cinv H glob d ops st -> In (HInsert en) ops -> exists q t r, terminator t /\ entry_tree_path en = q ++ t :: r /\ r = cert_tree_path (en_certification en).
  Proof.
    intros I Ie. destruct (path_segments (en_path en)) as (t & PE & T & _). exists (request_parts (path_text (en_path en))), t, (cert_tree_path (en_certification en)).
    split; [exact T|]. split; [|reflexivity]. unfold entry_tree_path. rewrite PE, <- app_assoc. reflexivity.
  Qed.
  Lemma inserts_held ops st : cinv H glob d ops st -> forall a, In (HInsert a) ops -> held ops a.
  Proof.
    intro I. apply all_held.
    - intros o Io. destruct (c_ops _ _ _ _ _ I o Io) as [->|(k & enc & rs & _ & ->)]; eexists; reflexivity.
    - intros a b Ia Ib (z & E). destruct (entry_form _ _ _ I Ia) as (q & t & r & T & Ea & Er).
      assert (Eb : entry_tree_path b = q ++ t :: r ++ z) by (rewrite E, Ea, <- app_assoc; reflexivity).
      assert (FA := entry_at _ _ _ _ _ _ I Ia T Ea). assert (FB := entry_at _ _ _ _ _ _ I Ib T Eb).
      destruct FA as [(-> & Q1 & T1)|(k & enc & rs & S & -> & K)], FB as [(-> & Q2 & T2)|(k' & enc' & rs' & S' & -> & K')].
      + reflexivity.
      + exfalso. destruct S' as (p & hs & N & _). destruct (names_path _ _ _ N) as (_ & _ & _ & [(-> & _)|(NE & _ & NU & _)]); destruct K' as [(Z & Z1 & Z2)|(Z & Z1 & Z2)]; try congruence.
      + exfalso. destruct S as (p & hs & N & _). destruct (names_path _ _ _ N) as (_ & _ & _ & [(-> & _)|(NE & _ & NU & _)]); destruct K as [(Z & Z1 & Z2)|(Z & Z1 & Z2)]; try congruence.
      + rewrite Ea, Eb. assert (LZ : z = []); [|rewrite LZ, app_nil_r; reflexivity].
        assert (L : length (entry_tree_path (aent H k' rs')) = (length q + 4)%nat).
        { unfold entry_tree_path, aent. cbn [en_path en_certification]. destruct (path_segments (tp_of k')) as (t' & PE & _). rewrite PE, !app_length. cbn [length cert_tree_path crt].
          destruct K' as [(-> & -> & _)|(NE & -> & _)]; [reflexivity|]. rewrite (tp_exact _ NE). cbn [path_text]. lia. }
        assert (LR : length r = 3%nat) by (rewrite Er; reflexivity). rewrite Eb, app_length in L. cbn [length] in L. rewrite app_length, LR in L. destruct z; [reflexivity|cbn [length] in L; lia].
  Qed.
  Lemma custom_short ops st : cinv H glob d ops st -> Forall (fun o => match o with HInsert e => Forall (short umod) (entry_tree_path e) | _ => True end) ops.
  Proof.
    intro I. apply Forall_forall. intros o Io. destruct (c_ops _ _ _ _ _ I o Io) as [->|(k & enc & rs & S & ->)].
    - change (entry_tree_path (skip_ent H)) with [bs "uncertified"; bs "<$>"; H (print_cel CelSkip)]. repeat (apply Forall_cons; [unfold short; rewrite ?HL; cbn; lia|]). constructor.
    - destruct S as (p & hs & N & _). destruct (names_path _ _ _ N) as (_ & U8 & L & _). unfold entry_tree_path, aent. cbn [en_path en_certification]. destruct (path_segments (tp_of k)) as (t & PE & T & _). rewrite PE.
      apply Forall_app. split; [apply Forall_app; split|].
      + eapply Forall_impl; [|apply (parts_utf8 umod (path_text (tp_of k))); [lia|exact U8|unfold short; lia]]. intros s [_ X]. exact X.
      + apply Forall_cons; [|constructor]. destruct T as [-> | ->]; unfold short; cbn; lia.
      + cbn [cert_tree_path crt]. repeat (apply Forall_cons; [unfold short, response_hash; rewrite ?HL; cbn; lia|]). constructor.
  Qed.
  (** index.html answers where nothing else is certified *)
  Lemma index_answers ops st path : cinv H glob d ops st -> request_parts path <> [bs "uncertified"] ->
    (forall p ct, published glob d p ct -> request_parts (url_of p) <> request_parts path) -> answers ops index_tree_path path.
  Proof.
    intros I NU NP. cbn [answers index_tree_path]. change (request_parts index_req_path) with (@nil bytes). split; [left; exists (request_parts path); reflexivity|]. split.
    - intro O. destruct (occupied_inserted _ _ O) as (en & q & Ie & _ & E). rewrite <- app_assoc in E. cbn [app] in E.
      destruct (entry_at _ _ _ _ _ _ I Ie (or_introl eq_refl) E) as [(_ & Q & _)|(k & enc & rs & (p & hs & N & _) & _ & K)]; [congruence|].
      destruct (names_path _ _ _ N) as (_ & _ & _ & [(-> & _)|(NE & _ & _ & ct & P & ->)]); destruct K as [(Z & _ & Z2)|(Z & Z1 & _)]; try congruence; try (discriminate Z2).
      apply (NP p ct P). congruence.
    - intros u _ M O. destruct (occupied_inserted _ _ O) as (en & q & Ie & _ & E). rewrite <- app_assoc in E. cbn [app] in E.
      destruct (entry_at _ _ _ _ _ _ I Ie (or_intror eq_refl) E) as [(_ & _ & Q)|(k & enc & rs & _ & _ & [(_ & -> & _)|(_ & _ & Z)])]; [discriminate Q| |discriminate Z].
      destruct M as [M|(_ & _ & q' & M)]; [cbn in M; lia|destruct q'; discriminate M].
  Qed.

  Notation ready := (ready H glob d).
  Lemma has_witness ops st en path : cinv H glob d ops st -> (en_path en = index_tree_path \/ exists p, en_path en = PExact p) -> exists w, http_witness H (cu_tree st) en path = OOk w.
  Proof.
    intros I C. destruct (C52_witness_never_panics H ops) as (t & RT & W). assert (t = cu_tree st) by (assert (RI := c_run _ _ _ _ _ I); congruence). subst t.
    destruct (W en path) as [(w & E & _)|(_ & p & E & L)]; [eauto|exfalso]. destruct C as [C|(p' & C)]; rewrite C in E; [|discriminate E]. injection E as <-. cbn in L. lia.
  Qed.
  (** the response chosen for a key *)
  Definition chosen (st : custom) (rq : request) (k : bytes) (identity : cresp) : cresp :=
    match accept_encoding (rq_headers rq) with Some e => match encoded_response st k e with Some r => r | None => identity end | None => identity end.
  Lemma file_of_key k p hs p' hs' : names k p hs -> names k p' hs' -> p' = p.
  Proof.
    intros A B. apply names_url in A, B. destruct A as [(-> & -> & _)|(-> & _)], B as [(B & -> & _)|(B & _)]; auto; try discriminate B. injection B as ->. reflexivity.
  Qed.
  Lemma chosen_spec ops st rq k p identity : cinv H glob d ops st -> (exists hs, names k p hs) -> complete d k p st -> m_get bytes_eqb k (cu_responses st) = Some identity ->
    exists enc rs hs, chosen st rq k identity = mk_cresp rs (crt H rs) /\ names k p hs /\ preferred d rq p enc /\ shows_variant d p hs enc rs /\ In (HInsert (aent H k rs)) ops.
  Proof.
    intros I (hs0 & N0) (_ & CG & CB) M. unfold chosen.
    assert (A : forall e, m_get pair_eqb (k, e) (cu_encoded st) <> None -> (exists c, has_file d (p ++ bs "." ++ e) c) /\
      exists rs hs r, m_get pair_eqb (k, e) (cu_encoded st) = Some r /\ r = mk_cresp rs (crt H rs) /\ names k p hs /\ shows_variant d p hs (Some e) rs /\ In (HInsert (aent H k rs)) ops).
    { intros e N. destruct (m_get pair_eqb (k, e) (cu_encoded st)) as [r|] eqn:E; [|congruence]. destruct (c_enc _ _ _ _ _ I _ _ _ E) as (rs & Er & (p' & hs & N' & AE & SV) & Io).
      assert (p' = p) by (eapply file_of_key; eassumption). subst p'. assert (SV' := SV). destruct SV' as (c & HF & _). split; [exists c; exact HF|]. exists rs, hs, r. auto. }
    destruct (c_resp _ _ _ _ _ I _ _ M) as (rs1 & E1 & (p1 & hs1 & N1 & _ & SV1) & I1).
    assert (p1 = p) by (eapply file_of_key; eassumption). subst p1. subst identity.
    assert (AS := accept_encoding_spec rq). destruct (accept_encoding (rq_headers rq)) as [v|].
    2: { exists None, rs1, hs1. split; [reflexivity|]. split; [exact N1|]. split; [|auto]. right. right. split; [reflexivity|]. split; intros [Z _]; exact (AS _ Z). }
    unfold encoded_response.
    destruct (contains_text (bs "br") v) eqn:CBr; [destruct (m_get pair_eqb (k, bs "br") (cu_encoded st)) as [r|] eqn:EB|].
    - destruct (A (bs "br")) as (HF & rs & hs & r' & Er & Ec & Nn & SV & Io); [congruence|]. assert (r' = r) by congruence. subst r'. subst r.
      exists (Some (bs "br")), rs, hs. split; [reflexivity|]. split; [exact Nn|]. split; [|auto]. left. split; [reflexivity|]. split; [apply AS; exact CBr|exact HF].
    - assert (NB : ~ available d rq p (bs "br")) by (intros [_ X]; apply CB in X; congruence).
      destruct (contains_text (bs "gzip") v) eqn:CGz; [destruct (m_get pair_eqb (k, bs "gzip") (cu_encoded st)) as [r|] eqn:EG|].
      + destruct (A (bs "gzip")) as (HF & rs & hs & r' & Er & Ec & Nn & SV & Io); [congruence|]. assert (r' = r) by congruence. subst r'. subst r.
        exists (Some (bs "gzip")), rs, hs. split; [reflexivity|]. split; [exact Nn|]. split; [|auto]. right. left. split; [reflexivity|]. split; [exact NB|]. split; [apply AS; exact CGz|exact HF].
      + exists None, rs1, hs1. split; [reflexivity|]. split; [exact N1|]. split; [|auto]. right. right. split; [reflexivity|]. split; [exact NB|]. intros [_ X]; apply CG in X; congruence.
      + exists None, rs1, hs1. split; [reflexivity|]. split; [exact N1|]. split; [|auto]. right. right. split; [reflexivity|]. split; [exact NB|]. intros [X _]. apply AS in X. congruence.
    - assert (NB : ~ available d rq p (bs "br")) by (intros [X _]; apply AS in X; congruence).
      destruct (contains_text (bs "gzip") v) eqn:CGz; [destruct (m_get pair_eqb (k, bs "gzip") (cu_encoded st)) as [r|] eqn:EG|].
      + destruct (A (bs "gzip")) as (HF & rs & hs & r' & Er & Ec & Nn & SV & Io); [congruence|]. assert (r' = r) by congruence. subst r'. subst r.
        exists (Some (bs "gzip")), rs, hs. split; [reflexivity|]. split; [exact Nn|]. split; [|auto]. right. left. split; [reflexivity|]. split; [exact NB|]. split; [apply AS; exact CGz|exact HF].
      + exists None, rs1, hs1. split; [reflexivity|]. split; [exact N1|]. split; [|auto]. right. right. split; [reflexivity|]. split; [exact NB|]. intros [_ X]; apply CG in X; congruence.
      + exists None, rs1, hs1. split; [reflexivity|]. split; [exact N1|]. split; [|auto]. right. right. split; [reflexivity|]. split; [exact NB|]. intros [X _]. apply AS in X. congruence.
  Qed.

  (** a certified response is accepted *)
  Lemma custom_accepted ops st rq path k p hs enc rs dc w cid key now off mv : cinv H glob d ops st -> cu_data st = Some (http_root_hash H (cu_tree st)) -> mv <= 2 ->
    path_of uri_path rq path -> names k p hs -> shows_variant d p hs enc rs -> an_encoding enc -> In (HInsert (aent H k rs)) ops ->
    answers ops (tp_of k) path -> unreserved (tp_of k) path ->
    certifies_data umod cap_max checked H ple vs dc cid key now off (cu_data st) -> http_witness H (cu_tree st) (aent H k rs) path = OOk w ->
    exists i, verify rq (add_v2_certificate_header dc rs w (expr_path (tp_of k))) cid now off key mv = OOk i /\ shown i rs.
  Proof.
    intros I D MV P N SV AE Io AN UR (c & x & Ec & Vc & Ed & Lc) Ew. assert (x = http_root_hash H (cu_tree st)) by congruence. subst x.
    assert (S : src k enc rs) by (exists p, hs; auto). destruct (names_path _ _ _ N) as (_ & U8 & L & _).
    destruct (C51_certified_response_is_accepted umod cap_max checked H ple vs uri_path uri_query gunzip inflate ops (cu_tree st) (aent H k rs)
      asset_ce rq rq rs path path dc c w cid now off key mv) as (i & V & V2 & v & hs' & hv & E1 & E2 & E3 & _); auto.
    - exact (c_run _ _ _ _ _ I).
    - eapply inserts_held; eassumption.
    - eapply src_made; eassumption.
    - constructor.
    - intro Z; discriminate Z.
    - eapply custom_short; eassumption.
    - exists i. split; [exact V|]. split; [exact V2|]. exists v. auto.
  Qed.
  Lemma get_path_ok rq path : path_of uri_path rq path -> trap_of (get_path uri_path rq) = Some path.
  Proof. intro P. apply C63_request_path_exact in P. rewrite P. reflexivity. Qed.
  Lemma uncertified_last time : last_header (bs "IC-CertificateExpression") (rs_headers (uncertified_response time)) (print_cel CelSkip).
  Proof.
    unfold uncertified_response. cbn [rs_headers]. unfold custom_headers.
    match goal with |- last_header _ (?l ++ ?m) _ => change (l ++ m) with (removelast l ++ [(bs "IC-CertificateExpression", print_cel CelSkip)] ++ m) end.
    apply (last_header_other _ _ _ _ _ : _ -> _ -> last_header _ ((_ ++ [_]) ++ [_]) _) || idtac.
    rewrite app_assoc. apply last_header_other; [intro Z; apply eq_nocase_spec in Z; vm_compute in Z; discriminate Z|]. apply last_header_snoc. apply eq_nocase_spec. reflexivity.
  Qed.

  Lemma c102_holds : forall st, custom_init H glob d = Some st ->
    forall rq path dc time cid key now off mv, mv <= 2 -> path_of uri_path rq path -> path <> [] -> ordinary_path path -> (forall r, request_parts path <> bs "http_expr" :: r) ->
    spelled glob d path -> certifies_data umod cap_max checked H ple vs dc cid key now off (cu_data st) ->
    exists rs hv i, custom_http_request H uri_path st (Some dc) time rq = Some (JsonSpec.with_certificate rs hv) /\
      verify rq (JsonSpec.with_certificate rs hv) cid now off key mv = OOk i /\
      (path = bs "/uncertified" /\ rs = clock_page time /\ i_response i = None \/ path <> bs "/uncertified" /\ custom_answer glob d rq path rs /\ shown i rs).
  Proof.
    intros st E0 rq path dc time cid key now off mv MV P NE OP NH SP CD.
    destruct (init_ready H uri_query glob d st E0) as [(ops & I) D CI CF]. unfold custom_http_request. rewrite (get_path_ok _ _ P).
    destruct (bytes_eqb_spec path uncertified_path) as [->|NU].
    - (* the path that skips certification *)
      assert (CH : match accept_encoding (rq_headers rq) with Some e => match encoded_response st uncertified_path e with Some r => r | None => mk_cresp (uncertified_response time) (certify_skip H) end | None => mk_cresp (uncertified_response time) (certify_skip H) end = mk_cresp (uncertified_response time) (certify_skip H)).
      { assert (NO : forall e, m_get pair_eqb (uncertified_path, e) (cu_encoded st) = None).
        { intro e. destruct (m_get pair_eqb (uncertified_path, e) (cu_encoded st)) as [r|] eqn:E; [exfalso|reflexivity]. destruct (c_enc _ _ _ _ _ I _ _ _ E) as (rs & _ & (p & hs & N & _) & _).
          destruct (names_path _ _ _ N) as (_ & _ & _ & [(Z & _)|(_ & _ & Z & _)]); [discriminate Z|apply Z; reflexivity]. }
        destruct (accept_encoding (rq_headers rq)) as [e|]; [|reflexivity]. unfold encoded_response. rewrite !NO. destruct (contains_text (bs "br") e), (contains_text (bs "gzip") e); reflexivity. }
      rewrite CH. cbn [cr_certification cr_response]. fold (skip_ent H). destruct (has_witness ops st (skip_ent H) uncertified_path I) as (w & Ew); [right; exists uncertified_path; reflexivity|].
      rewrite Ew. cbn [trap_of]. destruct CD as (c & x & Ec & Vc & Ed & Lc). assert (x = http_root_hash H (cu_tree st)) by congruence. subst x.
      destruct (C51_certified_response_is_accepted umod cap_max checked H ple vs uri_path uri_query gunzip inflate ops (cu_tree st) (skip_ent H)
        CelSkip rq rq (uncertified_response time) uncertified_path uncertified_path dc c w cid now off key mv) as (i & V & V2 & NR); auto.
      + exact (c_run _ _ _ _ _ I).
      + eapply inserts_held; [exact I|exact (c_skip _ _ _ _ _ I)].
      + apply MadeSkip.
      + constructor.
      + intros _. apply uncertified_last.
      + reflexivity.
      + exact Logic.I.
      + eapply custom_short; eassumption.
      + cbn. lia.
      + eexists (uncertified_response time), _, i. split; [reflexivity|]. split; [exact V|]. left. auto.
    - destruct (m_get bytes_eqb path (cu_responses st)) as [identity|] eqn:M.
      + (* a published file *)
        destruct (c_resp _ _ _ _ _ I _ _ M) as (rs0 & _ & (p & hs0 & N0 & _) & _).
        assert (K := names_url _ _ _ N0). destruct K as [(K & _)|(K & ct & PB & _)]; [congruence|].
        assert (CO : complete d path p st) by (rewrite K, <- (req_path_url _ _ PB); exact (CF _ _ PB)).
        destruct (chosen_spec ops st rq path p identity I (ex_intro _ hs0 N0) CO M) as (enc & rs & hs & EC & N & PR & SV & Io). unfold chosen in EC. rewrite EC. cbn [cr_certification cr_response].
        rewrite <- (tp_exact path NE). fold (aent H path rs). destruct (has_witness ops st (aent H path rs) path I) as (w & Ew); [right; exists path; cbn; rewrite (tp_exact path NE); reflexivity|]. rewrite Ew. cbn [trap_of].
        assert (AE : an_encoding enc) by (destruct PR as [(-> & _)|[(-> & _)|(-> & _)]]; unfold an_encoding; auto).
        destruct (custom_accepted ops st rq path path p hs enc rs dc w cid key now off mv I D MV P N SV AE Io) as (i & V & S); auto; [rewrite (tp_exact path NE); reflexivity|rewrite (tp_exact path NE); exact Logic.I|].
        eexists rs, _, i. split; [reflexivity|]. split; [exact V|]. right. split; [exact NU|]. split; [|exact S].
        destruct (names_url _ _ _ N) as [(Z & _)|(_ & ct' & PB' & ->)]; [congruence|]. eapply AnswerPublished; eassumption.
      + (* index.html *)
        destruct CI as (MI & CI). destruct (m_get bytes_eqb [] (cu_responses st)) as [identity|] eqn:M'; [|congruence]. change (m_get bytes_eqb index_req_path (cu_responses st)) with (m_get bytes_eqb [] (cu_responses st)). rewrite M'. cbn [option_map].
        assert (N0 : names [] (bs "index.html") index_with) by (left; auto).
        destruct (chosen_spec ops st rq [] (bs "index.html") identity I (ex_intro _ _ N0)) as (enc & rs & hs & EC & N & PR & SV & Io); [split; [congruence|exact CI]|exact M'|].
        unfold chosen in EC. change index_req_path with (@nil byte). rewrite EC. cbn [cr_certification cr_response]. change (mk_entry index_tree_path (crt H rs)) with (aent H [] rs).
        destruct (has_witness ops st (aent H [] rs) path I) as (w & Ew); [left; reflexivity|]. rewrite Ew. cbn [trap_of].
        assert (AE : an_encoding enc) by (destruct PR as [(-> & _)|[(-> & _)|(-> & _)]]; unfold an_encoding; auto).
        assert (NPB : forall p ct, published glob d p ct -> path <> url_of p) by (intros p ct PB Z; destruct (CF _ _ PB) as (Y & _); rewrite (req_path_url _ _ PB), <- Z in Y; congruence).
        assert (AN : answers ops index_tree_path path).
        { eapply index_answers; [exact I| |].
          - intro Z. apply NU. apply (SP (bs "/uncertified")); [left; reflexivity|symmetry; exact Z].
          - intros p ct PB Z. apply (NPB p ct PB). apply (SP (url_of p)); [right; exists p, ct; auto|exact Z]. }
        destruct (custom_accepted ops st rq path [] _ hs enc rs dc w cid key now off mv I D MV P N SV AE Io) as (i & V & S); auto; [split; assumption|].
        eexists rs, _, i. split; [reflexivity|]. split; [exact V|]. right. split; [exact NU|]. split; [|exact S].
        assert (hs = index_with) by (destruct (names_url _ _ _ N) as [(_ & _ & Z)|(Z & _)]; [exact Z|discriminate Z]). subst hs. eapply AnswerIndex; eassumption.
  Qed.

  (** the entries of the tree, with what they were made for *)
  Definition custom_made (en : entry) (ce : cel) (rq0 : request) (rs0 : response) : Prop :=
    (en = skip_ent H /\ ce = CelSkip) \/ (ce = asset_ce /\ exists k enc, src k enc rs0 /\ en = aent H k rs0).
  Lemma src_no_pseudo k enc rs : src k enc rs -> no_pseudo (rs_headers rs).
  Proof.
    intro S. destruct (src_headers _ _ _ _ _ S) as (hs & body & -> & F). change (rs_headers (page hs body)) with (firstn 10 (rs_headers (page hs body)) ++ hs). unfold no_pseudo. apply Forall_app. split.
    - repeat (apply Forall_cons; [intro Z; discriminate Z|]). constructor.
    - eapply Forall_impl; [|exact F]. intros h [_ X]. exact X.
  Qed.
  Lemma held_is_inserted ops en : held ops en -> exists en', In (HInsert en') ops /\ entry_tree_path en = entry_tree_path en'.
  Proof. intro He. destruct (holds_inserted ops _ _ He) as (en' & I & E & _). eauto. Qed.
  Lemma published_occupied ops st p ct : cinv H glob d ops st -> published glob d p ct -> complete d (req_path_of p) p st -> occupied ops (request_parts (url_of p) ++ [bs "<$>"]).
  Proof.
    intros I PB (M & _). rewrite (req_path_url _ _ PB) in M. destruct (m_get bytes_eqb (url_of p) (cu_responses st)) as [r|] eqn:E; [|congruence].
    destruct (c_resp _ _ _ _ _ I _ _ E) as (rs & _ & _ & Io). assert (He := inserts_held _ _ I _ Io). unfold held, aent, entry_tree_path in He. cbn [en_path en_certification] in He. rewrite (tp_exact _ (url_nonempty p)) in He.
    exists (cert_tree_path (crt H rs)), []. replace (request_parts (url_of p) ++ [bs "<$>"]) with (path_tree_path (PExact (url_of p))); [exact He|]. apply path_to_segments_parts.
  Qed.
  Lemma c103_holds : forall key (Root : htree -> Prop) (Sub : bytes -> htree -> Prop), unforgeable H vs key Root Sub ->
    forall st rq rs cid now off mv i, custom_init H glob d = Some st ->
    (forall St x, speaks_for umod cap_max ple Root Sub cid St -> at_path (certified_data_path cid) St (HLeaf x) -> cu_data st = Some x) ->
    no_pseudo (rq_headers rq) -> no_pseudo (rs_headers rs) ->
    verify rq rs cid now off key mv = OOk i -> i_response i <> None ->
    exists hv hd, last_header (bs "IC-Certificate") (rs_headers rs) hv /\ header_from umod cap_max hv = OOk hd /\
    (certificate_collision umod cap_max H Root Sub (h_cert hd) \/
     collision H (preimages H (HLabeled (bs "http_expr") (nhtree H (cu_tree st)))) (preimages H (h_tree hd)) \/
     i_version i = 2 /\
     exists expr path, last_header (bs "IC-CertificateExpression") (rs_headers rs) expr /\ path_of uri_path rq path /\
     (collision H [expr] [print_cel CelSkip] \/ collision H [expr] [print_cel (CelResponseOnly (HeaderExclusions []))] \/
      (ordinary_path path -> exists good, custom_content glob d path good /\ same_response H (HeaderExclusions []) rs good))).
  Proof.
    intros key Root Sub UF st rq rs cid now off mv i E0 CD NQ NR V NN.
    destruct (init_ready H uri_query glob d st E0) as [(ops & I) D CI CF].
    destruct (accepted_entry umod cap_max checked H ple vs uri_path uri_query gunzip inflate key Root Sub HL UF custom_made ops (cu_tree st) rq rs cid now off mv i (c_run _ _ _ _ _ I)) as (hv & hd & L & Hd & C); auto.
    { apply Forall_forall. intros o Io. destruct (c_ops _ _ _ _ _ I o Io) as [->|(k & enc & rs0 & S & ->)].
      - exists CelSkip, rq, rs. split; [left; auto|]. split; [apply MadeSkip|]. split; [constructor|]. split; assumption.
      - exists asset_ce, rq, rs0. split; [right; split; [reflexivity|]; exists k, enc; auto|]. split; [eapply src_made; eassumption|]. split; [constructor|]. split; [exact NQ|]. eapply src_no_pseudo; eassumption. }
    { intros St x SP AT. specialize (CD St x SP AT). congruence. }
    exists hv, hd. split; [exact L|]. split; [exact Hd|]. destruct C as [C|[C|(V2 & en & ce & rq0 & rs0 & expr & path & M & He & _ & LE & PO & AN & C)]]; [auto|auto|]. right; right. split; [exact V2|].
    exists expr, path. split; [exact LE|]. split; [exact PO|]. destruct M as [(-> & ->)|(-> & k & enc & (p & hs & N & AE & SV) & ->)].
    - destruct C as [C|(_ & [])]. auto.
    - destruct C as [C|(_ & SR)]; [auto|]. right; right. intro OP. specialize (AN OP). exists rs0. split; [|exact SR]. cbn [aent en_path] in AN.
      assert (K := names_url _ _ _ N). destruct K as [(-> & -> & ->)|(-> & ct & PB & ->)].
      + change (tp_of []) with index_tree_path in AN. destruct AN as (_ & NO & _). eapply ContentIndexPage; [| |exact AE|exact SV].
        * intro Z. apply NO. rewrite Z. exists (cert_tree_path (certify_skip H)), []. exact (inserts_held _ _ I _ (c_skip _ _ _ _ _ I)).
        * intros p ct PB Z. apply NO. rewrite <- Z. eapply published_occupied; [exact I|exact PB|exact (CF _ _ PB)].
      + rewrite (tp_exact _ (url_nonempty p)) in AN. cbn [answers_or_slash] in AN. eapply ContentPublished; eassumption.
  Qed.
  Lemma c104_holds : forall key (Root : htree -> Prop) (Sub : bytes -> htree -> Prop), unforgeable H vs key Root Sub ->
    forall st rq rs cid now off mv i, custom_init H glob d = Some st ->
    (forall St x, speaks_for umod cap_max ple Root Sub cid St -> at_path (certified_data_path cid) St (HLeaf x) -> cu_data st = Some x) ->
    (forall path, path_of uri_path rq path -> ordinary_path path) ->
    verify rq rs cid now off key mv = OOk i -> i_response i = None ->
    exists hv hd, last_header (bs "IC-Certificate") (rs_headers rs) hv /\ header_from umod cap_max hv = OOk hd /\
    (certificate_collision umod cap_max H Root Sub (h_cert hd) \/
     collision H (preimages H (HLabeled (bs "http_expr") (nhtree H (cu_tree st)))) (preimages H (h_tree hd)) \/
     i_version i = 2 /\
     exists expr path, last_header (bs "IC-CertificateExpression") (rs_headers rs) expr /\ path_of uri_path rq path /\
     (collision H [expr] [print_cel CelSkip] \/ collision H [expr] [print_cel (CelResponseOnly (HeaderExclusions []))] \/
      request_parts path = [bs "uncertified"] /\ expr = print_cel CelSkip)).
  Proof.
    intros key Root Sub UF st rq rs cid now off mv i E0 CD OP V NN.
    destruct (init_ready H uri_query glob d st E0) as [(ops & I) D CI CF].
    destruct (skip_entry umod cap_max checked H ple vs uri_path uri_query gunzip inflate key Root Sub HL UF custom_made ops (cu_tree st) rq rs cid now off mv i (c_run _ _ _ _ _ I)) as (hv & hd & L & Hd & C); auto.
    { apply Forall_forall. intros o Io. destruct (c_ops _ _ _ _ _ I o Io) as [->|(k & enc & rs0 & S & ->)].
      - split; [split; intros [Z|[]]; discriminate Z|]. exists CelSkip, rq, rs. split; [left; auto|]. split; [apply MadeSkip|constructor].
      - split; [destruct S as (p & hs & N & _); exact (proj1 (names_path _ _ _ N))|]. exists asset_ce, rq, rs0. split; [right; split; [reflexivity|]; exists k, enc; auto|]. split; [eapply src_made; eassumption|constructor]. }
    { intros St x SP AT. specialize (CD St x SP AT). congruence. }
    exists hv, hd. split; [exact L|]. split; [exact Hd|]. destruct C as [C|[C|(V2 & expr & path & LE & PO & C)]]; [auto|auto|]. right; right. split; [exact V2|].
    exists expr, path. split; [exact LE|]. split; [exact PO|]. destruct (C (OP _ PO)) as (en & ce & rq0 & rs0 & M & He & _ & AN & C'). clear C.
    destruct M as [(-> & ->)|(-> & _)].
    - destruct C' as [C|(_ & E)]; [auto|]. right; right. cbn [skip_ent en_path answers_or_slash] in AN. split; [symmetry; exact AN|exact E].
    - destruct C' as [C|(Z & _)]; [auto|discriminate Z].
  Qed.
End Theorems.

(** C102: the canister starts exactly if it has an index.html and no folder is named like an asset. *)
Theorem C102_custom_assets_start :
  forall (H : bytes -> bytes) (glob : bytes -> bytes -> bool) (d : list item),
  (exists st, custom_init H glob d = Some st) <->
  (exists c, has_file d (bs "index.html") c) /\ (forall k ct q, In (k, ct) kinds -> In (AFolder q) d -> glob k q = false).
Proof.
  intros H glob d. split; [intros (st & E); exact (init_needs H glob d st E)|intros (A & B); exact (init_starts H (fun _ => None) glob d A B)].
Qed.
Print Assumptions C102_custom_assets_start.

(** C102: every request is answered, with the file it asks for in the preferred encoding or with
    index.html, and the answer verifies; [spelled] excludes other spellings of certified paths. *)
Theorem C102_custom_answers_are_accepted_partial :
  forall (umod cap_max : N) (checked : bool) (H : bytes -> bytes) ple vs uri_path uri_query gunzip inflate glob (d : list item),
  (forall x, length (H x) = 32%nat) -> tidy_files glob d umod -> 32 < umod <= 2 ^ 64 ->
  forall st, custom_init H glob d = Some st ->
  forall rq path dc time canister_id key now offset min_version, min_version <= 2 ->
  path_of uri_path rq path -> path <> [] -> ordinary_path path -> (forall r, request_parts path <> bs "http_expr" :: r) -> spelled glob d path ->
  certifies_data umod cap_max checked H ple vs dc canister_id key now offset (cu_data st) ->
  exists rs hv i, custom_http_request H uri_path st (Some dc) time rq = Some (JsonSpec.with_certificate rs hv) /\
    verify umod cap_max checked H ple vs uri_path uri_query gunzip inflate rq (JsonSpec.with_certificate rs hv) canister_id now offset key min_version = OOk i /\
    (path = bs "/uncertified" /\ rs = clock_page time /\ i_response i = None \/
     path <> bs "/uncertified" /\ custom_answer glob d rq path rs /\ shown i rs).
Proof. intros until d. intros HL TF UM. exact (c102_holds umod cap_max checked H ple vs uri_path uri_query gunzip inflate glob d HL TF UM). Qed.
Print Assumptions C102_custom_answers_are_accepted_partial.

(** C103: only the published files and index.html are accepted with content. *)
Theorem C103_custom_only_files_are_accepted :
  forall (umod cap_max : N) (checked : bool) (H : bytes -> bytes) ple vs uri_path uri_query gunzip inflate glob (d : list item),
  (forall x, length (H x) = 32%nat) -> tidy_files glob d umod -> 32 < umod <= 2 ^ 64 ->
  forall key (Root : htree -> Prop) (Sub : bytes -> htree -> Prop), unforgeable H vs key Root Sub ->
  forall st rq rs canister_id now offset min_version i, custom_init H glob d = Some st ->
  (* the canister's certified data is what it set *)
  (forall St x, speaks_for umod cap_max ple Root Sub canister_id St -> at_path (certified_data_path canister_id) St (HLeaf x) -> cu_data st = Some x) ->
  no_pseudo (rq_headers rq) -> no_pseudo (rs_headers rs) ->
  verify umod cap_max checked H ple vs uri_path uri_query gunzip inflate rq rs canister_id now offset key min_version = OOk i -> i_response i <> None ->
  exists hv hd, last_header (bs "IC-Certificate") (rs_headers rs) hv /\ header_from umod cap_max hv = OOk hd /\
  (certificate_collision umod cap_max H Root Sub (h_cert hd) \/
   collision H (preimages H (HLabeled (bs "http_expr") (nhtree H (cu_tree st)))) (preimages H (h_tree hd)) \/
   i_version i = 2 /\
   exists expr path, last_header (bs "IC-CertificateExpression") (rs_headers rs) expr /\ path_of uri_path rq path /\
   (collision H [expr] [print_cel CelSkip] \/ collision H [expr] [print_cel (CelResponseOnly (HeaderExclusions []))] \/
    (ordinary_path path -> exists good, custom_content glob d path good /\ same_response H (HeaderExclusions []) rs good))).
Proof. intros until d. intros HL TF UM. exact (c103_holds umod cap_max checked H ple vs uri_path uri_query gunzip inflate glob d HL TF UM). Qed.
Print Assumptions C103_custom_only_files_are_accepted.

(** C104: certification can be skipped at /uncertified only. *)
Theorem C104_custom_skips_only_uncertified :
  forall (umod cap_max : N) (checked : bool) (H : bytes -> bytes) ple vs uri_path uri_query gunzip inflate glob (d : list item),
  (forall x, length (H x) = 32%nat) -> tidy_files glob d umod -> 32 < umod <= 2 ^ 64 ->
  forall key (Root : htree -> Prop) (Sub : bytes -> htree -> Prop), unforgeable H vs key Root Sub ->
  forall st rq rs canister_id now offset min_version i, custom_init H glob d = Some st ->
  (forall St x, speaks_for umod cap_max ple Root Sub canister_id St -> at_path (certified_data_path canister_id) St (HLeaf x) -> cu_data st = Some x) ->
  (forall path, path_of uri_path rq path -> ordinary_path path) ->
  verify umod cap_max checked H ple vs uri_path uri_query gunzip inflate rq rs canister_id now offset key min_version = OOk i -> i_response i = None ->
  exists hv hd, last_header (bs "IC-Certificate") (rs_headers rs) hv /\ header_from umod cap_max hv = OOk hd /\
  (certificate_collision umod cap_max H Root Sub (h_cert hd) \/
   collision H (preimages H (HLabeled (bs "http_expr") (nhtree H (cu_tree st)))) (preimages H (h_tree hd)) \/
   i_version i = 2 /\
   exists expr path, last_header (bs "IC-CertificateExpression") (rs_headers rs) expr /\ path_of uri_path rq path /\
   (collision H [expr] [print_cel CelSkip] \/ collision H [expr] [print_cel (CelResponseOnly (HeaderExclusions []))] \/
    request_parts path = [bs "uncertified"] /\ expr = print_cel CelSkip)).
Proof. intros until d. intros HL TF UM. exact (c104_holds umod cap_max checked H ple vs uri_path uri_query gunzip inflate glob d HL TF UM). Qed.
Print Assumptions C104_custom_skips_only_uncertified.
