(** C94: skipping certification is possible only where it was certified. *)
From Coq Require Import List Arith NArith Lia Bool Permutation.
From Verif Require Import Bytes Sha256 Utf8 Utf8Split Text HashTree HashTreeSpec HashTreeProofs RbTree Nested NestedSpec NestedProofs Props_Nested Cbor CborSpec HttpTypes HttpHash HttpSpec Cel CelSpec Props_Cel V2 Wildcard WildcardSpec Verify VerifySpec Header HeaderSpec HttpTree HttpTreeSpec CertVerify CertSpec Props_Cert Props_Header
  Props_Hash Props_Wildcard Props_Verify Props_HttpTree AssetRouter RangeSpec Props_Range AssetSpec AssetProofs AssetEffect PreparedProofs Props_Router Props_Backed ServeSpec Props_Serve Props_Accept Props_Only Props_Trip.
Import ListNotations.

Lemma at_occupied H ops t p s : http_run H ops = Some t -> p <> [] ->
  at_path (bs "http_expr" :: p) (HLabeled (bs "http_expr") (nhtree H t)) s -> occupied ops p.
Proof.
  intros R N A. apply at_root_inv in A. destruct A as [_ A].
  destruct (http_run_ok H ops) as (t' & R' & K & _ & Q). assert (t' = t) by congruence. subst t'. clear R'.
  destruct (contains_path p t) eqn:C.
  - apply (proj1 (C17_no_empty_subtrees H (map http_nop ops) t R) p N). exact C.
  - exfalso. destruct (nwitness_ok H p t K) as (w & _ & P & _ & M & _). destruct (nok_tree H t K) as (_ & W & F).
    assert (L : lookup_subtree p w = SAbsent).
    { destruct (nget p t) as [v|] eqn:G; [|rewrite C in M; apply M]. exfalso. clear -G C N. revert t G C. induction p as [|k p IH]; intros [v0|tr] G C; try discriminate; try contradiction.
      cbn [nget contains_path] in *. destruct (get ntree k tr) as [c|]; [|discriminate]. destruct p as [|k' p]; [destruct c; discriminate|]. eapply IH; eauto. discriminate. }
    generalize (lookup_subtree_sound H p (nhtree H t) w W F P). rewrite L. intro Z. exact (Z s A).
Qed.

(** [p] is a prefix of the path of a held entry *)
Lemma occupied_inserted ops p : occupied ops p -> exists en q, In (HInsert en) ops /\ held ops en /\ entry_tree_path en = p ++ q.
Proof.
  intros (q & v & X). destruct (holds_inserted ops _ _ X) as (en & I & E & V). exists en, q. split; [exact I|]. split; [|auto].
  unfold held. rewrite <- E, <- V. exact X.
Qed.
Lemma only_at (T : bytes -> Prop) t t' r r' : forall l l', (forall s, In s l -> ~ T s) -> (forall s, In s r -> ~ T s) -> T t' ->
  l ++ t :: r = l' ++ t' :: r' -> l = l' /\ t = t' /\ r = r'.
Proof.
  induction l as [|x l IH]; intros [|y l'] A B Tt E; cbn [app] in E; injection E as -> E.
  - auto.
  - exfalso. subst r. apply (B t'); [apply in_or_app; right; left; reflexivity|exact Tt].
  - exfalso. apply (A t'); [left; reflexivity|exact Tt].
  - destruct (IH l' (fun s I => A s (or_intror I)) B Tt E) as (-> & -> & ->). auto.
Qed.
Definition terminator (s : bytes) : Prop := s = bs "<$>" \/ s = bs "<*>".
Lemma path_segments p : exists t, path_tree_path p = request_parts (path_text p) ++ [t] /\ terminator t /\
  t = match p with PExact _ => bs "<$>" | PWildcard _ => bs "<*>" end.
Proof. destruct p as [u|u]; eexists; (split; [apply path_to_segments_parts|]); unfold terminator; auto. Qed.

(** the segments of a certification made by the constructors *)
Lemma made_hash H uq ce rq rs c : made H uq ce rq rs c -> exists r, cert_tree_path c = H (print_cel ce) :: r.
Proof.
  intros [q0 r0|rc1 q0 r0 bh ec BH CE|qc1 rc1 q0 r0 bh ec BH CE].
  - eexists. reflexivity.
  - apply (C54_requires_exact_cel_header H uq (mk_request_cert [] []) rc1 q0) in CE. destruct CE as [_ E]. rewrite E. eexists. reflexivity.
  - apply (C54_requires_exact_cel_header H uq qc1 rc1 q0) in CE. destruct CE as [_ (h & _ & E)]. rewrite E. eexists. reflexivity.
Qed.
Lemma made_no_terminator H uq ce rq rs c : (forall x, length (H x) = 32) -> made H uq ce rq rs c -> forall s, In s (cert_tree_path c) -> ~ terminator s.
Proof.
  intros HL M s I T. assert (Q : length s = 0 \/ length s = 32).
  { destruct M as [q0 r0|rc1 q0 r0 bh ec BH CE|qc1 rc1 q0 r0 bh ec BH CE].
    - destruct I as [<-|[]]. right. apply HL.
    - apply (C54_requires_exact_cel_header H uq (mk_request_cert [] []) rc1 q0) in CE. destruct CE as [_ E]. rewrite E in I.
      cbn [cert_tree_path In] in I. destruct I as [<-|[<-|[<-|[]]]]; [right; apply HL|left; reflexivity|right].
      unfold response_hash. apply HL.
    - apply (C54_requires_exact_cel_header H uq qc1 rc1 q0) in CE. destruct CE as [_ (h & Eh & E)]. rewrite E in I.
      cbn [cert_tree_path In] in I. destruct I as [<-|[<-|[<-|[]]]]; [right; apply HL| |right; unfold response_hash; apply HL].
      right. unfold request_hash in Eh. destruct (uq (rq_url q0)); [|discriminate]. injection Eh as <-. apply HL. }
  destruct T as [->| ->]; destruct Q as [Q|Q]; discriminate Q.
Qed.

Lemma skip_entry :
  forall umod cap_max checked (H : bytes -> bytes) ple vs uri_path uri_query gunzip inflate key (Root : htree -> Prop) (Sub : bytes -> htree -> Prop),
  (forall x, length (H x) = 32%nat) -> unforgeable H vs key Root Sub ->
  forall (Made : entry -> cel -> request -> response -> Prop) (ops : list http_op) (t : ntree) rq rs canister_id now offset min_version i,
  http_run H ops = Some t ->
  Forall (fun o => match o with HInsert en => clean_url (path_text (en_path en)) /\ exists ce rq0 rs0, Made en ce rq0 rs0 /\ made H uri_query ce rq0 rs0 (en_certification en) /\ Forall token (cel_names ce) | _ => True end) ops ->
  (forall St d, speaks_for umod cap_max ple Root Sub canister_id St -> at_path (certified_data_path canister_id) St (HLeaf d) -> d = http_root_hash H t) ->
  verify umod cap_max checked H ple vs uri_path uri_query gunzip inflate rq rs canister_id now offset key min_version = OOk i ->
  i_response i = None ->
  exists hv hd, last_header (bs "IC-Certificate") (rs_headers rs) hv /\ header_from umod cap_max hv = OOk hd /\
  (certificate_collision umod cap_max H Root Sub (h_cert hd) \/
   collision H (preimages H (HLabeled (bs "http_expr") (nhtree H t))) (preimages H (h_tree hd)) \/
   i_version i = 2%N /\
   exists expr path, last_header (bs "IC-CertificateExpression") (rs_headers rs) expr /\ path_of uri_path rq path /\
     (ordinary_path path -> exists en ce rq0 rs0, Made en ce rq0 rs0 /\ held ops en /\ made H uri_query ce rq0 rs0 (en_certification en) /\
       answers_or_slash ops (en_path en) path /\
       (collision H [expr] [print_cel ce] \/ ce = CelSkip /\ expr = print_cel CelSkip))).
Proof.
  intros umod cap ck H ple vs up uq gz df key Root Sub HL UF Made ops t rq rs cid now off mv i R Ho CD V NN.
  destruct (http_run_ok H ops) as (t' & R' & K & _ & Q). assert (t' = t) by congruence. subst t'. clear R'.
  destruct (nok_tree H t K) as (DG & WT & FT).
  set (T := HLabeled (bs "http_expr") (nhtree H t)).
  assert (WF : wf T /\ full T = true) by (split; assumption).
  assert (DT : digest H T = http_root_hash H t) by (unfold http_root_hash; rewrite DG; reflexivity).
  destruct (C46_no_success_below_version _ _ _ _ _ _ _ _ _ _ _ _ _ _ _ _ _ _ V) as (_ & [V1|V2] & _).
  { destruct (C49_v1_soundness umod cap ck H ple vs up uq gz df key Root Sub HL UF rq rs cid now off mv i V V1) as (_ & hv & hd & path & enc & d & L & Hd & _ & _ & _ & C).
    exists hv, hd. split; [exact L|]. split; [exact Hd|]. destruct C as [C|(St & data & Sp & At & C)]; [left; exact C|].
    apply (CD _ _ Sp) in At. destruct (C T) as [X|X]; [apply WF|apply WF|congruence|right; left; exact X|exfalso].
    destruct X as (v & _ & [X|[X _]]); apply at_root_inv in X; destruct X as [X _]; discriminate X. }
  destruct (C47_v2_shows_canister_tree umod cap ck H ple vs up uq gz df key Root Sub HL UF rq rs cid now off mv i V V2) as (hv & hd & expr & e & c & path & L & Hd & LE & Ce & PO & C).
  exists hv, hd. split; [exact L|]. split; [exact Hd|]. destruct C as [C|(St & data & Sp & At & C)]; [left; exact C|].
  apply (CD _ _ Sp) in At. destruct (C T) as [X|[X XP]]; [apply WF|apply WF|congruence|right; left; exact X|]. right. right. split; [exact V2|].
  destruct (C48_v2_returns_only_certified_data _ _ _ _ _ _ _ _ _ _ _ _ _ _ _ _ _ _ V V2) as (expr' & c' & LE' & Ce' & Sh).
  assert (expr' = expr) by (apply last_header_fun in LE, LE'; congruence). subst expr'. assert (c' = c) by congruence. subst c'. clear LE' Ce'.
  assert (c = CelSkip) by (destruct c as [|rc|qc rc]; [reflexivity| |]; destruct Sh as (v & hs & hv' & Y & _); congruence). subst c. clear Sh.
  exists expr, path. split; [exact LE|]. split; [exact PO|]. intro OP. destruct (XP OP) as [_ XX]. clear XP.
  cbn [certified_entry] in X. destruct X as (s & A).
  assert (TE : exists u tm, e = bs "http_expr" :: u ++ [tm] /\ terminator tm).
  { destruct XX as [->|(v & -> & _)]; eexists; eexists; (split; [reflexivity|]); unfold terminator; auto. }
  destruct TE as (u & tm & Ee & TM).
  rewrite Ee in A. cbn [app] in A. rewrite <- app_assoc in A. cbn [app] in A.
  assert (OC : occupied ops (u ++ [tm; H expr])) by (eapply at_occupied; [exact R|destruct u; discriminate|exact A]).
  destruct (occupied_inserted ops _ OC) as (en & q & Ien & He & Et).
  rewrite Forall_forall in Ho. specialize (Ho _ Ien). cbn in Ho. destruct Ho as (Cl & ce & rq0 & rs0 & MG & Ma & Tk).
  destruct (path_segments (en_path en)) as (tm' & PE & TM' & TD).
  unfold entry_tree_path in Et. rewrite PE, <- !app_assoc in Et. cbn [app] in Et.
  apply (only_at terminator) in Et; [|intros x Ix [->| ->]; [apply (proj1 Cl), Ix|apply (proj2 Cl), Ix]|apply (made_no_terminator H uq ce rq0 rs0 _ HL Ma)|exact TM].
  destruct Et as (EP & EM & ER). subst u tm.
  exists en, ce, rq0, rs0. split; [exact MG|]. split; [exact He|]. split; [exact Ma|].
  destruct (made_hash H uq ce rq0 rs0 _ Ma) as (r & EH). rewrite ER in EH. injection EH as EH _.
  split.
  - destruct (en_path en) as [p|p] eqn:EPP; cbn [answers_or_slash path_text] in *; subst tm'; rewrite Ee in XX.
    + destruct XX as [XX|(v & XX & _)].
      * injection XX as XX. apply app_inj_tail in XX. apply XX.
      * injection XX as XX. apply app_inj_tail in XX. destruct XX as [_ XX]. discriminate XX.
    + destruct XX as [XX|(v & XX & M & N1 & N2)].
      * injection XX as XX. apply app_inj_tail in XX. destruct XX as [_ XX]. discriminate XX.
      * injection XX as XX. apply app_inj_tail in XX. destruct XX as [XX _]. subst v. split; [exact M|]. split.
        -- intro O. destruct (occupied_at H ops t _ R O) as (s' & S). exact (N1 s' S).
        -- intros v Mv Sv O. destruct (occupied_at H ops t _ R O) as (s' & S). exact (N2 v Mv Sv s' S).
  - destruct (bytes_eq_dec expr (print_cel ce)) as [Eq|Ne].
    + right. assert (CelSkip = ce) by (eapply plain_or_error; eassumption). subst ce. auto.
    + left. exists expr, (print_cel ce). split; [left; reflexivity|]. split; [left; reflexivity|]. auto.
Qed.

(** C94: if the verifier accepts a response without certified content, the canister's tree holds a
    skip certification for the request path. *)
Theorem C94_skip_only_where_certified_partial :
  forall umod cap_max checked (H : bytes -> bytes) ple vs uri_path uri_query gunzip inflate key (Root : htree -> Prop) (Sub : bytes -> htree -> Prop),
  (forall x, length (H x) = 32%nat) -> unforgeable H vs key Root Sub ->
  forall (Src : entry -> cel -> request -> response -> Prop) (ops : list http_op) (t : ntree) rq rs canister_id now offset min_version i,
  http_run H ops = Some t ->
  (* every entry came from the constructors, for something the canister certified, and no path uses the segments "<$>" and "<*>" *)
  Forall (fun o => match o with HInsert en => clean_url (path_text (en_path en)) /\ honest H uri_query Src en | _ => True end) ops ->
  (* the canister certified the root hash of this tree, and nothing else *)
  (forall St d, speaks_for umod cap_max ple Root Sub canister_id St -> at_path (certified_data_path canister_id) St (HLeaf d) -> d = http_root_hash H t) ->
  (forall path, path_of uri_path rq path -> ordinary_path path) ->
  verify umod cap_max checked H ple vs uri_path uri_query gunzip inflate rq rs canister_id now offset key min_version = OOk i ->
  i_response i = None ->
  exists hv hd, last_header (bs "IC-Certificate") (rs_headers rs) hv /\ header_from umod cap_max hv = OOk hd /\
  (certificate_collision umod cap_max H Root Sub (h_cert hd) \/
   collision H (preimages H (HLabeled (bs "http_expr") (nhtree H t))) (preimages H (h_tree hd)) \/
   i_version i = 2%N /\
   exists expr path en ce rq0 rs0, last_header (bs "IC-CertificateExpression") (rs_headers rs) expr /\ path_of uri_path rq path /\
     held ops en /\ answers_or_slash ops (en_path en) path /\ Src en ce rq0 rs0 /\
     (collision H [expr] [print_cel ce] \/
      ce = CelSkip /\ en_certification en = certify_skip H /\ expr = print_cel CelSkip)).
Proof.
  intros umod cap ck H ple vs up uq gz df key Root Sub HL UF Src ops t rq rs cid now off mv i R Ho CD OP V NN.
  destruct (skip_entry umod cap ck H ple vs up uq gz df key Root Sub HL UF Src ops t rq rs cid now off mv i R) as (hv & hd & L & Hd & D); try assumption.
  { eapply Forall_impl; [|exact Ho]. intros [en|en|] X; try exact I. destruct X as (C & ce & q & r & S & M & T & _). split; [exact C|]. exists ce, q, r. auto. }
  exists hv, hd. split; [exact L|]. split; [exact Hd|]. destruct D as [D|[D|(V2 & expr & path & LE & PO & D)]]; [auto|auto|]. right; right. split; [exact V2|].
  destruct (D (OP _ PO)) as (en & ce & rq0 & rs0 & Sr & He & Ma & An & D'). exists expr, path, en, ce, rq0, rs0. split; [exact LE|]. split; [exact PO|]. split; [exact He|]. split; [exact An|]. split; [exact Sr|].
  destruct D' as [C|[-> E]]; [left; exact C|]. right. split; [reflexivity|]. split; [|exact E]. inversion Ma. reflexivity.
Qed.
Print Assumptions C94_skip_only_where_certified_partial.

Lemma put_clean umod cs H uq glob calls f k x : (0 < cs)%N -> Forall plain_call calls -> Forall (plain_urls umod uq) calls ->
  (forall f c u, In c calls -> In u (call_names f c) -> clean_url u) ->
  (exists c, In c calls /\ call_puts cs H uq glob c f k x) ->
  clean_url (path_text (en_path (ca_entry x))) /\ exists ce rq0 rs0, router_made umod cs H uq glob calls (ca_entry x) ce rq0 rs0 /\ made H uq ce rq0 rs0 (en_certification (ca_entry x)) /\ Forall token (cel_names ce).
Proof.
  intros CS PC PU CLN w. destruct (put_made umod cs H uq glob calls f k x CS PC PU w) as (ce & rq0 & rs0 & M & P & T & _).
  split; [|exists ce, rq0, rs0; auto]. destruct M as (f' & k' & x' & url & names & W & E1 & E2 & _). rewrite E2.
  assert (CU : clean_url (k_path k')).
  { destruct W as (c' & I' & J). destruct (history_name cs H uq glob calls f' k' x' CS) as (c2 & I2 & J2); [exists c'; auto|exact (CLN f' c2 _ I2 J2)]. }
  destruct f'; exact CU.
Qed.
(** A canister whose tree is an asset router's never has responses accepted without certification. *)
Theorem C94_router_never_skips :
  forall umod cap_max checked (H : bytes -> bytes) ple vs uri_path uri_query gunzip inflate key (Root : htree -> Prop) (Sub : bytes -> htree -> Prop),
  (forall x, length (H x) = 32%nat) -> unforgeable H vs key Root Sub ->
  forall cs glob (calls : list call) rq rs canister_id now offset min_version i,
  (0 < cs)%N -> Forall any_order calls -> Forall plain_call calls -> Forall (plain_urls umod uri_query) calls ->
  (forall f c u, In c calls -> In u (call_names f c) -> clean_url u) ->
  let st := run_calls cs H uri_query glob calls router_new in
  (forall St d, speaks_for umod cap_max ple Root Sub canister_id St -> at_path (certified_data_path canister_id) St (HLeaf d) -> d = router_root_hash H st) ->
  (forall path, path_of uri_path rq path -> ordinary_path path) ->
  verify umod cap_max checked H ple vs uri_path uri_query gunzip inflate rq rs canister_id now offset key min_version = OOk i ->
  i_response i <> None \/
  exists hv hd, last_header (bs "IC-Certificate") (rs_headers rs) hv /\ header_from umod cap_max hv = OOk hd /\
  (certificate_collision umod cap_max H Root Sub (h_cert hd) \/
   collision H (preimages H (HLabeled (bs "http_expr") (nhtree H (r_tree st)))) (preimages H (h_tree hd)) \/
   exists expr, last_header (bs "IC-CertificateExpression") (rs_headers rs) expr /\ collision H [expr] router_expressions).
Proof.
  intros umod cap ck H ple vs up uq gz df key Root Sub HL UF cs glob calls rq rs cid now off mv i CS O PC PU CLN st CD OP V.
  destruct (i_response i) as [v|] eqn:NN; [left; intro Z; discriminate Z|right].
  assert (S := run_calls_steps cs H uq glob CS calls O router_new (new_tok H)). fold st in S.
  destruct (steps_history H (fun e => clean_url (path_text (en_path e)) /\ exists ce rq0 rs0, router_made umod cs H uq glob calls e ce rq0 rs0 /\ made H uq ce rq0 rs0 (en_certification e) /\
    Forall token (cel_names ce)) _ _ _ _ _ _ ltac:(intros f k x w; exact (put_clean umod cs H uq glob calls f k x CS PC PU CLN w)) S) as (ops & RUN & HON).
  { exists []. split; [reflexivity|constructor]. }
  destruct (skip_entry umod cap ck H ple vs up uq gz df key Root Sub HL UF (router_made umod cs H uq glob calls) ops (r_tree st) rq rs cid now off mv i RUN HON CD V NN) as (hv & hd & L & Hd & D).
  destruct D as [D|[D|(V2 & expr & path & LE & PO & D)]]; [exists hv, hd; auto|exists hv, hd; auto|].
  exists hv, hd. split; [exact L|]. split; [exact Hd|]. right; right. exists expr. split; [exact LE|].
  destruct (D (OP _ PO)) as (en & ce & rq0 & rs0 & MG & _ & _ & _ & [C|[E _]]).
  - destruct MG as (f & k & x & url & names & _ & _ & _ & -> & _ & _ & _ & _ & IN). destruct C as (a & b & A & B & C). exists a, b. split; [exact A|]. split; [|exact C]. destruct B as [<-|[]]. exact (in_map (fun n => print_cel (get_expression n)) _ _ IN).
  - exfalso. destruct MG as (f & k & x & url & names & _ & _ & _ & -> & _). discriminate E.
Qed.
Print Assumptions C94_router_never_skips.
