(** C120: exactly when verify_request_response_pair accepts with version 2, and what it returns. *)
From Coq Require Import List Arith NArith Lia Bool.
From Verif Require Import Bytes Text Utf8 HashTree HashTreeSpec Cbor HttpTypes HttpHash HttpSpec Cel Wildcard WildcardSpec WildcardProofs V2 CertVerify Header Verify VerifySpec Props_Hash Props_Wildcard Props_Verify.
Import ListNotations.
Local Open Scope N_scope.

(** The witness [w] shows that [e] is the expression path for [path]. *)
Definition shown_expression_path (w : htree) (path : bytes) (e : list bytes) : Prop :=
  let r := request_parts path in
  let exact := bs "http_expr" :: r ++ [bs "<$>"] in
  let wildcard v := bs "http_expr" :: v ++ [bs "<*>"] in
  (exists s, lookup_subtree e w = SFound s) /\
  (e = exact \/
   lookup_subtree exact w = SAbsent /\
   exists v, e = wildcard v /\
     (matches v r /\ (forall u, matches u r -> more_specific u v -> lookup_subtree (wildcard u) w = SAbsent) \/
      (* a wildcard with a slash also serves the path without it *)
      v = r ++ [[]] /\ (~ dir r -> lookup_subtree (wildcard r) w = SAbsent))).
(** What is returned. *)
Definition returned (rs : response) (hv : bytes) (c : cel) (o : option verified) : Prop :=
  match c with
  | CelSkip => o = None
  | CelResponseOnly rc | CelFull _ rc =>
      exists hs, picks (covered rc) (rs_headers rs) hs /\
        o = Some (mk_verified (Some (rs_status rs)) (hs ++ [(bs "IC-Certificate", hv)]) (rs_body rs))
  end.

Lemma picks_det P hs o o' : picks P hs o -> picks P hs o' -> o = o'.
Proof. intro A. revert o'. induction A; intros o' B; inversion B; subst; try contradiction; f_equal; auto. Qed.
Lemma might_not p w : path_might_exist p w = false <-> lookup_subtree p w = SAbsent.
Proof. unfold path_might_exist. destruct (lookup_subtree p w); split; intro; try discriminate; reflexivity. Qed.
Lemma does_exist p w : path_exists p w = true <-> exists s, lookup_subtree p w = SFound s.
Proof. unfold path_exists. destruct (lookup_subtree p w); split; intro Z; try discriminate; try (destruct Z; discriminate); eauto. Qed.
Lemma last_app (l : list bytes) x : last_opt (l ++ [x]) = Some x.
Proof. induction l as [|a l IH]; [reflexivity|]. cbn [app]. destruct (l ++ [x]) eqn:E; [destruct l; discriminate E|]. cbn [last_opt] in *. exact IH. Qed.
Lemma slash_list r : request_segments r ->
  more_specific_wildcards_for (path_prefix :: r) (path_prefix :: (r ++ [[]]) ++ [wildcard_terminator]) = Some (if last_is r [] then [] else [r ++ [wildcard_terminator]]).
Proof.
  intro S. unfold more_specific_wildcards_for. rewrite (strip_request r S).
  destruct (list_eq_dec (fun a b => match bytes_eqb_spec a b with ReflectT _ e => left e | ReflectF _ n => right n end) r [[]]) as [->|N].
  { vm_compute. reflexivity. }
  assert (X : strip_path_affixes (path_prefix :: (r ++ [[]]) ++ [wildcard_terminator]) = r ++ [[]]).
  { unfold strip_path_affixes. cbn [first_is]. rewrite bytes_eqb_refl. cbn [tl]. rewrite last_is_snoc, last_is_snoc, bytes_eqb_refl, orb_true_r, removelast_last.
    destruct r as [|a r]; [reflexivity|]. cbn [app first_is]. assert (Z : bytes_eqb a dir_separator = false).
    { apply bytes_eqb_neq. intros ->. destruct r as [|b r]; [apply N; reflexivity|]. apply (segments_first _ S) with (t := b :: r); [cbn; lia|reflexivity]. }
    rewrite Z, andb_false_r. reflexivity. }
  rewrite X. assert (V : wildcard_valid (r ++ [[]]) r = true) by (apply valid_matches; right; reflexivity). rewrite V.
  replace (2 * length r + 2)%nat with (Datatypes.S (Datatypes.S (2 * length r)%nat)) by lia. cbn [msw_loop]. rewrite last_opt_snoc, app_length. cbn [length].
  destruct (Nat.ltb_spec (length r + 1)%nat (length r)) as [Z|_]; [lia|]. cbn [orb].
  destruct (last_is r []) eqn:LD.
  - apply last_is_spec in LD. destruct LD as (q & ->). rewrite last_opt_snoc. reflexivity.
  - assert (Q : opt_bytes_eqb (last_opt r) (Some []) = false). { unfold last_is in LD. destruct (last_opt r); [exact LD|reflexivity]. } rewrite Q. cbn [negb].
    unfold dir_separator. rewrite LD.
    rewrite last_opt_snoc, app_length. cbn [length]. 
    assert (R : (length (removelast r) <= length r)%nat) by (destruct r as [|a r _] using rev_ind; [cbn; lia|rewrite removelast_last, app_length; lia]).
    destruct (Nat.ltb_spec (length r + 1)%nat (length (removelast r) + 1)%nat) as [Z|_]; [lia|]. reflexivity.
Qed.
Theorem C120_expression_path_accepted_iff :
  forall (e : list bytes) (path : bytes) (w : htree), ordinary_path path ->
  (validate_expr_path e path w = true <-> shown_expression_path w path e).
Proof.
  intros e path w NR. unfold validate_expr_path, shown_expression_path. cbv zeta.
  change (bs "http_expr") with path_prefix. change (bs "<$>") with exact_terminator. change (bs "<*>") with wildcard_terminator.
  set (r := request_parts path). assert (S : request_segments r) by (apply parts_segments; exact NR).
  change ((path_prefix :: r) ++ [exact_terminator]) with (path_prefix :: r ++ [exact_terminator]).
  assert (NEQ : forall v, path_prefix :: v ++ [wildcard_terminator] <> path_prefix :: r ++ [exact_terminator]).
  { intros v Z. injection Z as Z. apply app_inj_tail in Z. destruct Z as [_ Z]. discriminate Z. }
  assert (LST : forall v, match more_specific_wildcards_for (path_prefix :: r) (path_prefix :: v ++ [wildcard_terminator]) with
    | None => false | Some l => forallb (fun u => negb (path_might_exist (path_prefix :: u) w)) l && path_exists (path_prefix :: v ++ [wildcard_terminator]) w end = true /\ (matches v r \/ v = r ++ [[]]) <->
    (exists s, lookup_subtree (path_prefix :: v ++ [wildcard_terminator]) w = SFound s) /\
    (matches v r /\ (forall u, matches u r -> more_specific u v -> lookup_subtree (path_prefix :: u ++ [wildcard_terminator]) w = SAbsent) \/
     v = r ++ [[]] /\ (~ dir r -> lookup_subtree (path_prefix :: r ++ [wildcard_terminator]) w = SAbsent))).
  { intro v. assert (M : ~ matches (r ++ [[]]) r) by (intro Z; apply matches_length in Z; rewrite app_length in Z; cbn in Z; lia).
    split.
    - intros [E [MV| ->]].
      + destruct (C35_lists_exactly_the_more_specific r v S MV) as (l & ML & _ & I). change (bs "http_expr") with path_prefix in ML. change (bs "<*>") with wildcard_terminator in ML. rewrite ML in E.
        apply andb_prop in E. destruct E as [E1 E2]. split; [apply does_exist; exact E2|]. left. split; [exact MV|]. intros u U1 U2.
        rewrite forallb_forall in E1. specialize (E1 (u ++ [wildcard_terminator])). apply might_not. apply negb_true_iff. apply E1. apply in_map_iff. exists u. split; [reflexivity|]. apply I. auto.
      + rewrite (slash_list r S) in E. apply andb_prop in E. destruct E as [E1 E2]. split; [apply does_exist; exact E2|]. right. split; [reflexivity|]. intro ND.
        destruct (last_is r []) eqn:L; [apply last_is_spec in L; destruct (ND L)|]. cbn [forallb] in E1. rewrite andb_true_r in E1. apply might_not. apply negb_true_iff. exact E1.
    - intros [EX D]. apply does_exist in EX. destruct D as [(MV & U)|(-> & U)]; (split; [|auto]).
      + destruct (C35_lists_exactly_the_more_specific r v S MV) as (l & ML & _ & I). change (bs "http_expr") with path_prefix in ML. change (bs "<*>") with wildcard_terminator in ML. rewrite ML.
        rewrite EX, andb_true_r. apply forallb_forall. intros x X. apply in_map_iff in X. destruct X as (u & <- & X). apply I in X. apply negb_true_iff. apply might_not. apply U; tauto.
      + rewrite (slash_list r S). rewrite EX, andb_true_r. destruct (last_is r []) eqn:L; [reflexivity|]. cbn [forallb]. rewrite andb_true_r. apply negb_true_iff. apply might_not. apply U. intro Z. apply last_is_spec in Z. rewrite Z in L. discriminate L. }
  assert (VP : forall v, wildcard_valid (path_prefix :: v) (path_prefix :: r) = true <-> matches v r \/ v = r ++ [[]]).
  { intro v. rewrite <- valid_matches. rewrite !wildcard_valid_spec. split.
    - intros [(s & X)|(p & X & (s & Y))].
      + injection X as X. left. exists s. exact X.
      + destruct p as [|b p]; [injection X as X1 X2; discriminate|]. injection X as <- ->. injection Y as Y. right. exists p. split; [reflexivity|]. exists s. exact Y.
    - intros [(s & ->)|(p & -> & (s & ->))]; [left; exists s; reflexivity|]. right. exists (path_prefix :: p). split; [reflexivity|]. exists s. reflexivity. }
  split.
  - intro E. destruct (first_is e path_prefix) eqn:FI; [cbn [negb] in E|discriminate].
    destruct (last_is e exact_terminator || last_is e wildcard_terminator) eqn:LI; [cbn [negb] in E|discriminate].
    destruct (path_eqb_spec e (path_prefix :: r ++ [exact_terminator])) as [EQ|NE].
    + split; [apply does_exist; exact E|]. left. exact EQ.
    + destruct (last_is e exact_terminator) eqn:LE; [discriminate|]. cbn [orb] in LI.
      apply last_is_spec in LI. destruct LI as (v0 & ->). rewrite removelast_last in E.
      destruct (path_might_exist (path_prefix :: r ++ [exact_terminator]) w) eqn:PM; [discriminate|]. apply might_not in PM.
      destruct (wildcard_valid v0 (path_prefix :: r)) eqn:V; [cbn [negb] in E|discriminate].
      assert (SH : exists v, v0 = path_prefix :: v).
      { destruct v0 as [|a v0]; [discriminate FI|]. simpl in FI. apply bytes_eqb_eq in FI. subst a. eauto. }
      destruct SH as (v & ->). apply VP in V. destruct (proj1 (LST v) (conj E V)) as [L1 L2]. split; [exact L1|]. right. split; [exact PM|]. exists v. auto.
  - intros [EX [->|(AB & v & -> & D)]].
    + cbn [first_is]. rewrite bytes_eqb_refl. cbn [negb]. change (path_prefix :: r ++ [exact_terminator]) with ((path_prefix :: r) ++ [exact_terminator]). rewrite last_is_snoc, bytes_eqb_refl. cbn [orb negb].
      destruct (path_eqb_spec ((path_prefix :: r) ++ [exact_terminator]) ((path_prefix :: r) ++ [exact_terminator])) as [_|N]; [|destruct (N eq_refl)]. apply does_exist. exact EX.
    + destruct (proj2 (LST v) (conj EX D)) as [L1 L2]. cbn [first_is]. rewrite bytes_eqb_refl. cbn [negb].
      change (path_prefix :: v ++ [wildcard_terminator]) with ((path_prefix :: v) ++ [wildcard_terminator]) at 1 2. rewrite !last_is_snoc. rewrite bytes_eqb_refl, orb_true_r. cbn [negb].
      destruct (path_eqb_spec (path_prefix :: v ++ [wildcard_terminator]) (path_prefix :: r ++ [exact_terminator])) as [Z|_]; [destruct (NEQ v Z)|].
      change (path_prefix :: v ++ [wildcard_terminator]) with ((path_prefix :: v) ++ [wildcard_terminator]) at 1. rewrite last_is_snoc. assert (Q : bytes_eqb wildcard_terminator exact_terminator = false) by reflexivity. rewrite Q.
      apply might_not in AB. rewrite AB. change (path_prefix :: v ++ [wildcard_terminator]) with ((path_prefix :: v) ++ [wildcard_terminator]) at 1. rewrite removelast_last. rewrite (proj2 (VP v) L2). cbn [negb]. exact L1.
Qed.
Lemma returned_iff rs hv c o : last_header (bs "IC-Certificate") (rs_headers rs) hv -> (shown_response c rs o <-> returned rs hv c o).
Proof.
  intro LH. assert (G : forall rc, (exists ch, snd (filter_response_headers rs rc) = Some ch /\
      o = Some (mk_verified (Some (rs_status rs)) (fst (filter_response_headers rs rc) ++ [(certificate_header_name, ch)]) (rs_body rs))) <->
      exists hs, picks (covered rc) (rs_headers rs) hs /\ o = Some (mk_verified (Some (rs_status rs)) (hs ++ [(bs "IC-Certificate", hv)]) (rs_body rs))).
  { intro rc. destruct (C29_header_filter_exact rs rc) as [X Y]. assert (SF : snd (filter_response_headers rs rc) = Some hv).
    { destruct (snd (filter_response_headers rs rc)) as [ch|].
      - apply last_header_fun in Y. apply last_header_fun in LH. congruence.
      - apply no_header_fun in Y. apply last_header_fun in LH. congruence. }
    split.
    - intros (ch & Z & ->). rewrite SF in Z. injection Z as <-. eexists. split; [exact X|reflexivity].
    - intros (hs & P & ->). rewrite (picks_det _ _ _ _ P X). exists hv. auto. }
  destruct c as [|rc|qc rc]; [cbn; tauto|apply G|apply G].
Qed.

Theorem C120_v2_accepted_iff :
  forall umod cap_max checked (H : bytes -> bytes) ple vs uri_path uri_query gunzip inflate rq rs canister_id now offset key min_version i,
  (forall path, path_of uri_path rq path -> ordinary_path path) ->
  (verify umod cap_max checked H ple vs uri_path uri_query gunzip inflate rq rs canister_id now offset key min_version = OOk i /\ i_version i = 2 <->
   exists hv hd expr e c path,
     last_header (bs "IC-Certificate") (rs_headers rs) hv /\ header_from umod cap_max hv = OOk hd /\ h_version hd = 2 /\ min_version <= 2 /\
     last_header (bs "IC-CertificateExpression") (rs_headers rs) expr /\ cel_of_text expr = Some c /\ h_expr_path hd = Some e /\
     path_of uri_path rq path /\
     verify_certificate umod cap_max checked H ple vs (h_cert hd) canister_id key now offset = OOk tt /\
     lookup_path (certified_data_path canister_id) (c_tree (h_cert hd)) = Found (digest H (h_tree hd)) /\
     shown_expression_path (h_tree hd) path e /\
     shown_entry H uri_query (h_tree hd) e expr c rq rs /\
     i_version i = 2 /\ returned rs hv c (i_response i)).
Proof.
  intros umod cap ck H ple vs up uq gz df rq rs cid now off key mv i ORD. rewrite verify_v2_spec. split.
  - intros (hv & hd & expr & e & c & A1 & A2 & A3 & A4 & A5 & A6 & A7 & A8).
    apply (v2_spec umod cap ck H ple vs up uq rq rs cid now off _ _ _ (H expr) expr key i eq_refl) in A8.
    destruct A8 as ((path & GP & V) & VC & VT & SE & SR & VV). apply C63_request_path_exact in GP. exists hv, hd, expr, e, c, path.
    do 9 (split; [assumption|]). split; [apply validate_tree_spec; exact VT|]. split; [apply C120_expression_path_accepted_iff; [apply ORD; exact GP|exact V]|]. split; [exact SE|]. split; [exact VV|]. apply returned_iff; assumption.
  - intros (hv & hd & expr & e & c & path & A1 & A2 & A3 & A4 & A5 & A6 & A7 & GP & VC & VT & SP & SE & VV & R). exists hv, hd, expr, e, c. do 7 (split; [assumption|]).
    apply (v2_spec umod cap ck H ple vs up uq rq rs cid now off _ _ _ (H expr) expr key i eq_refl). assert (GP' := GP). apply C63_request_path_exact in GP.
    split; [exists path; split; [exact GP|]; apply C120_expression_path_accepted_iff; [apply ORD; exact GP'|exact SP]|]. split; [exact VC|]. split; [apply validate_tree_spec; exact VT|]. split; [exact SE|]. split; [|exact VV]. apply (returned_iff rs hv c _ A1). exact R.
Qed.
Print Assumptions C120_v2_accepted_iff.

(** A request meeting the hypothesis, accepted (Props_Verify.v [ex_v2_accepted]). *)
Example ex_ordinary : forall path, path_of ex_uri ex_rq path -> ordinary_path path.
Proof.
  intros path P. apply C63_request_path_exact in P. assert (E : get_path ex_uri ex_rq = OOk (bs "/a")) by (vm_compute; reflexivity). rewrite E in P. injection P as <-.
  split; intros q Z; change (request_parts (bs "/a")) with ([] ++ [bs "a"]) in Z; apply app_inj_tail in Z; destruct Z as [_ Z]; discriminate Z.
Qed.
