(** Properties C34-C37: wildcard and expression paths. *)
From Coq Require Import List Arith NArith Lia Bool Sorted.
From Verif Require Import Bytes Text HashTree HashTreeSpec HashTreeProofs HashTreeSpecProofs Props_HashTree HttpTypes Wildcard WildcardSpec WildcardProofs V2.
Import ListNotations.

(** C34: the loop of more_specific_wildcards_for ends after at most
    2 * (number of request segments) + 2 rounds, whatever the two paths are. *)
Theorem C34_more_specific_wildcards_terminates :
  forall requested responding : list bytes,
  exists l, more_specific_wildcards_for requested responding = Some l /\ length l <= 2 * length requested + 1.
Proof.
  intros rq rs. unfold more_specific_wildcards_for. set (q := strip_path_affixes rq). set (w0 := strip_path_affixes rs).
  assert (Lq : length q <= length rq).
  { unfold q, strip_path_affixes.
    assert (A : forall p : list bytes, length (tl p) <= length p) by (intros [|]; simpl; lia).
    assert (B : forall p : list bytes, length (removelast p) <= length p).
    { intro p. destruct p as [|a p] using rev_ind; [simpl; lia|]. rewrite removelast_last, app_length. lia. }
    set (p1 := if first_is rq path_prefix then tl rq else rq).
    assert (length p1 <= length rq) by (unfold p1; destruct (first_is rq path_prefix); auto).
    set (p2 := if last_is p1 exact_terminator || last_is p1 wildcard_terminator then removelast p1 else p1).
    assert (length p2 <= length p1) by (unfold p2; destruct (last_is p1 exact_terminator || last_is p1 wildcard_terminator); auto).
    destruct ((1 <? length p2) && first_is p2 dir_separator); [specialize (A p2)|]; lia. }
  destruct (wildcard_valid w0 q) eqn:V.
  - apply valid_matches in V. destruct V as [M| ->].
    + destruct (loop_ok q w0 (2 * length q + 2) M ltac:(lia)) as (l & E & L & _). rewrite E. eexists. split; [reflexivity|]. rewrite map_length. lia.
    + destruct (loop_slash q (2 * length q + 2) ltac:(lia)) as (l & E & L). rewrite E. eexists. split; [reflexivity|]. rewrite map_length. destruct L as [->| ->]; simpl; lia.
  - destruct (loop_ok q [] (2 * length q + 2) (matches_nil q) ltac:(lia)) as (l & E & L & _). rewrite E. eexists. split; [reflexivity|]. rewrite map_length. lia.
Qed.
Print Assumptions C34_more_specific_wildcards_terminates.

Lemma segments_first r : request_segments r -> 1 < length r -> forall t, r <> [] :: t.
Proof.
  intros (p & F & E & _) L t ->. destruct p as [|a p].
  - destruct E as [E|E]; [discriminate|]. injection E as ->. simpl in L. lia.
  - inversion F; subst. destruct E as [E|E]; injection E as <- _; congruence.
Qed.
Lemma strip_tail p : (1 < length p -> forall t, p <> [] :: t) ->
  (if (1 <? length p) && first_is p dir_separator then tl p else p) = p.
Proof.
  intro N. destruct (1 <? length p) eqn:L; [|reflexivity]. apply Nat.ltb_lt in L. specialize (N L).
  destruct p as [|a p]; [reflexivity|]. simpl. destruct (bytes_eqb_spec a dir_separator) as [->|]; [|reflexivity]. exfalso. exact (N p eq_refl).
Qed.
Lemma segments_no_term r : request_segments r -> last_is r exact_terminator || last_is r wildcard_terminator = false.
Proof.
  intros (p & _ & _ & A & B). destruct (last_is r exact_terminator) eqn:E.
  - apply last_is_spec in E. destruct E as (q & E). exfalso. exact (B q E).
  - destruct (last_is r wildcard_terminator) eqn:E2; [|reflexivity]. apply last_is_spec in E2. destruct E2 as (q & E2). exfalso. exact (A q E2).
Qed.
Lemma strip_request r : request_segments r -> strip_path_affixes (path_prefix :: r) = r.
Proof.
  intro S. unfold strip_path_affixes. change (first_is (path_prefix :: r) path_prefix) with true. cbn [tl].
  rewrite (segments_no_term r S). apply strip_tail. apply segments_first. exact S.
Qed.
Lemma matches_first w r : request_segments r -> matches w r -> 1 < length w -> forall t, w <> [] :: t.
Proof.
  intros S M L t ->. destruct M as [(s & E)|(p & x & s & E1 & E2)].
  - rewrite E in S. apply (segments_first _ S) with (t := t ++ s); [|reflexivity]. rewrite app_length. lia.
  - destruct p as [|a p].
    + injection E1 as ->. simpl in L. lia.
    + injection E1 as <- ->. subst r. apply (segments_first _ S) with (t := p ++ x :: s); [|reflexivity]. rewrite app_length. simpl. lia.
Qed.
Lemma strip_wild w r : request_segments r -> matches w r -> strip_path_affixes (path_prefix :: w ++ [wildcard_terminator]) = w.
Proof.
  intros S M. unfold strip_path_affixes. change (first_is (path_prefix :: w ++ [wildcard_terminator]) path_prefix) with true. cbn [tl].
  rewrite !last_is_snoc, bytes_eqb_refl, orb_true_r, removelast_last. apply strip_tail. eapply matches_first; eassumption.
Qed.

(** C35, as the verifier calls it: paths prefixed with "http_expr". *)
Theorem C35_lists_exactly_the_more_specific :
  forall (r w : list bytes), request_segments r -> matches w r ->
  exists l, more_specific_wildcards_for (bs "http_expr" :: r) (bs "http_expr" :: w ++ [bs "<*>"]) = Some (map (fun p => p ++ [bs "<*>"]) l) /\
  StronglySorted more_specific l /\
  forall v, In v l <-> matches v r /\ more_specific v w.
Proof.
  intros r w S M. unfold more_specific_wildcards_for.
  change (bs "http_expr") with path_prefix. change (bs "<*>") with wildcard_terminator.
  rewrite (strip_request r S), (strip_wild w r S M).
  assert (V : wildcard_valid w r = true) by (apply valid_matches; auto). rewrite V.
  destruct (loop_ok r w (2 * length r + 2) M ltac:(lia)) as (l & E & _ & SS & I). exists l. auto.
Qed.
Print Assumptions C35_lists_exactly_the_more_specific.

(** C35, as the canister calls it: tree paths without prefix.  Here a request
    or wildcard whose first segment is "http_expr" is excluded. *)
Lemma strip_plain r x : (x = exact_terminator \/ x = wildcard_terminator) -> first_is (r ++ [x]) path_prefix = false ->
  (1 < length r -> forall t, r <> [] :: t) -> strip_path_affixes (r ++ [x]) = r.
Proof.
  intros X F N. unfold strip_path_affixes. rewrite F, !last_is_snoc, removelast_last.
  destruct X as [->| ->]; rewrite bytes_eqb_refl, ?orb_true_r; cbn [orb]; apply strip_tail; exact N.
Qed.
Theorem C35_canister_side :
  forall (r w : list bytes), request_segments r -> (forall t, r <> bs "http_expr" :: t) -> matches w r ->
  exists l, more_specific_wildcards_for (r ++ [bs "<$>"]) (w ++ [bs "<*>"]) = Some (map (fun p => p ++ [bs "<*>"]) l) /\
  StronglySorted more_specific l /\
  forall v, In v l <-> matches v r /\ more_specific v w.
Proof.
  intros r w S NP M. unfold more_specific_wildcards_for. change (bs "<$>") with exact_terminator. change (bs "<*>") with wildcard_terminator.
  rewrite (strip_plain r); [|auto| |apply segments_first; exact S].
  2:{ destruct r as [|a r]; [reflexivity|]. simpl. destruct (bytes_eqb_spec a path_prefix) as [->|]; [|reflexivity]. exfalso. exact (NP r eq_refl). }
  rewrite (strip_plain w); [|auto| |eapply matches_first; eassumption].
  2:{ destruct w as [|a w]; [reflexivity|]. simpl. destruct (bytes_eqb_spec a path_prefix) as [->|]; [|reflexivity]. exfalso.
      destruct M as [(s & E)|(p & x & s & E1 & E2)]; [exact (NP _ E)|].
      destruct p as [|b p]; [discriminate|]. injection E1 as <- ->. exact (NP _ E2). }
  assert (V : wildcard_valid w r = true) by (apply valid_matches; auto). rewrite V.
  destruct (loop_ok r w (2 * length r + 2) M ltac:(lia)) as (l & E & _ & SS & I). exists l. auto.
Qed.
Print Assumptions C35_canister_side.
(** Findings: reserved names in the request path break the listing.  A request
    whose first segment is "http_expr" loses it on the canister side; a request
    whose last segment is "<*>" loses it on the verifier side. *)
Theorem C35_reserved_names_refuted :
  more_specific_wildcards_for [bs "http_expr"; bs "a"; bs "<$>"] [[]; bs "<*>"] = Some [[bs "a"; bs "<*>"]] /\
  more_specific_wildcards_for [bs "http_expr"; bs "a"; bs "<*>"] [bs "http_expr"; []; bs "<*>"] = Some [[bs "a"; bs "<*>"]].
Proof. split; reflexivity. Qed.
Print Assumptions C35_reserved_names_refuted.
(** Finding: the acceptance test also accepts "r/" for a request "r" without
    trailing slash, and that path is missing from the listing. *)
Theorem C35_slash_wildcard_missing :
  wildcard_valid [bs "a"; []] [bs "a"] = true /\
  more_specific_wildcards_for [bs "http_expr"; bs "a"] [bs "http_expr"; []; bs "<*>"] = Some [[bs "a"; bs "<*>"]].
Proof. split; reflexivity. Qed.
Print Assumptions C35_slash_wildcard_missing.

(** Request segments of a path: what [request_parts] computes. *)
Lemma request_parts_shape path : exists p, Forall (fun s => s <> [] /\ ~ In "/"%byte s) p /\ (request_parts path = p \/ request_parts path = p ++ [[]]).
Proof.
  exists (filter (fun s => negb (is_nil s)) (split_on "/" path)). split.
  - apply Forall_forall. intros s I. apply filter_In in I. destruct I as [I N]. split; [destruct s; [discriminate|congruence]|].
    assert (F := split_on_pieces "/" path). rewrite Forall_forall in F. auto.
  - unfold request_parts. destruct (ends_with_slash path); [right; reflexivity|left; apply app_nil_r].
Qed.
Lemma last_slash s : ends_with_slash (s ++ bs "/") = true.
Proof. unfold ends_with_slash. rewrite rev_app_distr. reflexivity. Qed.
Lemma split_app_slash s t : split_on "/" (s ++ "/"%byte :: t) = split_on "/" s ++ split_on "/" t.
Proof.
  induction s as [|b s IH]; simpl; [reflexivity|]. destruct (byte_eqb b "/"); [rewrite IH; reflexivity|]. rewrite IH.
  assert (X := split_on_ne "/" s). destruct (split_on "/" s); [congruence|]. reflexivity.
Qed.
Lemma filter_ne (l : list bytes) : Forall (fun s => s <> []) l -> filter (fun s => negb (is_nil s)) l = l.
Proof. induction 1 as [|s l N F IH]; [reflexivity|]. simpl. destruct s; [congruence|]. simpl. rewrite IH. reflexivity. Qed.
(** "/a/b" has segments a, b; "/a/b/" has a, b and the empty segment; "/" has the empty segment. *)
Theorem C37_segments_of_path :
  forall l : list bytes, Forall (fun s => s <> [] /\ ~ In "/"%byte s) l -> l <> [] ->
  request_parts (bs "/" ++ join (bs "/") l) = l /\
  request_parts (bs "/" ++ join (bs "/") l ++ bs "/") = l ++ [[]] /\
  request_parts (bs "/") = [[]].
Proof.
  intros l F N. assert (F1 : Forall (fun s : bytes => s <> []) l) by (eapply Forall_impl; [|exact F]; intros ? [? ?]; assumption).
  assert (F2 : Forall (fun s => ~ In "/"%byte s) l) by (eapply Forall_impl; [|exact F]; intros ? [? ?]; assumption).
  assert (S := split_join "/"%byte l N F2). change (join (bs "/") l) with (join ["/"%byte] l).
  split; [|split; [|reflexivity]].
  - unfold request_parts. change (bs "/" ++ join ["/"%byte] l) with ("/"%byte :: join ["/"%byte] l).
    change (split_on "/" ("/"%byte :: join ["/"%byte] l)) with ([] :: split_on "/" (join ["/"%byte] l)). rewrite S. cbn [filter is_nil negb].
    rewrite filter_ne by exact F1.
    replace (ends_with_slash ("/"%byte :: join ["/"%byte] l)) with false; [apply app_nil_r|].
    symmetry. destruct l as [|x l _] using rev_ind; [congruence|].
    assert (E : exists u, "/"%byte :: join ["/"%byte] (l ++ [x]) = u ++ x).
    { clear. exists (match l with [] => bs "/" | _ => "/"%byte :: join ["/"%byte] l ++ bs "/" end).
      induction l as [|y l IH]; [reflexivity|]. destruct l as [|z l].
      - simpl. rewrite <- app_assoc. reflexivity.
      - change ((y :: z :: l) ++ [x]) with (y :: (z :: l) ++ [x]).
        change (join ["/"%byte] (y :: (z :: l) ++ [x])) with (y ++ "/"%byte :: join ["/"%byte] ((z :: l) ++ [x])).
        rewrite IH. change (join ["/"%byte] (y :: z :: l)) with (y ++ ["/"%byte] ++ join ["/"%byte] (z :: l)).
        cbn [app]. rewrite <- !app_assoc. reflexivity. }
    destruct E as (u & E). rewrite E. apply Forall_app in F. destruct F as [_ F]. inversion F as [|? ? [X1 X2] _]; subst.
    unfold ends_with_slash. rewrite rev_app_distr. destruct x as [|b x _] using rev_ind; [congruence|]. rewrite rev_app_distr. simpl.
    destruct (byte_eqb_spec b "/") as [->|]; [|reflexivity]. exfalso. apply X2. apply in_or_app. right. left. reflexivity.
  - unfold request_parts. rewrite app_assoc, last_slash. f_equal.
    change ((bs "/" ++ join ["/"%byte] l) ++ bs "/") with ([] ++ "/"%byte :: join ["/"%byte] l ++ "/"%byte :: []).
    rewrite !split_app_slash, S. cbn [split_on app filter is_nil negb]. rewrite filter_app, filter_ne by exact F1. simpl. apply app_nil_r.
Qed.
Print Assumptions C37_segments_of_path.
Definition no_reserved_end (path : bytes) : Prop :=
  (forall q, request_parts path <> q ++ [bs "<*>"]) /\ (forall q, request_parts path <> q ++ [bs "<$>"]).
Lemma parts_segments path : no_reserved_end path -> request_segments (request_parts path).
Proof.
  intros [A B]. destruct (request_parts_shape path) as (p & F & E). exists p. split; [|auto].
  eapply Forall_impl; [|exact F]. intros ? [? ?]; assumption.
Qed.

(** C37 *)
Theorem C37_exact_path_accepted_iff :
  forall (p : list bytes) (path : bytes) (w : htree),
  validate_expr_path (p ++ [bs "<$>"]) path w = true <->
  p = bs "http_expr" :: request_parts path /\ exists s, lookup_subtree (p ++ [bs "<$>"]) w = SFound s.
Proof.
  intros p path w. unfold validate_expr_path. change (bs "http_expr") with path_prefix. change (bs "<$>") with exact_terminator.
  rewrite !last_is_snoc, bytes_eqb_refl. cbn [orb negb].
  destruct (path_eqb_spec (p ++ [exact_terminator]) ((path_prefix :: request_parts path) ++ [exact_terminator])) as [E|N].
  - rewrite E. change (first_is ((path_prefix :: request_parts path) ++ [exact_terminator]) path_prefix) with true. cbn [negb].
    apply app_inj_tail in E. destruct E as [E _]. unfold path_exists.
    destruct (lookup_subtree ((path_prefix :: request_parts path) ++ [exact_terminator]) w) as [| |s]; split; try discriminate.
    + intros [_ [s X]]; discriminate.
    + intros [_ [s X]]; discriminate.
    + intros _. split; [exact E|eauto].
    + reflexivity.
  - destruct (negb (first_is (p ++ [exact_terminator]) path_prefix)); (split; [discriminate|]); intros [-> _]; congruence.
Qed.
Print Assumptions C37_exact_path_accepted_iff.

Lemma matches_length u r : matches u r -> length u <= length r.
Proof.
  intros [(s & ->)|(p & x & s & -> & ->)]; rewrite !app_length; simpl; lia.
Qed.
(** C36.  [t] is any well-formed full tree the witness [w] was pruned from. *)
Theorem C36_accepted_path_is_most_specific_partial :
  forall (H : bytes -> bytes) (t w : htree) (e : list bytes) (path : bytes),
  wf t -> full t = true -> prunes H t w -> no_reserved_end path ->
  validate_expr_path e path w = true ->
  (exists s, at_path e t s) /\
  (e = bs "http_expr" :: request_parts path ++ [bs "<$>"] \/
   exists v, e = bs "http_expr" :: v ++ [bs "<*>"] /\
     (matches v (request_parts path) \/ v = request_parts path ++ [[]]) /\
     (forall s, ~ at_path (bs "http_expr" :: request_parts path ++ [bs "<$>"]) t s) /\
     (forall u, matches u (request_parts path) -> more_specific u v -> forall s, ~ at_path (bs "http_expr" :: u ++ [bs "<*>"]) t s)).
Proof.
  intros H t w e path W F P NR E. unfold validate_expr_path in E.
  assert (EX : forall p, path_exists p w = true -> exists s, at_path p t s).
  { intros p X. unfold path_exists in X. generalize (lookup_subtree_sound H p t w W F P). destruct (lookup_subtree p w) as [| |s]; try discriminate.
    intros (c & A & _). eauto. }
  assert (AB : forall p, path_might_exist p w = false -> forall s, ~ at_path p t s).
  { intros p X. unfold path_might_exist in X. destruct (C04_absent_is_sound H t w p W F P) as [_ A].
    destruct (lookup_subtree p w) as [| |s]; try discriminate. exact (proj1 (A eq_refl)). }
  change (bs "http_expr") with path_prefix. change (bs "<$>") with exact_terminator. change (bs "<*>") with wildcard_terminator.
  destruct (first_is e path_prefix) eqn:FI; [cbn [negb] in E|discriminate].
  destruct (last_is e exact_terminator || last_is e wildcard_terminator) eqn:LI; [cbn [negb] in E|discriminate].
  destruct (path_eqb_spec e ((path_prefix :: request_parts path) ++ [exact_terminator])) as [EQ|NE].
  - split; [apply EX; exact E|]. left. exact EQ.
  - destruct (last_is e exact_terminator) eqn:LE; [discriminate|]. cbn [orb] in LI.
    apply last_is_spec in LI. destruct LI as (v0 & ->). rewrite removelast_last in E.
    destruct (path_might_exist ((path_prefix :: request_parts path) ++ [exact_terminator]) w) eqn:PM; [discriminate|].
    destruct (wildcard_valid v0 (path_prefix :: request_parts path)) eqn:V; [cbn [negb] in E|discriminate].
    assert (SH : exists v, v0 = path_prefix :: v).
    { destruct v0 as [|a v0]; [discriminate|]. simpl in FI. apply bytes_eqb_eq in FI. subst a. eauto. }
    destruct SH as (v & ->). assert (V' : wildcard_valid v (request_parts path) = true).
    { apply wildcard_valid_spec. apply wildcard_valid_spec in V. destruct V as [(s & X)|(p & X & (s & Y))].
      - injection X as X. left. exists s. exact X.
      - destruct p as [|b p]; [injection X as X1 X2; discriminate|]. injection X as <- ->. injection Y as Y. right. exists p. split; [reflexivity|]. exists s. exact Y. }
    apply valid_matches in V'.
    destruct (more_specific_wildcards_for (path_prefix :: request_parts path) ((path_prefix :: v) ++ [wildcard_terminator])) as [l|] eqn:ML; [|discriminate].
    apply andb_prop in E. destruct E as [E1 E2]. split; [apply EX; exact E2|]. right. exists v. split; [reflexivity|]. split; [exact V'|].
    split; [exact (AB _ PM)|]. intros u MU SP s A.
    destruct V' as [MV| ->]; [|exfalso; assert (X := matches_length _ _ MU); destruct SP as [SP|[SP _]]; rewrite app_length in SP; simpl in SP; lia].
    destruct (C35_lists_exactly_the_more_specific _ v (parts_segments path NR) MV) as (l' & ML' & _ & I).
    assert (X : Some l = Some (map (fun p => p ++ [bs "<*>"]) l')) by (rewrite <- ML, <- ML'; reflexivity). injection X as ->.
    rewrite forallb_forall in E1. specialize (E1 (u ++ [wildcard_terminator])).
    rewrite in_map_iff in E1. specialize (E1 ltac:(exists u; split; [reflexivity|apply I; auto])). apply negb_true_iff in E1.
    exact (AB _ E1 s A).
Qed.
Print Assumptions C36_accepted_path_is_most_specific_partial.
(** The full claim fails in two cases.  (1) For a request "/a" the wildcard
    "/a/" is accepted as matching, but "/" is accepted too although the tree
    contains the longer "/a/".  *)
Definition hx (t : htree) : htree := HLabeled (bs "http_expr") t.
Theorem C36_slash_wildcard_refuted :
  exists t : htree, wf t /\ full t = true /\
  validate_expr_path [bs "http_expr"; bs "a"; []; bs "<*>"] (bs "/a") t = true /\
  validate_expr_path [bs "http_expr"; []; bs "<*>"] (bs "/a") t = true /\
  (exists s, at_path [bs "http_expr"; bs "a"; []; bs "<*>"] t s) /\
  more_specific [bs "a"; []] [[]].
Proof.
  exists (hx (HFork (HLabeled [] (HLabeled (bs "<*>") (HLeaf [])))
                    (HLabeled (bs "a") (HLabeled [] (HLabeled (bs "<*>") (HLeaf [])))))).
  split. { simpl. repeat split. intros a b [<-|[]] [<-|[]]. reflexivity. }
  split; [reflexivity|]. split; [vm_compute; reflexivity|]. split; [vm_compute; reflexivity|].
  split; [|left; simpl; lia]. exists (HLeaf []).
  apply AtCons with (c := HFork (HLabeled [] (HLabeled (bs "<*>") (HLeaf []))) (HLabeled (bs "a") (HLabeled [] (HLabeled (bs "<*>") (HLeaf []))))); [constructor|].
  apply AtCons with (c := HLabeled [] (HLabeled (bs "<*>") (HLeaf []))); [apply ChRight; constructor|].
  repeat (eapply AtCons; [constructor|]). constructor.
Qed.
Print Assumptions C36_slash_wildcard_refuted.
(** (2) A request whose last segment is literally "<*>" (percent-encoded in the
    URL): that segment is taken for a terminator and dropped, so the matching
    wildcard "/a/" is not looked for and "/" is accepted. *)
Theorem C36_reserved_segment_refuted :
  exists t : htree, wf t /\ full t = true /\
  validate_expr_path [bs "http_expr"; []; bs "<*>"] (bs "/a/<*>") t = true /\
  (exists s, at_path [bs "http_expr"; bs "a"; []; bs "<*>"] t s) /\
  matches [bs "a"; []] (request_parts (bs "/a/<*>")) /\
  more_specific [bs "a"; []] [[]].
Proof.
  exists (hx (HFork (HLabeled [] (HLabeled (bs "<*>") (HLeaf [])))
                    (HLabeled (bs "a") (HLabeled [] (HLabeled (bs "<*>") (HLeaf [])))))).
  split. { simpl. repeat split. intros a b [<-|[]] [<-|[]]. reflexivity. }
  split; [reflexivity|]. split; [vm_compute; reflexivity|].
  split; [|split; [right; exists [bs "a"], (bs "<*>"), []; auto|left; simpl; lia]]. exists (HLeaf []).
  apply AtCons with (c := HFork (HLabeled [] (HLabeled (bs "<*>") (HLeaf []))) (HLabeled (bs "a") (HLabeled [] (HLabeled (bs "<*>") (HLeaf []))))); [constructor|].
  apply AtCons with (c := HLabeled [] (HLabeled (bs "<*>") (HLeaf []))); [apply ChRight; constructor|].
  repeat (eapply AtCons; [constructor|]). constructor.
Qed.
Print Assumptions C36_reserved_segment_refuted.
(** ** Concrete cases *)
Example ex_segments : request_segments [bs "a"; bs "b"; []].
Proof.
  exists [bs "a"; bs "b"]. split; [repeat constructor; discriminate|]. split; [right; reflexivity|].
  split; intros q E; apply (f_equal (@rev bytes)) in E; rewrite rev_app_distr in E; discriminate.
Qed.
Example ex_matches : matches [bs "a"; []] [bs "a"; bs "b"; []].
Proof. right. exists [bs "a"], (bs "b"), [[]]. auto. Qed.
