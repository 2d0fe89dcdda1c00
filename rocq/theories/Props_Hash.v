(** Properties C25-C29: representation independent hash, request and response hashes. *)
From Coq Require Import List Arith NArith Lia Bool Permutation.
From Verif Require Import Bytes Sha256 HashTreeSpec Leb128 RiHash RiHashProofs Text HttpTypes HttpHash HttpSpec.
Import ListNotations.

(** C25 *)
Theorem C25_ri_hash_ignores_order :
  forall (H : bytes -> bytes) (m1 m2 : list (bytes * value)), Permutation m1 m2 -> ri_hash H m1 = ri_hash H m2.
Proof. intros H m1 m2 P. apply ri_hash_perm. exact P. Qed.
Print Assumptions C25_ri_hash_ignores_order.

(** C26 *)
Theorem C26_ri_hash_is_binding :
  forall (H : bytes -> bytes) (m1 m2 : list (bytes * value)),
  (forall x, length (H x) = 32) ->
  Forall (fun kv => scalar (snd kv)) m1 -> Forall (fun kv => scalar (snd kv)) m2 ->
  ri_hash H m1 = ri_hash H m2 ->
  Permutation (plain m1) (plain m2) \/ collision H (ri_messages H m1) (ri_messages H m2).
Proof. intros. apply ri_binding; assumption. Qed.
Print Assumptions C26_ri_hash_is_binding.

Lemma same_name_lower a b : same_name a b <-> lower a = lower b.
Proof.
  unfold same_name, lower. split.
  - induction 1 as [|x y a b X F IH]; simpl; congruence.
  - revert b. induction a as [|x a IH]; intros [|y b] E; try discriminate; constructor; simpl in E; injection E; auto.
Qed.
Lemma eq_nocase_spec a b : eq_nocase a b = true <-> same_name a b.
Proof. rewrite eq_nocase_eq. symmetry. apply same_name_lower. Qed.
Lemma eq_nocase_false a b : eq_nocase a b = false <-> ~ same_name a b.
Proof. rewrite <- eq_nocase_spec. destruct (eq_nocase a b); split; congruence. Qed.
Lemma listed_spec l n : listed l n = true <-> named_in l n.
Proof.
  unfold listed, named_in. rewrite existsb_exists. split; intros (x & I & E); exists x; split; auto; apply eq_nocase_spec; exact E.
Qed.
Lemma headers_filter_spec c n : headers_filter c n = true <-> selected c n.
Proof.
  destruct c as [l|l]; simpl; [apply listed_spec|]. rewrite <- listed_spec. destruct (listed l n); simpl; split; congruence.
Qed.
Lemma certificate_of_none hs o n v : ~ same_name n (bs "IC-Certificate") -> certificate_of hs o -> certificate_of ((n, v) :: hs) o.
Proof.
  intros N C. destruct o as [w|]; simpl in *; [|constructor; auto].
  destruct C as (a & m & b & -> & C). exists ((n, v) :: a), m, b. auto.
Qed.
Lemma filter_loop_spec c hs : forall cert,
  picks (covered c) hs (fst (filter_loop c hs cert)) /\
  (exists o, certificate_of hs o /\ snd (filter_loop c hs cert) = match o with Some v => Some v | None => cert end).
Proof.
  induction hs as [|[n v] hs IH]; intro cert; cbn [filter_loop].
  - split; [constructor|]. exists None. split; [constructor|reflexivity].
  - destruct (eq_nocase n certificate_header_name) eqn:E.
    + apply eq_nocase_spec in E. destruct (IH (Some v)) as [A (o & B & C)]. split.
      * apply picks_skip; [|exact A]. intros [X _]. auto.
      * destruct o as [w|].
        -- destruct B as (a & m & b & -> & B). exists (Some w). split; [|exact C]. exists ((n, v) :: a), m, b. auto.
        -- exists (Some v). split; [|exact C]. exists [], n, hs. auto.
    + apply eq_nocase_false in E. destruct (IH cert) as [A (o & B & C)].
      destruct (filter_loop c hs cert) as [out cert'] eqn:L. cbn [fst snd] in *.
      assert (G : certificate_of ((n, v) :: hs) o) by (apply certificate_of_none; assumption).
      destruct (eq_nocase n cert_expr_header_name) eqn:F; [|destruct (headers_filter c n) eqn:G']; cbn [fst snd];
        (split; [|exists o; auto]).
      * apply eq_nocase_spec in F. apply picks_take; [split; auto|exact A].
      * apply headers_filter_spec in G'. apply picks_take; [split; auto|exact A].
      * apply picks_skip; [|exact A]. intros [_ [X|X]]; [apply eq_nocase_false in F; auto|].
        apply headers_filter_spec in X. congruence.
Qed.
Lemma picks_fun P hs o1 o2 : picks P hs o1 -> picks P hs o2 -> o1 = o2.
Proof.
  intro A. revert o2. induction A; intros o2 B; inversion B; subst; try contradiction; try reflexivity; [f_equal|]; auto.
Qed.
Lemma picks_lower P hs o : picks P hs o -> Forall (fun h => exists h0, In h0 hs /\ fst h = lower (fst h0)) o.
Proof.
  induction 1 as [|n v hs out Pn A IH|n v hs out Pn A IH].
  - constructor.
  - constructor; [exists (n, v); simpl; auto|]. eapply Forall_impl; [|exact IH]. intros h (h0 & I & E). exists h0. simpl; auto.
  - eapply Forall_impl; [|exact IH]. intros h (h0 & I & E). exists h0. simpl; auto.
Qed.
Lemma lower_colon b : lower_byte b = ":"%byte -> b = ":"%byte.
Proof. destruct b; vm_compute; congruence. Qed.
Lemma picks_no_pseudo P hs o : picks P hs o -> no_pseudo hs -> no_pseudo o.
Proof.
  intros A B. apply picks_lower in A. unfold no_pseudo in *. rewrite Forall_forall in *.
  intros h I. destruct (A h I) as (h0 & I0 & E). rewrite E. specialize (B _ I0).
  destruct (fst h0) as [|b r]; simpl; [exact Logic.I|]. intro X. apply B, lower_colon, X.
Qed.
Lemma plain_headers hs : plain (map (fun h => (fst h, VString (snd h))) hs) = hs.
Proof. unfold plain. rewrite map_map. rewrite <- (map_id hs) at 2. apply map_ext. intros [a b]; reflexivity. Qed.
Lemma plain_app a b : plain (a ++ b) = plain a ++ plain b.
Proof. apply map_app. Qed.
Lemma scalar_headers hs : Forall (fun kv : bytes * value => scalar (snd kv)) (map (fun h : bytes * bytes => (fst h, VString (snd h))) hs).
Proof. apply Forall_map. apply Forall_forall. intros; exact I. Qed.
Lemma no_pseudo_in hs k v : no_pseudo hs -> In (":"%byte :: k, v) hs -> False.
Proof. unfold no_pseudo. rewrite Forall_forall. intros F X. specialize (F _ X). simpl in F. congruence. Qed.
(** a pseudo entry is found in the other list *)
Lemma pseudo_unique (hs1 hs2 : list (bytes * bytes)) k v1 v2 :
  no_pseudo hs2 -> Permutation (hs1 ++ [(":"%byte :: k, v1)]) (hs2 ++ [(":"%byte :: k, v2)]) -> v1 = v2 /\ Permutation hs1 hs2.
Proof.
  intros N P. assert (X : In (":"%byte :: k, v1) (hs2 ++ [(":"%byte :: k, v2)])).
  { eapply Permutation_in; [exact P|]. apply in_or_app. right. left. reflexivity. }
  apply in_app_or in X. destruct X as [X|[X|[]]]; [exfalso; eapply no_pseudo_in; eassumption|].
  injection X as <-. split; [reflexivity|]. eapply Permutation_app_inv_r. exact P.
Qed.
Lemma hash_pair_inj (H : bytes -> bytes) a b c d : (forall x, length (H x) = 32) -> H a ++ b = H c ++ d -> H a = H c /\ b = d.
Proof. intros HL E. apply app_inj_len in E; [exact E|]. rewrite !HL. reflexivity. Qed.

(** C27 *)
Theorem C27_response_hash_covers :
  forall (H : bytes -> bytes) (c : response_cert) (r1 r2 : response) (hs1 hs2 : list (bytes * bytes)),
  (forall x, length (H x) = 32) ->
  no_pseudo (rs_headers r1) -> no_pseudo (rs_headers r2) ->
  picks (covered c) (rs_headers r1) hs1 -> picks (covered c) (rs_headers r2) hs2 ->
  response_hash H r1 c None = response_hash H r2 c None ->
  (rs_status r1 = rs_status r2 /\ rs_body r1 = rs_body r2 /\ Permutation hs1 hs2) \/
  collision H (response_messages H r1 hs1) (response_messages H r2 hs2).
Proof.
  intros H c r1 r2 hs1 hs2 HL N1 N2 K1 K2 E.
  assert (F1 : fst (filter_response_headers r1 c) = hs1) by (eapply picks_fun; [apply filter_loop_spec|exact K1]).
  assert (F2 : fst (filter_response_headers r2 c) = hs2) by (eapply picks_fun; [apply filter_loop_spec|exact K2]).
  unfold response_hash in E. rewrite F1, F2 in E. unfold response_headers_hash, status_entries in E.
  change status_pseudo_header with (bs ":ic-cert-status") in E. unfold response_messages.
  set (m1 := map (fun h => (fst h, VString (snd h))) hs1 ++ [(bs ":ic-cert-status", VNumber (rs_status r1))]) in *.
  set (m2 := map (fun h => (fst h, VString (snd h))) hs2 ++ [(bs ":ic-cert-status", VNumber (rs_status r2))]) in *.
  destruct (bytes_eq_dec (ri_hash H m1 ++ H (rs_body r1)) (ri_hash H m2 ++ H (rs_body r2))) as [D|D];
    [|right; eexists; eexists; split; [left; reflexivity|]; split; [left; reflexivity|]; split; assumption].
  apply hash_pair_inj in D; [|exact HL]. destruct D as [D1 D2]. fold (ri_hash H m1) in D1. fold (ri_hash H m2) in D1.
  destruct (bytes_eq_dec (rs_body r1) (rs_body r2)) as [B|B];
    [|right; exists (rs_body r1), (rs_body r2); simpl; auto].
  destruct (ri_binding H m1 m2 HL) as [P|C].
  - apply Forall_app. split; [apply scalar_headers|repeat constructor].
  - apply Forall_app. split; [apply scalar_headers|repeat constructor].
  - exact D1.
  - left. unfold m1, m2 in P. rewrite !plain_app, !plain_headers in P.
    change (bs ":ic-cert-status") with (":"%byte :: bs "ic-cert-status") in P. cbn [plain map fst snd scalar_bytes] in P.
    apply pseudo_unique in P; [|eapply picks_no_pseudo; eassumption]. destruct P as [P1 P2].
    apply leb_enc_inj in P1. auto.
  - right. eapply collision_mono; [| |exact C]; intros x X; right; right; exact X.
Qed.
Print Assumptions C27_response_hash_covers.
(** The caller may supply the body hash; supplying the right one changes nothing. *)
Theorem C27_body_hash_override :
  forall (H : bytes -> bytes) c r, response_hash H r c (Some (H (rs_body r))) = response_hash H r c None.
Proof. reflexivity. Qed.
Print Assumptions C27_body_hash_override.
(** The condition on header names is needed: with a header named
    ":ic-cert-status" two responses with different status codes have the same hash. *)
Theorem C27_pseudo_header_confusion :
  let c := HeaderExclusions [] in
  let r1 := mk_response 100 [(bs ":ic-cert-status", bs "e")] (bs "x") in
  let r2 := mk_response 101 [(bs ":ic-cert-status", bs "d")] (bs "x") in
  forall H : bytes -> bytes, rs_status r1 <> rs_status r2 /\ response_hash H r1 c None = response_hash H r2 c None.
Proof.
  intros c r1 r2 H. split; [discriminate|]. unfold response_hash. f_equal. f_equal.
  apply ri_hash_perm_pairs. unfold ri_pairs. apply perm_swap.
Qed.
Print Assumptions C27_pseudo_header_confusion.

(** C28 *)
Lemma filter_request_spec c hs :
  exists o, picks (named_in (rc_headers c)) hs o /\ filtered_request_headers hs c = map (fun h => (fst h, VString (snd h))) o.
Proof.
  induction hs as [|[n v] hs (o & A & B)]; [exists []; split; [constructor|reflexivity]|].
  unfold filtered_request_headers in *. cbn [filter fst].
  destruct (listed (rc_headers c) n) eqn:L.
  - exists ((lower n, v) :: o). split; [apply picks_take; [apply listed_spec; exact L|exact A]|]. simpl. f_equal. exact B.
  - exists o. split; [|exact B]. apply picks_skip; [|exact A]. rewrite <- listed_spec. congruence.
Qed.
Lemma query_param_name_spec f : fragment_name f (query_param_name f).
Proof.
  unfold query_param_name. assert (X := split_on_ne "="%byte f). assert (J := join_split "="%byte f).
  assert (P := split_on_pieces "="%byte f).
  destruct (split_on "="%byte f) as [|p ps]; [congruence|]. inversion P; subst. split; [assumption|].
  destruct ps as [|q ps]; [left; reflexivity|]. right. exists (join ["="%byte] (q :: ps)). reflexivity.
Qed.
Lemma fragment_name_fun f n m : fragment_name f n -> fragment_name f m -> n = m.
Proof.
  intros A B. assert (Q : forall x, fragment_name f x -> query_param_name f = x); [|rewrite <- (Q _ A); auto].
  intros x [F [->|(v & ->)]]; unfold query_param_name; [rewrite split_on_free by exact F|rewrite split_on_app by exact F]; reflexivity.
Qed.
Lemma fragment_covered_spec c f : listed (rc_query c) (query_param_name f) = true <-> fragment_covered c f.
Proof.
  rewrite listed_spec. split.
  - intro X. exists (query_param_name f). split; [apply query_param_name_spec|exact X].
  - intros (n & A & B). rewrite (fragment_name_fun f _ n (query_param_name_spec f) A). exact B.
Qed.
Lemma picks_fragments_filter c fs : picks_fragments (fragment_covered c) fs (filter (fun f => listed (rc_query c) (query_param_name f)) fs).
Proof.
  induction fs as [|f fs IH]; simpl; [constructor|]. destruct (listed (rc_query c) (query_param_name f)) eqn:E.
  - apply pf_take; [apply fragment_covered_spec; exact E|exact IH].
  - apply pf_skip; [|exact IH]. rewrite <- fragment_covered_spec. congruence.
Qed.
Lemma picks_fragments_fun P fs o1 o2 : picks_fragments P fs o1 -> picks_fragments P fs o2 -> o1 = o2.
Proof. intro A. revert o2. induction A; intros o2 B; inversion B; subst; try contradiction; try reflexivity; [f_equal|]; auto. Qed.
Lemma fragments_fun q fs : fragments q fs -> fs = split_on "&"%byte q.
Proof. intros (N & -> & F). symmetry. apply split_join; assumption. Qed.
Lemma picks_fragments_sub P fs o : picks_fragments P fs o -> Forall P o /\ incl o fs.
Proof.
  induction 1 as [|f fs o Pf A [I1 I2]|f fs o Pf A [I1 I2]]; split; auto.
  - apply incl_refl.
  - intros x [->|X]; [left; reflexivity|right; apply I2, X].
  - intros x X. right. apply I2, X.
Qed.
Lemma covered_query_spec c q o : covered_query c q o ->
  match q with Some q => exists l, o = Some l /\ join ["&"%byte] l = filtered_query q c /\
       Forall (fragment_covered c) l /\ Forall (fun f => ~ In "&"%byte f) l | None => o = None end.
Proof.
  destruct q as [q|], o as [l|]; simpl; try tauto. intros (fs & A & B). exists l. split; [reflexivity|].
  destruct (picks_fragments_sub _ _ _ B) as [S1 S2].
  assert (X := A). destruct X as (_ & _ & X). apply fragments_fun in A. subst fs.
  rewrite (picks_fragments_fun _ _ _ _ B (picks_fragments_filter c _)) at 1. split; [reflexivity|].
  split; [exact S1|]. rewrite Forall_forall in *. auto.
Qed.
(** When no certified query parameter is the empty string the joined string determines the fragments. *)
Lemma join_fragments_inj c l1 l2 : ~ In [] (rc_query c) ->
  Forall (fragment_covered c) l1 -> Forall (fun f => ~ In "&"%byte f) l1 ->
  Forall (fragment_covered c) l2 -> Forall (fun f => ~ In "&"%byte f) l2 ->
  join ["&"%byte] l1 = join ["&"%byte] l2 -> l1 = l2.
Proof.
  intros NE C1 A1 C2 A2 E.
  assert (Z : ~ fragment_covered c []).
  { intros (n & (F & [<-|(v & X)]) & (x & I & S)).
    - apply NE. inversion S; subst. exact I.
    - destruct n; discriminate. }
  assert (Q : forall l, Forall (fragment_covered c) l -> Forall (fun f => ~ In "&"%byte f) l -> join ["&"%byte] l = [] -> l = []).
  { intros [|p [|q l]] C A J; [reflexivity| |].
    - simpl in J. subst p. inversion C; subst. contradiction.
    - change (p ++ "&"%byte :: join ["&"%byte] (q :: l) = []) in J. destruct p; discriminate. }
  destruct l1 as [|p1 l1].
  - symmetry. apply Q; auto.
  - destruct l2 as [|p2 l2]; [apply Q; auto|].
    apply (f_equal (split_on "&"%byte)) in E. rewrite !split_join in E by (assumption || discriminate). exact E.
Qed.
Lemma pseudo_two (hs1 hs2 t1 t2 : list (bytes * bytes)) k v1 v2 :
  no_pseudo hs2 -> Forall (fun h => fst h <> ":"%byte :: k) t2 ->
  Permutation (hs1 ++ [(":"%byte :: k, v1)] ++ t1) (hs2 ++ [(":"%byte :: k, v2)] ++ t2) -> v1 = v2 /\ Permutation (hs1 ++ t1) (hs2 ++ t2).
Proof.
  intros N T P. assert (X : In (":"%byte :: k, v1) (hs2 ++ [(":"%byte :: k, v2)] ++ t2)).
  { eapply Permutation_in; [exact P|]. apply in_or_app. right. left. reflexivity. }
  apply in_app_or in X. destruct X as [X|[X|X]]; [exfalso; eapply no_pseudo_in; eassumption| |].
  - injection X as <-. split; [reflexivity|]. eapply Permutation_app_inv. exact P.
  - rewrite Forall_forall in T. exfalso. exact (T _ X eq_refl).
Qed.
Theorem C28_request_hash_covers :
  forall (H : bytes -> bytes) (uri_query : bytes -> option (option bytes)) (c : request_cert) (r1 r2 : request)
         (h : bytes) (q1 q2 : option bytes) (hs1 hs2 : list (bytes * bytes)) (fs1 fs2 : option (list bytes)),
  (forall x, length (H x) = 32) -> ~ In [] (rc_query c) ->
  no_pseudo (rq_headers r1) -> no_pseudo (rq_headers r2) ->
  uri_query (rq_url r1) = Some q1 -> uri_query (rq_url r2) = Some q2 ->
  picks (named_in (rc_headers c)) (rq_headers r1) hs1 -> picks (named_in (rc_headers c)) (rq_headers r2) hs2 ->
  covered_query c q1 fs1 -> covered_query c q2 fs2 ->
  request_hash H uri_query r1 c = Some h -> request_hash H uri_query r2 c = Some h ->
  (rq_method r1 = rq_method r2 /\ rq_body r1 = rq_body r2 /\ Permutation hs1 hs2 /\ fs1 = fs2) \/
  collision H (request_messages H r1 hs1 fs1) (request_messages H r2 hs2 fs2).
Proof.
  intros H uq c r1 r2 h q1 q2 hs1 hs2 fs1 fs2 HL NE N1 N2 U1 U2 K1 K2 G1 G2 E1 E2.
  destruct (filter_request_spec c (rq_headers r1)) as (o1 & O1 & F1).
  destruct (filter_request_spec c (rq_headers r2)) as (o2 & O2 & F2).
  assert (o1 = hs1) by (eapply picks_fun; eassumption). assert (o2 = hs2) by (eapply picks_fun; eassumption). subst o1 o2.
  unfold request_hash in E1, E2. rewrite U1 in E1. rewrite U2 in E2. unfold request_entries in *. rewrite F1 in E1. rewrite F2 in E2.
  change method_pseudo_header with (bs ":ic-cert-method") in *. change query_pseudo_header with (bs ":ic-cert-query") in *.
  apply covered_query_spec in G1, G2. unfold request_messages.
  set (m1 := map (fun h => (fst h, VString (snd h))) hs1 ++ [(bs ":ic-cert-method", VString (rq_method r1))] ++
         match fs1 with Some l => [(bs ":ic-cert-query", VString (join ["&"%byte] l))] | None => [] end) in *.
  set (m2 := map (fun h => (fst h, VString (snd h))) hs2 ++ [(bs ":ic-cert-method", VString (rq_method r2))] ++
         match fs2 with Some l => [(bs ":ic-cert-query", VString (join ["&"%byte] l))] | None => [] end) in *.
  assert (X1 : Some (H (ri_hash H m1 ++ H (rq_body r1))) = Some h).
  { rewrite <- E1. unfold m1. destruct q1 as [q1|]; [destruct G1 as (l & -> & J & _); rewrite J; reflexivity|subst fs1; reflexivity]. }
  assert (X2 : Some (H (ri_hash H m2 ++ H (rq_body r2))) = Some h).
  { rewrite <- E2. unfold m2. destruct q2 as [q2|]; [destruct G2 as (l & -> & J & _); rewrite J; reflexivity|subst fs2; reflexivity]. }
  clear E1 E2. assert (E : H (ri_hash H m1 ++ H (rq_body r1)) = H (ri_hash H m2 ++ H (rq_body r2))) by congruence.
  destruct (bytes_eq_dec (ri_hash H m1 ++ H (rq_body r1)) (ri_hash H m2 ++ H (rq_body r2))) as [D|D];
    [|right; eexists; eexists; split; [left; reflexivity|]; split; [left; reflexivity|]; split; assumption].
  apply hash_pair_inj in D; [|exact HL]. destruct D as [D1 D2]. fold (ri_hash H m1) in D1. fold (ri_hash H m2) in D1.
  destruct (bytes_eq_dec (rq_body r1) (rq_body r2)) as [B|B];
    [|right; exists (rq_body r1), (rq_body r2); simpl; auto].
  assert (SC : forall hs r (fs : option (list bytes)), Forall (fun kv : bytes * value => scalar (snd kv))
     (map (fun h => (fst h, VString (snd h))) hs ++ [(bs ":ic-cert-method", VString (rq_method r))] ++
         match fs with Some l => [(bs ":ic-cert-query", VString (join ["&"%byte] l))] | None => [] end)).
  { intros hs r fs. apply Forall_app. split; [apply scalar_headers|]. destruct fs; repeat constructor. }
  destruct (ri_binding H m1 m2 HL) as [P|C].
  - apply SC.
  - apply SC.
  - exact D1.
  - left. unfold m1, m2 in P. rewrite !plain_app, !plain_headers in P.
    change (bs ":ic-cert-method") with (":"%byte :: bs "ic-cert-method") in P. cbn [plain map fst snd scalar_bytes] in P.
    apply pseudo_two in P; [|eapply picks_no_pseudo; eassumption|destruct fs2; repeat constructor; discriminate].
    destruct P as [P1 P2]. split; [exact P1|]. split; [exact B|].
    destruct fs1 as [l1|], fs2 as [l2|]; cbn [plain map fst snd scalar_bytes] in P2.
    + change (bs ":ic-cert-query") with (":"%byte :: bs "ic-cert-query") in P2.
      apply pseudo_unique in P2; [|eapply picks_no_pseudo; eassumption]. destruct P2 as [Q P2]. split; [exact P2|]. f_equal.
      destruct q1 as [q1|]; [|discriminate]. destruct q2 as [q2|]; [|discriminate].
      destruct G1 as (l1' & Y1 & _ & C1 & A1), G2 as (l2' & Y2 & _ & C2 & A2). injection Y1 as <-. injection Y2 as <-.
      eapply join_fragments_inj; eassumption.
    + exfalso. rewrite app_nil_r in P2. eapply (no_pseudo_in hs2); [eapply picks_no_pseudo; eassumption|].
      eapply Permutation_in; [exact P2|]. apply in_or_app. right. left. reflexivity.
    + exfalso. rewrite app_nil_r in P2. eapply (no_pseudo_in hs1); [eapply picks_no_pseudo; [exact K1|assumption]|].
      eapply Permutation_in; [apply Permutation_sym; exact P2|]. apply in_or_app. right. left. reflexivity.
    + rewrite !app_nil_r in P2. split; [exact P2|reflexivity].
  - right. eapply collision_mono; [| |exact C]; intros x X; right; right; exact X.
Qed.
Print Assumptions C28_request_hash_covers.
(** Every request has covered headers and a covered query, so the theorem applies to all requests. *)
Theorem C28_covered_parts_exist :
  forall c r q, exists hs fs, picks (named_in (rc_headers c)) (rq_headers r) hs /\ covered_query c q fs.
Proof.
  intros c r q. destruct (filter_request_spec c (rq_headers r)) as (o & A & _).
  exists o. destruct q as [q|]; [|exists None; split; [exact A|exact I]].
  exists (Some (filter (fun f => listed (rc_query c) (query_param_name f)) (split_on "&"%byte q))). split; [exact A|].
  exists (split_on "&"%byte q). split; [|apply picks_fragments_filter].
  split; [apply split_on_ne|]. split; [symmetry; apply join_split|apply split_on_pieces].
Qed.
Print Assumptions C28_covered_parts_exist.
(** Edge case behind the hypothesis on empty parameter names: with the empty
    name certified, a query with one empty fragment and a query with no covered
    fragment hash alike. *)
Theorem C28_empty_parameter_name :
  let c := mk_request_cert [] [[]] in
  forall H : bytes -> bytes, forall uq, uq (bs "/?") = Some (Some []) -> uq (bs "/?a=b") = Some (Some (bs "a=b")) ->
  request_hash H uq (mk_request (bs "GET") (bs "/?") [] []) c = request_hash H uq (mk_request (bs "GET") (bs "/?a=b") [] []) c.
Proof. intros c H uq A B. unfold request_hash. cbn [rq_url]. rewrite A, B. reflexivity. Qed.
Print Assumptions C28_empty_parameter_name.

(** C29 *)
Theorem C29_header_filter_exact :
  forall (r : response) (c : response_cert),
  picks (covered c) (rs_headers r) (fst (filter_response_headers r c)) /\
  certificate_of (rs_headers r) (snd (filter_response_headers r c)).
Proof.
  intros r c. destruct (filter_loop_spec c (rs_headers r) None) as [A (o & B & C)]. split; [exact A|].
  unfold filter_response_headers. rewrite C. destruct o; exact B.
Qed.
Print Assumptions C29_header_filter_exact.
Lemma eq_nocase_morph a a' b b' : same_name a a' -> same_name b b' -> eq_nocase a b = eq_nocase a' b'.
Proof. rewrite !same_name_lower. unfold eq_nocase. congruence. Qed.
Lemma listed_morph l l' n n' : Forall2 same_name l l' -> same_name n n' -> listed l n = listed l' n'.
Proof.
  intros F N. unfold listed. induction F as [|x y l l' X F IH]; simpl; [reflexivity|].
  rewrite (eq_nocase_morph x y n n' X N), IH. reflexivity.
Qed.
Lemma same_name_refl n : same_name n n.
Proof. apply same_name_lower. reflexivity. Qed.
Theorem C29_header_filter_case_insensitive :
  forall (r r' : response) (c c' : response_cert),
  Forall2 (fun h h' => same_name (fst h) (fst h') /\ snd h = snd h') (rs_headers r) (rs_headers r') ->
  same_response_cert c c' ->
  filter_response_headers r c = filter_response_headers r' c'.
Proof.
  intros r r' c c' F S. unfold filter_response_headers. generalize (@None bytes).
  assert (K : forall n n', same_name n n' -> headers_filter c n = headers_filter c' n').
  { intros n n' N. destruct c, c'; simpl in *; try tauto; rewrite (listed_morph _ _ _ _ S N); reflexivity. }
  induction F as [|[n v] [n' v'] hs hs' [N V] F IH]; intro o; cbn [filter_loop]; [reflexivity|]. cbn [fst snd] in *. subst v'.
  rewrite (eq_nocase_morph n n' _ _ N (same_name_refl certificate_header_name)).
  rewrite (eq_nocase_morph n n' _ _ N (same_name_refl cert_expr_header_name)). rewrite (K n n' N), !IH.
  assert (L : lower n = lower n') by (apply same_name_lower; exact N). rewrite L. reflexivity.
Qed.
Print Assumptions C29_header_filter_case_insensitive.

(** ** Concrete cases *)
(** the crate's own vector *)
Example ri_vector : ri_hash sha256 [(bs "name", VString (bs "foo")); (bs "message", VString (bs "Hello World!")); (bs "answer", VNumber 42)]
  = unhex "b0c6f9191e37dceafdfc47fbfc7e9cc95f21c7b985c2f7ba5855015c2a8f13ac".
Proof. vm_compute. reflexivity. Qed.
Definition ex_resp : response :=
  mk_response 200 [(bs "IC-Certificate", bs "c"); (bs "Content-Type", bs "text/html"); (bs "ic-certificateExpression", bs "e"); (bs "Age", bs "1")] (bs "body").
Example ex_resp_filter : filter_response_headers ex_resp (CertifiedHeaders [bs "CONTENT-type"]) =
  ([(bs "content-type", bs "text/html"); (bs "ic-certificateexpression", bs "e")], Some (bs "c")).
Proof. vm_compute. reflexivity. Qed.
Example ex_resp_no_pseudo : no_pseudo (rs_headers ex_resp).
Proof. repeat constructor; discriminate. Qed.
Example ex_query : filtered_query (bs "q=hello&name=x&b=2&Q=3") (mk_request_cert [] [bs "q"; bs "B"]) = bs "q=hello&b=2&Q=3".
Proof. vm_compute. reflexivity. Qed.
