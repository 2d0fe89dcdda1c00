(** C83, C84: the errors reported by the verifier. *)
From Coq Require Import List Arith NArith Lia Bool Sorted.
From Verif Require Import Bytes Sha256 Text Utf8 HashTree HashTreeSpec Cbor CborSpec Leb128 Base64 HttpTypes HttpHash Cel
  Wildcard WildcardSpec WildcardProofs V2 Props_Wildcard CertVerify CertSpec Props_Cert Header HeaderSpec HeaderProofs Props_Header
  Verify VerifySpec Props_Verify Errors ErrorSpec.
Import ListNotations.

Lemma forget_bind {E A B} (r : res E A) (f : A -> res E B) : forget (rbind r f) = out_bind (forget r) (fun a => forget (f a)).
Proof. destruct r; reflexivity. Qed.
Lemma forget_map {E E' A} (f : E -> E') (r : res E A) : forget (rmap_err f r) = forget r.
Proof. destruct r; reflexivity. Qed.
Lemma forget_with {E A} (e : E) (o : out A) : forget (with_err e o) = o.
Proof. destruct o; reflexivity. Qed.
Lemma bind_ext {A B} (o : out A) (f g : A -> out B) : (forall a, f a = g a) -> out_bind o f = out_bind o g.
Proof. intro E. destruct o; cbn [out_bind]; auto. Qed.

Lemma forget_der key : forget (extract_der_e key) = extract_der key.
Proof.
  unfold extract_der_e, extract_der. cbv zeta. destruct (negb (Nat.eqb (length key) (length der_prefix + key_length))); [reflexivity|].
  destruct (negb (bytes_eqb (firstn (length der_prefix) key) der_prefix)); reflexivity.
Qed.
Lemma forget_sig H vs c key : forget (verify_certificate_signature_e H vs c key) = verify_certificate_signature H vs c key.
Proof.
  unfold verify_certificate_signature_e, verify_certificate_signature. cbv zeta. rewrite forget_bind, forget_der. apply bind_ext. intro pk.
  destruct (vs pk (c_sig c) (ic_state_root_separator ++ digest H (c_tree c))); reflexivity.
Qed.
Lemma forget_deleg umod cap H ple vs d cid root : forget (verify_delegation_e umod cap H ple vs d cid root) = verify_delegation umod cap H ple vs d cid root.
Proof.
  unfold verify_delegation_e, verify_delegation. rewrite forget_bind, forget_with. apply bind_ext. intro dc. destruct (c_deleg dc); [reflexivity|].
  cbv zeta. rewrite forget_bind, forget_sig. apply bind_ext. intro. destruct (lookup_path [bs "subnet"; d_subnet d; bs "canister_ranges"] (c_tree dc)); try reflexivity.
  destruct (Nat.ltb 29 (length cid)); [reflexivity|]. rewrite forget_bind, forget_with. apply bind_ext. intro l.
  destruct (negb (within_ranges ple cid l)); [reflexivity|]. destruct (lookup_path [bs "subnet"; d_subnet d; bs "public_key"] (c_tree dc)); reflexivity.
Qed.
Lemma forget_time ck c now off : forget (verify_certificate_time_e ck c now off) = verify_certificate_time ck c now off.
Proof.
  unfold verify_certificate_time_e, verify_certificate_time. destruct (lookup_path [bs "time"] (c_tree c)); try reflexivity.
  destruct (leb_read v) as [[t r]|]; [|reflexivity]. rewrite forget_bind, forget_with. apply bind_ext. intro mx. rewrite forget_bind, forget_with. apply bind_ext. intro mn.
  destruct (mx <? t)%N; [reflexivity|]. destruct (t <? mn)%N; reflexivity.
Qed.
Lemma forget_cert umod cap ck H ple vs c cid root now off :
  forget (verify_certificate_e umod cap ck H ple vs c cid root now off) = verify_certificate umod cap ck H ple vs c cid root now off.
Proof.
  unfold verify_certificate_e, verify_certificate. rewrite forget_bind, forget_time. apply bind_ext. intro. rewrite forget_bind.
  destruct (c_deleg c) as [d|]; [rewrite forget_deleg|cbn [forget]]; apply bind_ext; intro; apply forget_sig.
Qed.
Lemma forget_path e path t : forget (validate_expr_path_e e path t) = if validate_expr_path e path t then OOk tt else OErr.
Proof.
  unfold validate_expr_path_e, validate_expr_path. destruct (negb (first_is e path_prefix)); [reflexivity|].
  destruct (negb (last_is e exact_terminator || last_is e wildcard_terminator)); [reflexivity|]. cbv zeta.
  destruct (path_eqb e ((path_prefix :: request_parts path) ++ [exact_terminator])); [destruct (path_exists e t); reflexivity|].
  destruct (last_is e exact_terminator); [reflexivity|].
  destruct (path_might_exist ((path_prefix :: request_parts path) ++ [exact_terminator]) t); [reflexivity|].
  destruct (negb (wildcard_valid (removelast e) (path_prefix :: request_parts path))); [reflexivity|].
  destruct (C34_more_specific_wildcards_terminates (path_prefix :: request_parts path) e) as (l & E & _). rewrite E.
  assert (X : forallb (fun w => negb (path_might_exist (path_prefix :: w) t)) l = match first_might_exist l t with Some _ => false | None => true end).
  { clear E. induction l as [|w l IH]; [reflexivity|]. cbn [forallb first_might_exist]. destruct (path_might_exist (path_prefix :: w) t); [reflexivity|exact IH]. }
  rewrite X. destruct (first_might_exist l t); [reflexivity|]. destruct (path_exists e t); reflexivity.
Qed.
Lemma forget_fill {A} slot (d : bytes -> res rv_error A) d' v : (forall v, forget (d v) = d' v) -> forget (fill_e slot d v) = fill slot d' v.
Proof. intro E. unfold fill_e, fill. destruct slot; [reflexivity|]. rewrite forget_bind, E. apply bind_ext. reflexivity. Qed.
Lemma forget_b64 {A} (f : bytes -> out A) v : forget (rbind (decode_b64_e v) (fun b => with_err CborDecodingFailed (f b))) = out_bind (of_opt (b64_dec v)) f.
Proof. unfold decode_b64_e. rewrite forget_bind, forget_with. apply bind_ext. intro. apply forget_with. Qed.
Lemma forget_field umod cap s f : forget (add_field_e umod cap s f) = add_field umod cap s f.
Proof.
  unfold add_field_e, add_field. destruct (header_field f) as [[n v]|]; [|reflexivity].
  destruct (bytes_eqb n (bs "certificate")); [rewrite forget_bind, (forget_fill _ _ (decode_certificate umod cap)); [apply bind_ext; reflexivity|intro; apply forget_b64]|].
  destruct (bytes_eqb n (bs "tree")); [rewrite forget_bind, (forget_fill _ _ (decode_tree umod cap)); [apply bind_ext; reflexivity|intro; apply forget_b64]|].
  destruct (bytes_eqb n (bs "version")); [rewrite forget_bind, (forget_fill _ _ decode_version); [apply bind_ext; reflexivity|intro; apply forget_with]|].
  destruct (bytes_eqb n (bs "expr_path")); [rewrite forget_bind, (forget_fill _ _ (decode_expr_path umod cap)); [apply bind_ext; reflexivity|intro; apply forget_b64]|].
  reflexivity.
Qed.
Lemma forget_fields umod cap fs : forall s, forget (add_fields_e umod cap s fs) = add_fields umod cap s fs.
Proof. induction fs as [|f fs IH]; intro s; [reflexivity|]. cbn [add_fields_e add_fields]. rewrite forget_bind, forget_field. apply bind_ext. exact IH. Qed.
Lemma forget_header umod cap h : forget (header_from_e umod cap h) = header_from umod cap h.
Proof.
  unfold header_from_e, header_from. rewrite forget_bind, forget_fields. apply bind_ext. intro s. destruct (s_cert s); [|reflexivity]. destruct (s_tree s); reflexivity.
Qed.
Lemma forget_get_path up rq : forget (get_path_e up rq) = get_path up rq.
Proof. unfold get_path_e, get_path. destruct (up (rq_url rq)) as [p|]; [|reflexivity]. cbv zeta. destruct (utf8_valid (pct_decode p)); reflexivity. Qed.
Lemma forget_body gz df b enc : forget (decode_body_e gz df b enc) = decode_body gz df b enc.
Proof.
  unfold decode_body_e, decode_body. destruct enc as [e|]; [|reflexivity]. destruct (bytes_eqb e (bs "gzip")); [apply forget_with|].
  destruct (bytes_eqb e (bs "deflate")); [apply forget_with|reflexivity].
Qed.

(** C83: the errors are all that is added; otherwise the verdict is that of [verify]. *)
Theorem C83_same_verdict :
  forall umod cap_max checked H ple vs uri_path uri_query gunzip inflate rq rs canister_id now offset key min_version,
  forget (verify_e umod cap_max checked H ple vs uri_path uri_query gunzip inflate rq rs canister_id now offset key min_version) =
  verify umod cap_max checked H ple vs uri_path uri_query gunzip inflate rq rs canister_id now offset key min_version.
Proof.
  intros umod cap ck H ple vs up uq gz df rq rs cid now off key mv. unfold verify_e, verify.
  destruct (header_get (lower certificate_header_name) (rs_headers rs)) as [hv|]; [|reflexivity].
  rewrite forget_bind, forget_header. apply bind_ext. intro hd. destruct (h_version hd <? mv)%N; [reflexivity|].
  destruct (h_version hd =? 1)%N.
  - unfold v1_verification_e, v1_verification. rewrite forget_bind, forget_map, forget_cert. apply bind_ext. intro.
    rewrite forget_bind, forget_map, forget_get_path. apply bind_ext. intro path. rewrite forget_bind, forget_body. apply bind_ext. intro d.
    destruct (negb (validate_tree H cid (h_cert hd) (h_tree hd))); [reflexivity|]. cbv zeta.
    match goal with |- forget (if ?b then _ else _) = _ => destruct b; reflexivity end.
  - destruct (h_version hd =? 2)%N; [|reflexivity].
    destruct (header_get (lower cert_expr_header_name) (rs_headers rs)) as [expr|]; [|reflexivity]. destruct (h_expr_path hd) as [e|]; [|reflexivity].
    rewrite forget_bind, forget_with. apply bind_ext. intro c. unfold v2_verification_e, v2_verification.
    rewrite forget_bind, forget_map, forget_get_path. apply bind_ext. intro path. rewrite forget_bind, forget_map, forget_cert. apply bind_ext. intro.
    destruct (negb (validate_tree H cid (h_cert hd) (h_tree hd))); [reflexivity|]. rewrite forget_bind, forget_path.
    destruct (validate_expr_path e path (h_tree hd)); [|reflexivity]. cbn [out_bind negb]. cbv zeta.
    destruct c as [|rc|qc rc].
    + destruct (validate_expr_hash e (H expr) (h_tree hd)); reflexivity.
    + cbn [rbind out_bind]. match goal with |- forget (if ?b then _ else _) = _ => destruct b; [|reflexivity] end.
      destruct (snd (filter_response_headers rs rc)); reflexivity.
    + destruct (request_hash H uq rq qc); [|reflexivity]. cbn [of_opt with_err rbind out_bind].
      match goal with |- forget (if ?b then _ else _) = _ => destruct b; [|reflexivity] end.
      destruct (snd (filter_response_headers rs rc)); reflexivity.
Qed.
Print Assumptions C83_same_verdict.

(** ** Expression paths *)
Lemma loop_slash_exact q f : 1 <= f ->
  msw_loop f q (q ++ [[]]) = Some (map (fun p => p ++ [wildcard_terminator]) (if last_is q [] then [] else [q])).
Proof.
  intro F. rewrite msw_loop_unfold. destruct f as [|f]; [lia|]. destruct q as [|x q _] using rev_ind.
  - change (stop [] ([] ++ [[]])) with false. change (next []) with [dir_separator]. rewrite msw_loop_unfold, stop_self. reflexivity.
  - rewrite last_is_snoc. destruct (bytes_eqb_spec x []) as [->|X].
    + unfold stop. rewrite !last_opt_snoc.
      replace (length ((q ++ [[]]) ++ [[]]) <? length (q ++ [[]])) with false by (symmetry; apply Nat.ltb_ge; rewrite !app_length; lia). reflexivity.
    + assert (S1 : stop (q ++ [x]) ((q ++ [x]) ++ [[]]) = false).
      { unfold stop. rewrite !last_opt_snoc. cbn [opt_bytes_eqb]. destruct (bytes_eqb_spec x []); [contradiction|]. rewrite orb_true_r. reflexivity. }
      rewrite S1, next_file by exact X. rewrite msw_loop_unfold.
      assert (S2 : stop (q ++ [[]]) ((q ++ [x]) ++ [[]]) = true).
      { unfold stop. rewrite !last_opt_snoc. cbn [opt_bytes_eqb]. rewrite bytes_eqb_refl.
        replace (length ((q ++ [x]) ++ [[]]) <? length (q ++ [[]])) with false by (symmetry; apply Nat.ltb_ge; rewrite !app_length; simpl; lia). reflexivity. }
      rewrite S2. reflexivity.
Qed.
Lemma not_both_matches r : ~ matches (r ++ [[]]) r.
Proof.
  intros [(s & E)|(p & x & s & E1 & E2)]; apply (f_equal (@length _)) in E || idtac.
  - rewrite !app_length in E. simpl in E. lia.
  - apply app_inj_tail in E1. destruct E1 as [-> _]. apply (f_equal (@length _)) in E2. rewrite app_length in E2. simpl in E2. lia.
Qed.
Lemma dir_last p : dir p <-> last_is p [] = true.
Proof. unfold dir. rewrite last_is_spec. reflexivity. Qed.

(** The wildcards the code tries, in order. *)
Lemma tried_list path v : no_reserved_end path -> wild_ok v path ->
  exists l, more_specific_wildcards_for (path_prefix :: request_parts path) (wild_of v) = Some (map (fun p => p ++ [bs "<*>"]) l) /\
  StronglySorted more_specific l /\ forall u, In u l <-> tried u v path.
Proof.
  intros NR [M| ->].
  - destruct (C35_lists_exactly_the_more_specific _ v (parts_segments path NR) M) as (l & E & S & I). exists l. split; [exact E|]. split; [exact S|].
    intro u. rewrite I. unfold tried. split; [auto|]. intros [X|(_ & -> & _)]; [exact X|]. exfalso. exact (not_both_matches _ M).
  - assert (S := parts_segments path NR). set (r := request_parts path) in *.
    assert (T0 : forall u, tried u (r ++ [[]]) path <-> u = r /\ ~ dir r).
    { intro u. unfold tried. fold r. split.
      - intros [[M SP]|(-> & _ & D)]; [|auto]. exfalso. assert (X := matches_length _ _ M). destruct SP as [SP|[SP _]]; rewrite app_length in SP; simpl in SP; lia.
      - intros [-> D]. right. auto. }
    assert (ST : strip_path_affixes (wild_of (r ++ [[]])) = if list_eq_dec bytes_eq_dec r [[]] then [[]] else r ++ [[]]).
    { unfold strip_path_affixes, wild_of. change (first_is (bs "http_expr" :: (r ++ [[]]) ++ [bs "<*>"]) path_prefix) with true. cbn [tl]. change (bs "<*>") with wildcard_terminator.
      rewrite !last_is_snoc, bytes_eqb_refl, orb_true_r, removelast_last.
      destruct (list_eq_dec _ r [[]]) as [->|N]; [reflexivity|]. apply strip_tail. intros L t Z.
      destruct r as [|a r']; [simpl in L; lia|]. injection Z as -> Z. destruct r' as [|b r']; [contradiction|]. exact (segments_first _ S ltac:(simpl; lia) _ eq_refl). }
    unfold more_specific_wildcards_for. rewrite (strip_request r S), ST.
    destruct (list_eq_dec _ r [[]]) as [E|N].
    + exists []. split; [rewrite E; reflexivity|]. split; [constructor|]. intro u. rewrite T0. split; [intros []|]. intros [_ D]. apply D. rewrite E. exists []. reflexivity.
    + assert (V : wildcard_valid (r ++ [[]]) r = true) by (apply valid_matches; auto). rewrite V, loop_slash_exact by lia.
      exists (if last_is r [] then [] else [r]). split; [reflexivity|]. assert (DL := dir_last r). split.
      * destruct (last_is r []); repeat constructor.
      * intro u. rewrite T0, DL. destruct (last_is r []); cbn [In].
        -- split; [intros []|]. intros [_ X]. congruence.
        -- split; [intros [<-|[]]; split; [reflexivity|congruence]|intros [-> _]; auto].
Qed.
Lemma might_false p t : path_might_exist p t = false <-> lookup_subtree p t = SAbsent.
Proof. unfold path_might_exist. destruct (lookup_subtree p t); split; congruence. Qed.
Lemma exists_false p t : path_exists p t = false <-> forall s, lookup_subtree p t <> SFound s.
Proof. unfold path_exists. destruct (lookup_subtree p t); split; try congruence; try discriminate. intro X. exfalso. exact (X t0 eq_refl). Qed.
Lemma more_specific_asym u v : more_specific u v -> more_specific v u -> False.
Proof. unfold more_specific. intros [A|(A & B & C)] [D|(D & E & F)]; try lia; tauto. Qed.
Lemma first_might l t : StronglySorted more_specific l ->
  match first_might_exist (map (fun p => p ++ [bs "<*>"]) l) t with
  | Some w => exists u, w = wild_of u /\ In u l /\ lookup_subtree (wild_of u) t <> SAbsent /\
      forall u', In u' l -> more_specific u' u -> lookup_subtree (wild_of u') t = SAbsent
  | None => forall u, In u l -> lookup_subtree (wild_of u) t = SAbsent
  end.
Proof.
  induction 1 as [|u l S IH F]; cbn [map first_might_exist]; [intros ? []|]. change (path_prefix :: u ++ [bs "<*>"]) with (wild_of u).
  destruct (path_might_exist (wild_of u) t) eqn:M.
  - exists u. split; [reflexivity|]. split; [left; reflexivity|]. split; [intro X; apply might_false in X; congruence|].
    intros u' [<-|I] SP; [destruct (more_specific_asym _ _ SP SP)|]. rewrite Forall_forall in F. destruct (more_specific_asym _ _ SP (F _ I)).
  - apply might_false in M. destruct (first_might_exist (map (fun p => p ++ [bs "<*>"]) l) t) as [w|].
    + destruct IH as (x & -> & I & N & B). exists x. split; [reflexivity|]. split; [right; exact I|]. split; [exact N|].
      intros u' [<-|J] SP; [exact M|exact (B _ J SP)].
    + intros x [<-|I]; [exact M|exact (IH _ I)].
Qed.
Lemma valid_cons v r : wildcard_valid (path_prefix :: v) (path_prefix :: r) = wildcard_valid v r.
Proof.
  assert (A : forall b, (b = true <-> wildcard_valid v r = true) -> b = wildcard_valid v r) by (intros [] X; destruct (wildcard_valid v r); try reflexivity; [symmetry; tauto|apply X; reflexivity]).
  apply A. rewrite !wildcard_valid_spec. split.
  - intros [(s & X)|(p & X & (s & Y))].
    + injection X as X. left. exists s. exact X.
    + destruct p as [|b p]; [injection X as X1 X2; discriminate|]. injection X as <- ->. injection Y as Y. right. exists p. split; [reflexivity|]. exists s. exact Y.
  - intros [(s & ->)|(p & -> & (s & ->))]; [left; exists s; reflexivity|right; exists (path_prefix :: p); split; [reflexivity|exists s; reflexivity]].
Qed.
Lemma wild_ok_valid v path : wildcard_valid v (request_parts path) = true <-> wild_ok v path.
Proof. exact (valid_matches v (request_parts path)). Qed.

(** C83: an expression path is refused exactly with the error that says what is
    wrong with it. *)
Theorem C83_expression_path_errors :
  forall (e : list bytes) (path : bytes) (t : htree) (x : rv_error), no_reserved_end path ->
  (validate_expr_path_e e path t = RErr x <-> path_fault e path t x).
Proof.
  intros e path t x NR.
  assert (TW : exact_terminator <> wildcard_terminator) by discriminate.
  assert (SN : forall a b (p q : list bytes), bs "http_expr" :: p ++ [a] = bs "http_expr" :: q ++ [b] -> p = q /\ a = b) by (intros a b p q Z; injection Z as Z; apply app_inj_tail in Z; exact Z).
  destruct (first_is e path_prefix) eqn:FI.
  2:{ assert (Q : forall r, e <> bs "http_expr" :: r) by (intros r ->; cbn [first_is] in FI; change (bs "http_expr") with path_prefix in FI; rewrite bytes_eqb_refl in FI; discriminate).
      unfold validate_expr_path_e. rewrite FI. cbn [negb]. split.
      - intro X; injection X as <-. apply FPrefix. exact Q.
      - destruct 1; try (exfalso; eapply Q; eassumption). reflexivity. }
  assert (SH : exists r0, e = path_prefix :: r0) by (destruct e as [|a r0]; [discriminate|]; cbn [first_is] in FI; apply bytes_eqb_eq in FI; subst a; eauto). destruct SH as (r0 & E0).
  destruct (last_is e exact_terminator || last_is e wildcard_terminator) eqn:LI.
  2:{ apply orb_false_elim in LI. destruct LI as [L1 L2].
      assert (Q1 : forall q, e <> q ++ [bs "<$>"]) by (intros q ->; change (bs "<$>") with exact_terminator in L1; rewrite last_is_snoc, bytes_eqb_refl in L1; discriminate).
      assert (Q2 : forall q, e <> q ++ [bs "<*>"]) by (intros q ->; change (bs "<*>") with wildcard_terminator in L2; rewrite last_is_snoc, bytes_eqb_refl in L2; discriminate).
      unfold validate_expr_path_e. rewrite FI, L1, L2. cbn [negb orb]. split.
      - intro X; injection X as <-. eapply FSuffix; eauto.
      - destruct 1 as [N|r E A B|E N|q E N|v E N|v E A N|v u E A W T N B|v E A W T N]; try reflexivity; exfalso.
        + exact (N _ E0).
        + eapply (Q1 (bs "http_expr" :: request_parts path)). exact E.
        + eapply (Q1 (bs "http_expr" :: q)). exact E.
        + eapply (Q2 (bs "http_expr" :: v)). exact E.
        + eapply (Q2 (bs "http_expr" :: v)). exact E.
        + eapply (Q2 (bs "http_expr" :: v)). exact E.
        + eapply (Q2 (bs "http_expr" :: v)). exact E. }
  unfold validate_expr_path_e. rewrite FI, LI. cbn [negb]. cbv zeta.
  assert (NP : forall r, e <> r -> True) by auto. clear NP.
  assert (B1 : (forall r, e <> bs "http_expr" :: r) -> False) by (intro N; exact (N _ E0)).
  destruct (last_is e exact_terminator) eqn:LE.
  - apply last_is_spec in LE. destruct LE as (q0 & E1). assert (SQ : exists q, e = bs "http_expr" :: q ++ [bs "<$>"]).
    { destruct q0 as [|a q0]; [rewrite E1 in E0; discriminate E0|]. rewrite E1 in E0. injection E0 as -> _. exists q0. exact E1. }
    destruct SQ as (q & EQ). clear E1 q0 LI.
    assert (NW : forall v, e <> wild_of v) by (intros v Z; rewrite EQ in Z; apply SN in Z; destruct Z as [_ Z]; discriminate Z).
    destruct (path_eqb_spec e ((path_prefix :: request_parts path) ++ [exact_terminator])) as [EX|NE].
    + change ((path_prefix :: request_parts path) ++ [exact_terminator]) with (exact_of path) in *. split.
      * destruct (path_exists e t) eqn:PE; [discriminate|]. intro X; injection X as <-. apply FExactMissing; [exact EX|]. apply exists_false. exact PE.
      * destruct 1 as [N|r E A B|E N|q' E N|v E N|v E A N|v u E A W T N B|v E A W T N]; try (exfalso; eapply NW; eassumption).
        -- destruct (B1 N).
        -- destruct (A (bs "http_expr" :: q) EQ).
        -- apply exists_false in N. rewrite N. reflexivity.
        -- exfalso. apply N. rewrite EX in E. apply SN in E. symmetry. apply E.
    + change ((path_prefix :: request_parts path) ++ [exact_terminator]) with (exact_of path) in *. split.
      * intro X; injection X as <-. apply FExactOther with (q := q); [exact EQ|]. intros ->. exact (NE EQ).
      * destruct 1 as [N|r E A B|E N|q' E N|v E N|v E A N|v u E A W T N B|v E A W T N]; try (exfalso; eapply NW; eassumption).
        -- destruct (B1 N).
        -- destruct (A (bs "http_expr" :: q) EQ).
        -- destruct (NE E).
        -- reflexivity.
  - cbn [orb] in LI. apply last_is_spec in LI. destruct LI as (q0 & E1). assert (SV : exists v, e = wild_of v).
    { destruct q0 as [|a q0]; [rewrite E1 in E0; discriminate E0|]. rewrite E1 in E0. injection E0 as -> _. exists q0. exact E1. }
    destruct SV as (v & EV). clear E1 q0.
    assert (NX : forall q, e <> bs "http_expr" :: q ++ [bs "<$>"]) by (intros q Z; rewrite EV in Z; apply SN in Z; destruct Z as [_ Z]; discriminate Z).
    destruct (path_eqb_spec e ((path_prefix :: request_parts path) ++ [exact_terminator])) as [EX|NE]; [destruct (NX _ EX)|].
    change ((path_prefix :: request_parts path) ++ [exact_terminator]) with (exact_of path) in *.
    assert (RL : removelast e = path_prefix :: v) by (rewrite EV; exact (removelast_last (path_prefix :: v) _)). rewrite RL, valid_cons.
    assert (VU : forall v', e = wild_of v' -> v' = v) by (intros v' Z; rewrite EV in Z; apply SN in Z; symmetry; apply Z).
    destruct (path_might_exist (exact_of path) t) eqn:PM.
    + assert (PM' : lookup_subtree (exact_of path) t <> SAbsent) by (intro Z; apply might_false in Z; congruence). split.
      * intro X; injection X as <-. eapply FExactPossible; eassumption.
      * destruct 1 as [N|r E A B|E N|q' E N|v' E N|v' E A N|v' u E A W T N B|v' E A W T N]; try contradiction.
        -- destruct (B (bs "http_expr" :: v) EV).
        -- destruct (NX _ E).
        -- reflexivity.
    + apply might_false in PM. destruct (wildcard_valid v (request_parts path)) eqn:WV; cbn [negb].
      * apply wild_ok_valid in WV. rewrite EV. destruct (tried_list path v NR WV) as (l & EL & SS & I). rewrite EL. rewrite <- EV. assert (FM := first_might l t SS).
        destruct (first_might_exist (map (fun p => p ++ [bs "<*>"]) l) t) as [w|].
        -- destruct FM as (u & -> & IU & LU & BU). split.
           ++ intro X; injection X as <-. eapply FMoreSpecific; [exact EV|exact PM|exact WV|apply I; exact IU|exact LU|]. intros u' T' SP. apply BU; [apply I; exact T'|exact SP].
           ++ destruct 1 as [N|r E A B|E N|q' E N|v' E N|v' E A N|v' u' E A W T N B|v' E A W T N]; try contradiction; try (apply VU in E; subst v').
              ** destruct (B (bs "http_expr" :: v) EV).
              ** destruct (NX _ E).
              ** contradiction.
              ** apply I in T. assert (Z : u' = u).
                 { destruct (list_eq_dec bytes_eq_dec u' u) as [Z|Z]; [exact Z|exfalso].
                   assert (TOT : more_specific u u' \/ more_specific u' u).
                   { clear -SS IU T Z. induction SS as [|a l SS IH F]; [destruct IU|]. rewrite Forall_forall in F. destruct IU as [->|IU], T as [->|T]; auto. contradiction. }
                   destruct TOT as [TOT|TOT]; [apply LU; apply B; [apply I; exact IU|exact TOT]|apply N; apply BU; [exact T|exact TOT]]. }
                 subst u'. reflexivity.
              ** exfalso. apply LU. apply T. apply I. exact IU.
        -- split.
           ++ destruct (path_exists e t) eqn:PE; [discriminate|]. intro X; injection X as <-. eapply FWildMissing; [exact EV|exact PM|exact WV| |apply exists_false; exact PE].
              intros u T. apply FM. apply I. exact T.
           ++ destruct 1 as [N|r E A B|E N|q' E N|v' E N|v' E A N|v' u' E A W T N B|v' E A W T N]; try contradiction; try (apply VU in E; subst v').
              ** destruct (B (bs "http_expr" :: v) EV).
              ** destruct (NX _ E).
              ** contradiction.
              ** exfalso. apply N. apply FM. apply I. exact T.
              ** apply exists_false in N. rewrite N. reflexivity.
      * assert (WV' : ~ wild_ok v path) by (intro Z; apply wild_ok_valid in Z; congruence). split.
        -- intro X; injection X as <-. eapply FWildOther; eassumption.
        -- destruct 1 as [N|r E A B|E N|q' E N|v' E N|v' E A N|v' u' E A W T N B|v' E A W T N]; try contradiction; try (apply VU in E; subst v'); try contradiction.
           ++ destruct (B (bs "http_expr" :: v) EV).
           ++ destruct (NX _ E).
           ++ reflexivity.
Qed.
Print Assumptions C83_expression_path_errors.

(** ** Certificates *)
Lemma sig_ok_iff H vs c key : verify_certificate_signature_e H vs c key = ROk tt <-> signed_by H vs key c.
Proof.
  rewrite <- signature_spec, <- forget_sig. destruct (verify_certificate_signature_e H vs c key) as [[]|x| |]; cbn [forget]; split; congruence.
Qed.
Lemma firstn_split {A} n (l : list A) : n <= length l -> l = firstn n l ++ skipn n l /\ length (firstn n l) = n.
Proof. intro L. split; [symmetry; apply firstn_skipn|apply firstn_length_le; exact L]. Qed.
Lemma rerr_inj {E A} (a b : E) : @RErr E A a = RErr b -> a = b.
Proof. congruence. Qed.
Lemma signature_fault_iff H vs c key x : verify_certificate_signature_e H vs c key = RErr x <-> signature_fault H vs c key x.
Proof.
  unfold verify_certificate_signature_e, extract_der_e. cbv zeta. change (length der_prefix + key_length) with 133. rewrite <- der_header_eq.
  assert (LD : length der_header = 37) by reflexivity. rewrite LD.
  destruct (Nat.eqb_spec (length key) 133) as [L|L]; cbn [negb rbind].
  2:{ split; [intro X; assert (Y : x = _) by (symmetry; apply rerr_inj in X; exact X); subst x; apply SLength; exact L|]. destruct 1 as [N|pre pk E L1 L2 N|pk [E L1] V]; [reflexivity| |]; exfalso; apply L; rewrite E, app_length; [lia|].
      change (length der_header) with 37. lia. }
  destruct (firstn_split 37 key ltac:(lia)) as (SP & LF). set (pre := firstn 37 key) in *. set (pk := skipn 37 key) in *.
  assert (LK : length pk = 96) by (assert (X := f_equal (@length _) SP); rewrite app_length in X; lia).
  destruct (bytes_eqb_spec pre der_header) as [E|N]; cbn [negb rbind].
  - assert (D : der_of key pk) by (split; [rewrite <- E; exact SP|exact LK]). split.
    + destruct (vs pk (c_sig c) (ic_state_root_separator ++ digest H (c_tree c))) eqn:V; [discriminate|]. intro X; assert (Y : x = _) by (symmetry; apply rerr_inj in X; exact X); subst x. eapply SInvalid; [exact D|exact V].
    + destruct 1 as [N|pre' pk' E' L1 L2 N|pk' D' V]; [contradiction| |].
      * exfalso. apply N. rewrite <- E. rewrite SP in E'. apply app_inj_len in E'; [symmetry; apply E'|lia].
      * rewrite (der_det _ _ _ D D'). change (ic_state_root_separator ++ digest H (c_tree c)) with (state_root_message (digest H (c_tree c))). rewrite V. reflexivity.
  - split.
    + intro X; assert (Y : x = _) by (symmetry; apply rerr_inj in X; exact X); subst x. eapply SPrefix; [exact SP|exact LF|exact LK|exact N].
    + destruct 1 as [M|pre' pk' E' L1 L2 M|pk' [D' L'] V]; [contradiction| |].
      * rewrite SP in E'. apply app_inj_len in E'; [|lia]. destruct E' as [-> _]. reflexivity.
      * exfalso. apply N. rewrite SP in D'. apply app_inj_len in D'; [apply D'|]. rewrite LF. reflexivity.
Qed.
Lemma not_found_iff p t : not_found p t <-> match lookup_path p t with Found _ => False | _ => True end.
Proof. unfold not_found. destruct (lookup_path p t); split; try tauto; try discriminate. intro X. exact (X v eq_refl). Qed.
Lemma delegation_fault_iff umod cap H ple vs d cid root x : length cid <= 29 ->
  (verify_delegation_e umod cap H ple vs d cid root = RErr x <-> delegation_fault umod cap H ple vs d cid root x).
Proof.
  intro LC. unfold verify_delegation_e. split.
  - destruct (cert_from_cbor umod cap (d_cert d)) as [dc| | |] eqn:E; cbn [with_err rbind]; try discriminate.
    2:{ intro X; injection X as <-. apply DCbor. exact E. }
    destruct (c_deleg dc) as [d'|] eqn:D; [intro X; injection X as <-; eapply DNested; eassumption|].
    destruct (verify_certificate_signature_e H vs dc root) as [[]|y| |] eqn:S; cbn [rbind]; try discriminate.
    2:{ intro X; injection X as <-. eapply DSignature; [exact E|exact D|]. apply signature_fault_iff. exact S. }
    apply sig_ok_iff in S. cbv zeta.
    destruct (lookup_path [bs "subnet"; d_subnet d; bs "canister_ranges"] (c_tree dc)) as [| |enc|] eqn:L;
      try (intro X; injection X as <-; eapply DNoRanges; try eassumption; apply not_found_iff; unfold subnet_path; rewrite L; exact I).
    destruct (Nat.ltb_spec 29 (length cid)); [lia|].
    destruct (principals_from_cbor umod cap enc) as [ranges| | |] eqn:P; cbn [with_err rbind]; try discriminate.
    2:{ intro X; injection X as <-. eapply DRangesCbor; eassumption. }
    destruct (within_ranges ple cid ranges) eqn:W; cbn [negb].
    + apply within_spec in W. destruct W as (lo & hi & I0 & W1 & W2).
      destruct (lookup_path [bs "subnet"; d_subnet d; bs "public_key"] (c_tree dc)) as [| |k|] eqn:K; try discriminate;
        (intro X; injection X as <-; eapply DNoKey; try eassumption; apply not_found_iff; unfold subnet_path; rewrite K; exact I).
    + intro X; injection X as <-. eapply DOutOfRange; try eassumption. intros lo hi I0 W'. assert (Z : within_ranges ple cid ranges = true) by (apply within_spec; eauto). congruence.
  - destruct 1 as [E|dc d' E D|dc y E D S|dc E D S N|dc enc E D S L P|dc enc ranges E D S L P N|dc enc ranges lo hi E D S L P I0 W1 W2 N];
      rewrite E; cbn [with_err rbind]; try reflexivity; rewrite D; try reflexivity; cbv zeta.
    + apply signature_fault_iff in S. rewrite S. reflexivity.
    + apply sig_ok_iff in S. rewrite S. cbn [rbind]. apply not_found_iff in N. unfold subnet_path in *. destruct (lookup_path [bs "subnet"; d_subnet d; bs "canister_ranges"] (c_tree dc)); try reflexivity. destruct N.
    + apply sig_ok_iff in S. rewrite S. cbn [rbind]. unfold subnet_path in L. rewrite L. destruct (Nat.ltb_spec 29 (length cid)); [lia|]. rewrite P. reflexivity.
    + apply sig_ok_iff in S. rewrite S. cbn [rbind]. unfold subnet_path in L. rewrite L. destruct (Nat.ltb_spec 29 (length cid)); [lia|]. rewrite P. cbn [with_err rbind].
      destruct (within_ranges ple cid ranges) eqn:W; [|reflexivity]. exfalso. apply within_spec in W. destruct W as (lo & hi & I0 & W). exact (N lo hi I0 W).
    + apply sig_ok_iff in S. rewrite S. cbn [rbind]. unfold subnet_path in *. rewrite L. destruct (Nat.ltb_spec 29 (length cid)); [lia|]. rewrite P. cbn [with_err rbind].
      assert (Z : within_ranges ple cid ranges = true) by (apply within_spec; eauto). rewrite Z. cbn [negb].
      apply not_found_iff in N. destruct (lookup_path [bs "subnet"; d_subnet d; bs "public_key"] (c_tree dc)); try reflexivity. destruct N.
Qed.
Lemma deleg_ok_iff umod cap H ple vs d cid root k : length cid <= 29 ->
  (verify_delegation_e umod cap H ple vs d cid root = ROk k <-> delegation_valid umod cap H ple vs cid root d k).
Proof.
  intro L. assert (X := delegation_spec umod cap H ple vs d cid root k). rewrite <- forget_deleg in X.
  destruct (verify_delegation_e umod cap H ple vs d cid root) as [k'|y| |]; cbn [forget] in X; split; intro Z; try discriminate.
  - injection Z as ->. apply X. reflexivity.
  - assert (Y : OOk k' = OOk k) by (apply X; auto). congruence.
  - exfalso. assert (Y : @OErr bytes = OOk k) by (apply X; auto). discriminate.
  - exfalso. assert (Y : @OPanic bytes = OOk k) by (apply X; auto). discriminate.
  - exfalso. assert (Y : @OFuel bytes = OOk k) by (apply X; auto). discriminate.
Qed.
Lemma time_e_cases ck c now off : (now + off < 2 ^ 128)%N -> (off <= now)%N ->
  match verify_certificate_time_e ck c now off with
  | ROk _ => time_in c now off
  | RErr (MissingTimePathInTree p) => p = [bs "time"] /\ not_found [bs "time"] (c_tree c)
  | RErr TimeDecodingFailed => exists enc, lookup_path [bs "time"] (c_tree c) = Found enc /\ leb_read enc = None
  | RErr (TimeTooFarInTheFuture t mx) => states_time c t /\ mx = (now + off)%N /\ (now + off < t)%N
  | RErr (TimeTooFarInThePast t mn) => states_time c t /\ mn = (now - off)%N /\ (t < now - off)%N
  | _ => False
  end.
Proof.
  intros B1 B2. unfold verify_certificate_time_e, time_in, states_time.
  destruct (lookup_path [bs "time"] (c_tree c)) as [| |enc|] eqn:L; try (split; [reflexivity|]; apply not_found_iff; rewrite L; exact I).
  destruct (leb_read enc) as [[t rest]|] eqn:R; [|eauto].
  unfold add128, sub128. change u128 with (2 ^ 128)%N. apply N.ltb_lt in B1. rewrite B1. apply N.leb_le in B2. rewrite B2. cbn [with_err rbind].
  destruct (N.ltb_spec (now + off) t); [split; [eauto|]; auto|]. destruct (N.ltb_spec t (now - off)); [split; [eauto|]; auto|]. exists t. split; [eauto|lia].
Qed.
Lemma states_det c t t' : states_time c t -> states_time c t' -> t = t'.
Proof. intros (e & r & A & B) (e' & r' & A' & B'). rewrite A in A'. injection A' as <-. congruence. Qed.

(** C84: a certificate is refused exactly with the error that says what is wrong
    with it. *)
Theorem C84_certificate_errors :
  forall umod cap_max checked H ple vs c canister_id root_key now offset (x : cert_error),
  (now + offset < 2 ^ 128)%N -> (offset <= now)%N -> length canister_id <= 29 ->
  (verify_certificate_e umod cap_max checked H ple vs c canister_id root_key now offset = RErr x <->
   cert_fault umod cap_max H ple vs c canister_id root_key now offset x).
Proof.
  intros umod cap ck H ple vs c cid root now off x B1 B2 LC. unfold verify_certificate_e.
  assert (T := time_e_cases ck c now off B1 B2).
  assert (NT : time_in c now off -> verify_certificate_time_e ck c now off = ROk tt).
  { intros (t & ST & W). destruct (verify_certificate_time_e ck c now off) as [[]|y| |]; [reflexivity| |destruct T|destruct T]. exfalso.
    destruct y; try contradiction.
    - destruct T as (ST' & _ & T). rewrite (states_det _ _ _ ST ST') in W. lia.
    - destruct T as (ST' & _ & T). rewrite (states_det _ _ _ ST ST') in W. lia.
    - destruct T as (_ & T). destruct ST as (e & r & A & _). exact (T _ A).
    - destruct T as (e' & A' & R). destruct ST as (e & r & A & B). congruence. }
  split.
  - destruct (verify_certificate_time_e ck c now off) as [[]|y| |]; cbn [rbind]; try discriminate.
    2:{ intro X; injection X as <-. destruct y; try contradiction.
        - destruct T as (S & -> & T). apply CFuture; assumption.
        - destruct T as (S & -> & T). apply CPast; assumption.
        - destruct T as (-> & T). apply CNoTime. exact T.
        - destruct T as (e & A & R). eapply CBadTime; eassumption. }
    destruct (c_deleg c) as [d|] eqn:D.
    + destruct (verify_delegation_e umod cap H ple vs d cid root) as [k|y| |] eqn:V; cbn [rbind]; try discriminate.
      * intro X. apply signature_fault_iff in X. apply deleg_ok_iff in V; [|exact LC]. eapply CSignature; [exact T|right; exists d; split; [exact D|exact V]|exact X].
      * intro X; injection X as <-. apply delegation_fault_iff in V; [|exact LC]. eapply CDelegation; eassumption.
    + cbn [rbind]. intro X. apply signature_fault_iff in X. eapply CSignature; [exact T|left; split; [exact D|reflexivity]|exact X].
  - destruct 1 as [N|enc A R|t S W|t S W|d y TI D F|k y TI K F].
    + destruct (verify_certificate_time_e ck c now off) as [[]|y| |]; try (destruct T; fail); cbn [rbind].
      * exfalso. destruct T as (t & (e & r & A & _) & _). exact (N _ A).
      * destruct y; try contradiction; try (exfalso; destruct T as ((e & r & A & _) & _); exact (N _ A)).
        -- destruct T as (-> & _). reflexivity.
        -- exfalso. destruct T as (e & A & _). exact (N _ A).
    + destruct (verify_certificate_time_e ck c now off) as [[]|y| |]; try (destruct T; fail); cbn [rbind].
      * exfalso. destruct T as (t & (e & r & A' & B') & _). congruence.
      * destruct y; try contradiction; try (exfalso; destruct T as ((e & r & A' & B') & _); congruence).
        -- exfalso. destruct T as (_ & T). exact (T _ A).
        -- reflexivity.
    + destruct (verify_certificate_time_e ck c now off) as [[]|y| |]; try (destruct T; fail); cbn [rbind].
      * exfalso. destruct T as (t' & S' & W'). rewrite (states_det _ _ _ S S') in W. lia.
      * destruct y; try contradiction.
        -- destruct T as (S' & -> & W'). rewrite (states_det _ _ _ S S'). reflexivity.
        -- exfalso. destruct T as (S' & _ & W'). rewrite (states_det _ _ _ S S') in W. lia.
        -- exfalso. destruct T as (_ & T). destruct S as (e & r & A & _). exact (T _ A).
        -- exfalso. destruct T as (e & A & R). destruct S as (e' & r & A' & B'). congruence.
    + destruct (verify_certificate_time_e ck c now off) as [[]|y| |]; try (destruct T; fail); cbn [rbind].
      * exfalso. destruct T as (t' & S' & W'). rewrite (states_det _ _ _ S S') in W. lia.
      * destruct y; try contradiction.
        -- exfalso. destruct T as (S' & _ & W'). rewrite (states_det _ _ _ S S') in W. lia.
        -- destruct T as (S' & -> & W'). rewrite (states_det _ _ _ S S'). reflexivity.
        -- exfalso. destruct T as (_ & T). destruct S as (e & r & A & _). exact (T _ A).
        -- exfalso. destruct T as (e & A & R). destruct S as (e' & r & A' & B'). congruence.
    + rewrite (NT TI). cbn [rbind]. rewrite D. apply delegation_fault_iff in F; [|exact LC]. rewrite F. reflexivity.
    + rewrite (NT TI). cbn [rbind]. apply signature_fault_iff in F. destruct K as [[D ->]|(d & D & V)]; rewrite D; cbn [rbind]; [exact F|].
      apply deleg_ok_iff in V; [|exact LC]. rewrite V. exact F.
Qed.
Print Assumptions C84_certificate_errors.

(** ** The certificate header *)
Section HeaderErrors.
  Variables umod cap : N.
  Notation field_fault := (field_fault umod cap).
  Notation field_fine := (field_fine umod cap).
  Notation all_fine := (all_fine umod cap).
  Lemma forget_dec {A} (cbor : bytes -> out A) v :
    forget (rok b <- decode_b64_e v; with_err CborDecodingFailed (cbor b)) = out_bind (of_opt (b64_dec v)) cbor.
  Proof. rewrite forget_bind. unfold decode_b64_e. rewrite forget_with. apply bind_ext. intro. apply forget_with. Qed.
  Lemma not_version_iff v : not_a_version v <-> forall n, decode_version v <> OOk n.
  Proof.
    unfold not_a_version. split.
    - intros N n X. apply C45_version_is_decimal in X. destruct X as ((ds & O & D) & L). exact (N n L ds O D).
    - intros N n L ds O D. apply (N n). apply C45_version_is_decimal. eauto.
  Qed.
  Lemma fault_not_fine n v x : field_fault n v x -> ~ field_fine n v.
  Proof.
    intros F (A & B & C & D). destruct F as [n v I0 E|v b E F|v b E F|v b E F|v N].
    - destruct I0 as [<-|[<-|[<-|[]]]].
      + destruct (A eq_refl) as (c & X). unfold decode_certificate in X. rewrite E in X. discriminate.
      + destruct (B eq_refl) as (c & X). unfold decode_tree in X. rewrite E in X. discriminate.
      + destruct (D eq_refl) as (c & X). unfold decode_expr_path in X. rewrite E in X. discriminate.
    - destruct (A eq_refl) as (c & X). unfold decode_certificate in X. rewrite E in X. cbn in X. congruence.
    - destruct (B eq_refl) as (c & X). unfold decode_tree in X. rewrite E in X. cbn in X. congruence.
    - destruct (D eq_refl) as (c & X). unfold decode_expr_path in X. rewrite E in X. cbn in X. congruence.
    - destruct (C eq_refl) as (k & X). exact (proj1 (not_version_iff v) N k X).
  Qed.
  (** the error of a field *)
  Definition field_e (n v : bytes) : res rv_error unit :=
    if bytes_eqb n (bs "certificate") then rok _ <- decode_certificate_e umod cap v; ROk tt
    else if bytes_eqb n (bs "tree") then rok _ <- decode_tree_e umod cap v; ROk tt
    else if bytes_eqb n (bs "version") then rok _ <- decode_version_e v; ROk tt
    else if bytes_eqb n (bs "expr_path") then rok _ <- decode_expr_path_e umod cap v; ROk tt
    else ROk tt.
  Lemma b64_cases {A} (cbor : bytes -> out A) v x :
    (rok _ <- (rok b <- decode_b64_e v; with_err CborDecodingFailed (cbor b)); ROk tt) = RErr x <->
    (x = Base64DecodingError /\ b64_dec v = None) \/ (x = CborDecodingFailed /\ exists b, b64_dec v = Some b /\ cbor b = OErr).
  Proof.
    unfold decode_b64_e. destruct (b64_dec v) as [b|]; cbn [of_opt with_err rbind].
    - destruct (cbor b) as [a| | |] eqn:E; cbn [with_err rbind]; split; try discriminate.
      + intros [[_ X]|(_ & b' & X & Y)]; [discriminate|]. injection X as <-. congruence.
      + intro X; injection X as <-. right. eauto.
      + intros [[_ X]|(-> & b' & X & Y)]; [discriminate|reflexivity].
      + intros [[_ X]|(_ & b' & X & Y)]; [discriminate|]. injection X as <-. congruence.
      + intros [[_ X]|(_ & b' & X & Y)]; [discriminate|]. injection X as <-. congruence.
    - split; [intro X; injection X as <-; auto|]. intros [[-> _]|(_ & b' & X & _)]; [reflexivity|discriminate].
  Qed.
  Lemma b64_fine {A} (cbor : bytes -> out A) v :
    (rok _ <- (rok b <- decode_b64_e v; with_err CborDecodingFailed (cbor b)); ROk tt) = ROk tt <->
    exists a, out_bind (of_opt (b64_dec v)) cbor = OOk a.
  Proof.
    rewrite <- forget_dec. destruct (rok b <- decode_b64_e v; with_err CborDecodingFailed (cbor b)) as [a|x| |]; cbn [rbind forget]; split; try discriminate; eauto; intros [? X]; discriminate.
  Qed.
  Lemma names_distinct : bs "certificate" <> bs "tree" /\ bs "certificate" <> bs "version" /\ bs "certificate" <> bs "expr_path" /\
    bs "tree" <> bs "version" /\ bs "tree" <> bs "expr_path" /\ bs "version" <> bs "expr_path".
  Proof. repeat split; discriminate. Qed.
  Lemma field_e_fault n v x : field_e n v = RErr x <-> field_fault n v x.
  Proof.
    destruct names_distinct as (D1 & D2 & D3 & D4 & D5 & D6). unfold field_e. split.
    - destruct (bytes_eqb_spec n (bs "certificate")) as [->|N1]; [|destruct (bytes_eqb_spec n (bs "tree")) as [->|N2]; [|destruct (bytes_eqb_spec n (bs "version")) as [->|N3]; [|destruct (bytes_eqb_spec n (bs "expr_path")) as [->|N4]; [|discriminate]]]].
      + intro X. apply b64_cases in X. destruct X as [[-> E]|(-> & b & E & F)]; [apply FfBase64; [left; reflexivity|exact E]|eapply FfCertificate; eassumption].
      + intro X. apply b64_cases in X. destruct X as [[-> E]|(-> & b & E & F)]; [apply FfBase64; [right; left; reflexivity|exact E]|eapply FfTree; eassumption].
      + unfold decode_version_e. destruct (parse_u8 v) eqn:P; cbn [of_opt with_err rbind]; [discriminate|]. intro X; injection X as <-. apply FfVersion. apply not_version_iff. unfold decode_version. rewrite P. discriminate.
      + intro X. apply b64_cases in X. destruct X as [[-> E]|(-> & b & E & F)]; [apply FfBase64; [right; right; left; reflexivity|exact E]|eapply FfExprPath; eassumption].
    - destruct 1 as [n v I0 E|v b E F|v b E F|v b E F|v N].
      + destruct I0 as [<-|[<-|[<-|[]]]].
        * rewrite bytes_eqb_refl. apply b64_cases. auto.
        * change (bytes_eqb (bs "tree") (bs "certificate")) with false. rewrite bytes_eqb_refl. apply b64_cases. auto.
        * change (bytes_eqb (bs "expr_path") (bs "certificate")) with false. change (bytes_eqb (bs "expr_path") (bs "tree")) with false. change (bytes_eqb (bs "expr_path") (bs "version")) with false. rewrite bytes_eqb_refl. apply b64_cases. auto.
      + rewrite bytes_eqb_refl. apply b64_cases. eauto.
      + change (bytes_eqb (bs "tree") (bs "certificate")) with false. rewrite bytes_eqb_refl. apply b64_cases. eauto.
      + change (bytes_eqb (bs "expr_path") (bs "certificate")) with false. change (bytes_eqb (bs "expr_path") (bs "tree")) with false. change (bytes_eqb (bs "expr_path") (bs "version")) with false. rewrite bytes_eqb_refl. apply b64_cases. eauto.
      + change (bytes_eqb (bs "version") (bs "certificate")) with false. change (bytes_eqb (bs "version") (bs "tree")) with false. rewrite bytes_eqb_refl.
        unfold decode_version_e. destruct (parse_u8 v) as [k|] eqn:P; [|reflexivity]. exfalso. apply (proj1 (not_version_iff v) N k). unfold decode_version. rewrite P. reflexivity.
  Qed.
  Lemma field_e_fine n v : field_e n v = ROk tt <-> field_fine n v.
  Proof.
    destruct names_distinct as (D1 & D2 & D3 & D4 & D5 & D6). unfold field_e, ErrorSpec.field_fine.
    destruct (bytes_eqb_spec n (bs "certificate")) as [->|N1]; [|destruct (bytes_eqb_spec n (bs "tree")) as [->|N2]; [|destruct (bytes_eqb_spec n (bs "version")) as [->|N3]; [|destruct (bytes_eqb_spec n (bs "expr_path")) as [->|N4]]]].
    - unfold decode_certificate_e. rewrite b64_fine. split; [intro E; repeat split; intro X; try congruence; exact E|intros (E & _); apply E; reflexivity].
    - unfold decode_tree_e. rewrite b64_fine. split; [intro E; repeat split; intro X; try congruence; exact E|intros (_ & E & _); apply E; reflexivity].
    - unfold decode_version_e, decode_version. destruct (parse_u8 v) as [k|]; cbn [of_opt with_err rbind]; split; try discriminate; try reflexivity.
      + intros _. repeat split; intro X; try congruence. eauto.
      + intros (_ & _ & E & _). destruct (E eq_refl) as (k & X). discriminate.
    - unfold decode_expr_path_e. rewrite b64_fine. split; [intro E; repeat split; intro X; try congruence; exact E|intros (_ & _ & _ & E); apply E; reflexivity].
    - split; [|reflexivity]. intros _. repeat split; intro X; congruence.
  Qed.
  (** which slots are filled *)
  Definition filled_by (s : slots) (l : list bytes) : Prop :=
    (s_cert s = None <-> forall g v, In g l -> ~ says g (bs "certificate") v) /\
    (s_tree s = None <-> forall g v, In g l -> ~ says g (bs "tree") v) /\
    (s_version s = None <-> forall g v, In g l -> ~ says g (bs "version") v) /\
    (s_path s = None <-> forall g v, In g l -> ~ says g (bs "expr_path") v).
  Lemma says_det f n v n' v' : says f n v -> says f n' v' -> n = n' /\ v = v'.
  Proof. intros A B. apply header_field_says in A, B. rewrite A in B. injection B as <- <-. auto. Qed.
  Lemma none_app (P : bytes -> Prop) l f : (forall g, In g (l ++ [f]) -> ~ P g) <-> (forall g, In g l -> ~ P g) /\ ~ P f.
  Proof.
    split.
    - intro A. split; [intros g I0; apply A, in_or_app; auto|apply A, in_or_app; right; left; reflexivity].
    - intros [A B] g I0. apply in_app_or in I0. destruct I0 as [I0|[<-|[]]]; auto.
  Qed.
  Definition unsaid (l : list bytes) (n : bytes) : Prop := forall g, In g l -> ~ exists v, says g n v.
  Lemma unsaid_iff l n : (forall g v, In g l -> ~ says g n v) <-> unsaid l n.
  Proof. unfold unsaid. split; [intros A g I0 [v S]; exact (A g v I0 S)|intros A g v I0 S; apply (A g I0); eauto]. Qed.
  Lemma unsaid_app l f n : unsaid (l ++ [f]) n <-> unsaid l n /\ ~ exists v, says f n v.
  Proof. apply none_app. Qed.
  (** what one field does *)
  Lemma add_field_cases s l f : filled_by s l ->
    match add_field_e umod cap s f with
    | ROk s1 => filled_by s1 (l ++ [f]) /\ forall n v, live l f n v -> field_e n v = ROk tt
    | RErr x => exists n v, live l f n v /\ field_e n v = RErr x
    | _ => exists n v, live l f n v /\ field_e n v <> ROk tt /\ forall x, field_e n v <> RErr x
    end.
  Proof.
    intros (F1 & F2 & F3 & F4). unfold add_field_e. destruct (header_field f) as [[n v]|] eqn:E.
    2:{ assert (U : forall m, ~ exists w, says f m w) by (intros m [w S]; apply header_field_says in S; congruence).
        split.
        - unfold filled_by. rewrite unsaid_iff in F1. rewrite unsaid_iff in F2. rewrite unsaid_iff in F3. rewrite unsaid_iff in F4. rewrite !unsaid_iff, !unsaid_app.
          assert (U1 := U (bs "certificate")). assert (U2 := U (bs "tree")). assert (U3 := U (bs "version")). assert (U4 := U (bs "expr_path")). tauto.
        - intros m w [S _]. destruct (U m). eauto. }
    apply header_field_says in E. destruct names_distinct as (D1 & D2 & D3 & D4 & D5 & D6).
    assert (O : forall m, m <> n -> ~ exists w, says f m w) by (intros m N [w S]; destruct (says_det _ _ _ _ _ S E); contradiction).
    assert (Y : exists w, says f n w) by eauto.
    assert (LV : forall m w, live l f m w -> m = n /\ w = v /\ unsaid l n).
    { intros m w [S U]. destruct (says_det _ _ _ _ _ S E) as [-> ->]. repeat split. apply unsaid_iff. exact U. }
    assert (LI : unsaid l n -> live l f n v) by (intro U; split; [exact E|apply unsaid_iff; exact U]).
    unfold filled_by in *. rewrite unsaid_iff in F1. rewrite unsaid_iff in F2. rewrite unsaid_iff in F3. rewrite unsaid_iff in F4.
    assert (G : forall s1, (s_cert s1 = None <-> unsaid (l ++ [f]) (bs "certificate")) -> (s_tree s1 = None <-> unsaid (l ++ [f]) (bs "tree")) ->
       (s_version s1 = None <-> unsaid (l ++ [f]) (bs "version")) -> (s_path s1 = None <-> unsaid (l ++ [f]) (bs "expr_path")) ->
       (unsaid l n -> field_e n v = ROk tt) -> filled_by s1 (l ++ [f]) /\ (forall m w, live l f m w -> field_e m w = ROk tt)).
    { intros s1 A1 A2 A3 A4 R. split; [unfold filled_by; rewrite !unsaid_iff; auto|]. intros m w Z. apply LV in Z. destruct Z as (-> & -> & U). auto. }
    assert (K : forall m, m <> n -> (unsaid (l ++ [f]) m <-> unsaid l m)).
    { intros m N. rewrite unsaid_app. split; [tauto|]. intro Z. split; [exact Z|]. apply O. exact N. }
    assert (KN : ~ unsaid (l ++ [f]) n) by (rewrite unsaid_app; tauto).
    assert (FE := eq_refl (field_e n v)). unfold field_e at 2 in FE.
    destruct (bytes_eqb_spec n (bs "certificate")) as [->|N1]; [|destruct (bytes_eqb_spec n (bs "tree")) as [->|N2]; [|destruct (bytes_eqb_spec n (bs "version")) as [->|N3]; [|destruct (bytes_eqb_spec n (bs "expr_path")) as [->|N4]]]].
    - destruct (s_cert s) as [c|] eqn:SC; cbn [fill_e rbind].
      + apply G; cbn [s_cert s_tree s_version s_path]; rewrite ?K by congruence; auto; [split; [discriminate|tauto]|]. intro U. apply F1 in U. discriminate.
      + assert (U : unsaid l (bs "certificate")) by (apply F1; reflexivity). destruct (decode_certificate_e umod cap v) as [c|x| |]; cbn [rbind] in *.
        * apply G; cbn [s_cert s_tree s_version s_path]; rewrite ?K by congruence; auto. split; [discriminate|tauto].
        * exists (bs "certificate"), v. auto.
        * exists (bs "certificate"), v. rewrite FE. split; [auto|split; [discriminate|discriminate]].
        * exists (bs "certificate"), v. rewrite FE. split; [auto|split; [discriminate|discriminate]].
    - destruct (s_tree s) as [c|] eqn:SC; cbn [fill_e rbind].
      + apply G; cbn [s_cert s_tree s_version s_path]; rewrite ?K by congruence; auto; [split; [discriminate|tauto]|]. intro U. apply F2 in U. discriminate.
      + assert (U : unsaid l (bs "tree")) by (apply F2; reflexivity). destruct (decode_tree_e umod cap v) as [c|x| |]; cbn [rbind] in *.
        * apply G; cbn [s_cert s_tree s_version s_path]; rewrite ?K by congruence; auto. split; [discriminate|tauto].
        * exists (bs "tree"), v. auto.
        * exists (bs "tree"), v. rewrite FE. split; [auto|split; [discriminate|discriminate]].
        * exists (bs "tree"), v. rewrite FE. split; [auto|split; [discriminate|discriminate]].
    - destruct (s_version s) as [c|] eqn:SC; cbn [fill_e rbind].
      + apply G; cbn [s_cert s_tree s_version s_path]; rewrite ?K by congruence; auto; [split; [discriminate|tauto]|]. intro U. apply F3 in U. discriminate.
      + assert (U : unsaid l (bs "version")) by (apply F3; reflexivity). destruct (decode_version_e v) as [c|x| |]; cbn [rbind] in *.
        * apply G; cbn [s_cert s_tree s_version s_path]; rewrite ?K by congruence; auto. split; [discriminate|tauto].
        * exists (bs "version"), v. auto.
        * exists (bs "version"), v. rewrite FE. split; [auto|split; [discriminate|discriminate]].
        * exists (bs "version"), v. rewrite FE. split; [auto|split; [discriminate|discriminate]].
    - destruct (s_path s) as [c|] eqn:SC; cbn [fill_e rbind].
      + apply G; cbn [s_cert s_tree s_version s_path]; rewrite ?K by congruence; auto; [split; [discriminate|tauto]|]. intro U. apply F4 in U. discriminate.
      + assert (U : unsaid l (bs "expr_path")) by (apply F4; reflexivity). destruct (decode_expr_path_e umod cap v) as [c|x| |]; cbn [rbind] in *.
        * apply G; cbn [s_cert s_tree s_version s_path]; rewrite ?K by congruence; auto. split; [discriminate|tauto].
        * exists (bs "expr_path"), v. auto.
        * exists (bs "expr_path"), v. rewrite FE. split; [auto|split; [discriminate|discriminate]].
        * exists (bs "expr_path"), v. rewrite FE. split; [auto|split; [discriminate|discriminate]].
    - apply G; rewrite ?K by congruence; auto.
  Qed.
  Lemma all_fine_snoc l f : all_fine l -> (forall n v, live l f n v -> field_fine n v) -> all_fine (l ++ [f]).
  Proof.
    intros A B l1 g r n v E L. destruct (exists_last (l := g :: r) ltac:(discriminate)) as (r' & z & R). 
    rewrite R, app_assoc in E. apply app_inj_tail in E. destruct E as [E ->].
    destruct r' as [|y r']; cbn in R.
    - injection R as <- ->. rewrite app_nil_r in E. subst l1. apply B. exact L.
    - injection R as <- ->. eapply A; [exact E|exact L].
  Qed.
  Lemma all_fine_prefix l r : all_fine (l ++ r) -> all_fine l.
  Proof. intros A l1 f r1 n v E L. apply (A l1 f (r1 ++ r) n v); [rewrite E, <- app_assoc; reflexivity|exact L]. Qed.
  (** the first field that is wrong *)
  Definition wrong_at (fs l : list bytes) (f n v : bytes) : Prop :=
    (exists r, fs = l ++ f :: r) /\ all_fine l /\ live l f n v /\ field_e n v <> ROk tt.
  Lemma wrong_det fs l f n v l' f' n' v' : wrong_at fs l f n v -> wrong_at fs l' f' n' v' -> n = n' /\ v = v'.
  Proof.
    intros ((r & E) & A & L & W) ((r' & E') & A' & L' & W'). rewrite E in E'.
    assert (X : l = l').
    { destruct (Nat.lt_trichotomy (length l) (length l')) as [Z|[Z|Z]].
      - exfalso. apply W. apply field_e_fine. assert (P : exists q, l' = l ++ f :: q).
        { clear -E' Z. revert l' E' Z. induction l as [|a l IH]; intros [|b l'] E Z; cbn in *; try lia; injection E as -> E; [eauto|]. destruct (IH l' E ltac:(lia)) as [q ->]. eauto. }
        destruct P as [q P]. eapply A'; [exact P|exact L].
      - apply app_inj_len in E'; [apply E'|exact Z].
      - exfalso. apply W'. apply field_e_fine. assert (P : exists q, l = l' ++ f' :: q).
        { clear -E' Z. symmetry in E'. revert l E' Z. induction l' as [|a l' IH]; intros [|b l] E Z; cbn in *; try lia; injection E as -> E; [eauto|]. destruct (IH l E ltac:(lia)) as [q ->]. eauto. }
        destruct P as [q P]. eapply A; [exact P|exact L']. }
    subst l'. apply app_inv_head in E'. injection E' as <- _. destruct L as [S _], L' as [S' _]. exact (says_det _ _ _ _ _ S S').
  Qed.
  Lemma wrong_not_fine fs l f n v : wrong_at fs l f n v -> ~ all_fine fs.
  Proof. intros ((r & E) & A & L & W) F. apply W. apply field_e_fine. eapply F; eassumption. Qed.
  Lemma add_fields_cases fs : forall s l, filled_by s l -> all_fine l ->
    match add_fields_e umod cap s fs with
    | ROk s1 => filled_by s1 (l ++ fs) /\ all_fine (l ++ fs)
    | RErr x => exists l1 f n v, wrong_at (l ++ fs) l1 f n v /\ field_e n v = RErr x
    | _ => exists l1 f n v, wrong_at (l ++ fs) l1 f n v /\ forall x, field_e n v <> RErr x
    end.
  Proof.
    induction fs as [|f fs IH]; intros s l F A; cbn [add_fields_e].
    - rewrite app_nil_r. auto.
    - assert (X := add_field_cases s l f F). destruct (add_field_e umod cap s f) as [s1|x| |]; cbn [rbind].
      + destruct X as [F1 L1]. replace (l ++ f :: fs) with ((l ++ [f]) ++ fs) by (rewrite <- app_assoc; reflexivity).
        apply IH; [exact F1|]. apply all_fine_snoc; [exact A|]. intros n v L. apply field_e_fine, L1, L.
      + destruct X as (n & v & L & E). exists l, f, n, v. split; [|exact E]. split; [eauto|]. split; [exact A|]. split; [exact L|]. congruence.
      + destruct X as (n & v & L & E & N). exists l, f, n, v. split; [|exact N]. split; [eauto|]. auto.
      + destruct X as (n & v & L & E & N). exists l, f, n, v. split; [|exact N]. split; [eauto|]. auto.
  Qed.
  Lemma header_errors h x : header_from_e umod cap h = RErr x <-> header_fault umod cap h x.
  Proof.
    unfold header_from_e. assert (X := add_fields_cases (split_on "," h) (mk_slots None None None None) []).
    cbn [app] in X. assert (F0 : filled_by (mk_slots None None None None) []) by (repeat split; auto). assert (A0 : all_fine []) by (intros [|] ? ? ? ? E; discriminate).
    specialize (X F0 A0). clear F0 A0. split.
    - destruct (add_fields_e umod cap (mk_slots None None None None) (split_on "," h)) as [s|y| |]; cbn [rbind]; try discriminate.
      + destruct X as [(F1 & F2 & _) A]. destruct (s_cert s) as [c|].
        * destruct (s_tree s) as [t|]; [discriminate|]. intro Z; injection Z as <-. apply HNoTree; [exact A| |exact (proj1 F2 eq_refl)].
          destruct (first (bs "certificate") (split_on "," h)) as [v|] eqn:E; [apply first_some in E; exists v; exact E|].
          exfalso. assert (Q := proj1 (first_none _ _) E). apply F1 in Q. discriminate.
        * intro Z; injection Z as <-. apply HNoCertificate; [exact A|exact (proj1 F1 eq_refl)].
      + intro Z; injection Z as <-. destruct X as (l & f & n & v & ((r & E) & A & L & W) & FE). eapply HField; [exact E|exact A|exact L|apply field_e_fault; exact FE].
    - intro F. destruct (add_fields_e umod cap (mk_slots None None None None) (split_on "," h)) as [s|y| |]; cbn [rbind].
      + destruct X as [(F1 & F2 & _) A]. destruct F as [l f r n v x E A' L FF|A' NF|A' (v & SF) NF].
        * exfalso. apply fault_not_fine in FF. apply FF. eapply A; eassumption.
        * assert (Z : s_cert s = None) by (apply F1; exact NF). rewrite Z. reflexivity.
        * assert (Z : s_tree s = None) by (apply F2; exact NF). rewrite Z. destruct (s_cert s); [reflexivity|].
          exfalso. destruct SF as (l & f & r & E & S & _). eapply (proj1 F1 eq_refl f v); [rewrite E; apply in_or_app; right; left; reflexivity|exact S].
      + destruct X as (l & f & n & v & W & FE). destruct F as [l' f' r n' v' x E A' L FF|A' NF|A' SF NF]; try (destruct (wrong_not_fine _ _ _ _ _ W A')).
        assert (W' : wrong_at (split_on "," h) l' f' n' v') by (split; [eauto|split; [exact A'|split; [exact L|]]]; apply field_e_fault in FF; congruence).
        destruct (wrong_det _ _ _ _ _ _ _ _ _ W W') as [<- <-]. apply field_e_fault in FF. congruence.
      + destruct X as (l & f & n & v & W & FE). exfalso. destruct F as [l' f' r n' v' x E A' L FF|A' NF|A' SF NF]; try (destruct (wrong_not_fine _ _ _ _ _ W A')).
        assert (W' : wrong_at (split_on "," h) l' f' n' v') by (split; [eauto|split; [exact A'|split; [exact L|]]]; apply field_e_fault in FF; congruence).
        destruct (wrong_det _ _ _ _ _ _ _ _ _ W W') as [<- <-]. apply field_e_fault in FF. exact (FE _ FF).
      + destruct X as (l & f & n & v & W & FE). exfalso. destruct F as [l' f' r n' v' x E A' L FF|A' NF|A' SF NF]; try (destruct (wrong_not_fine _ _ _ _ _ W A')).
        assert (W' : wrong_at (split_on "," h) l' f' n' v') by (split; [eauto|split; [exact A'|split; [exact L|]]]; apply field_e_fault in FF; congruence).
        destruct (wrong_det _ _ _ _ _ _ _ _ _ W W') as [<- <-]. apply field_e_fault in FF. exact (FE _ FF).
  Qed.
End HeaderErrors.

(** C83, the header: an unreadable IC-Certificate header is refused exactly with the
    error that says what is wrong with it. *)
Theorem C83_header_errors :
  forall umod cap_max (h : bytes) (x : rv_error), header_from_e umod cap_max h = RErr x <-> header_fault umod cap_max h x.
Proof. exact header_errors. Qed.
Print Assumptions C83_header_errors.

(** ** The whole verification *)
Lemma eq_nocase_lower a b : eq_nocase a b = bytes_eqb (lower a) (lower b).
Proof. reflexivity. Qed.
Lemma certificate_found c hs v : header_get (lower certificate_header_name) hs = Some v -> forall o, snd (filter_loop c hs o) <> None.
Proof.
  assert (K : forall hs o, o <> None -> snd (filter_loop c hs o) <> None).
  { clear. induction hs as [|[n v] hs IH]; intros o N; [exact N|]. cbn [filter_loop]. destruct (eq_nocase n certificate_header_name); [apply IH; discriminate|].
    specialize (IH o N). destruct (filter_loop c hs o) as [out cert']. cbn [snd] in IH. destruct (eq_nocase n cert_expr_header_name); [exact IH|]. destruct (headers_filter c n); exact IH. }
  revert v. induction hs as [|[n w] hs IH]; intros v E o; [discriminate|]. cbn [header_get] in E. cbn [filter_loop]. rewrite eq_nocase_lower.
  destruct (bytes_eqb (lower n) (lower certificate_header_name)) eqn:B; [apply K; discriminate|].
  destruct (header_get (lower certificate_header_name) hs) as [u|]; [|discriminate]. specialize (IH u eq_refl o).
  destruct (filter_loop c hs o) as [out cert']. cbn [snd] in IH. destruct (eq_nocase n cert_expr_header_name); [exact IH|]. destruct (headers_filter c n); exact IH.
Qed.
Section WholeErrors.
  Variables (umod cap : N) (ck : bool) (H : bytes -> bytes) (ple : bytes -> bytes -> bool) (vs : bytes -> bytes -> bytes -> bool)
            (up : bytes -> option bytes) (uq : bytes -> option (option bytes)) (gz df : bytes -> option bytes)
            (rq : request) (rs : response) (cid : bytes) (now off : N) (key : bytes) (mv : N).
  Hypotheses (B1 : (now + off < 2 ^ 128)%N) (B2 : (off <= now)%N) (LC : length cid <= 29).
  Lemma cert_err_iff c x : rmap_err CertificateVerificationFailed (verify_certificate_e umod cap ck H ple vs c cid key now off) = RErr x <->
    exists y, x = CertificateVerificationFailed y /\ cert_fault umod cap H ple vs c cid key now off y.
  Proof.
    split.
    - destruct (verify_certificate_e umod cap ck H ple vs c cid key now off) as [u|y| |] eqn:E; cbn [rmap_err]; try discriminate.
      intro X; injection X as <-. exists y. split; [reflexivity|]. apply C84_certificate_errors in E; auto.
    - intros (y & -> & F). apply (C84_certificate_errors umod cap ck) in F; auto. rewrite F. reflexivity.
  Qed.
  Lemma cert_ok_iff c : rmap_err CertificateVerificationFailed (verify_certificate_e umod cap ck H ple vs c cid key now off) = ROk tt <->
    verify_certificate umod cap ck H ple vs c cid key now off = OOk tt.
  Proof.
    rewrite <- forget_cert. destruct (verify_certificate_e umod cap ck H ple vs c cid key now off) as [[]|y| |]; cbn [rmap_err forget]; split; congruence.
  Qed.
  Lemma url_err_iff x : rmap_err HttpCertificationError (get_path_e up rq) = RErr x <-> exists y, x = HttpCertificationError y /\ url_fault up rq y.
  Proof.
    unfold get_path_e. split.
    - destruct (up (rq_url rq)) as [p|] eqn:E.
      + cbv zeta. destruct (utf8_valid (pct_decode p)) eqn:U; cbn [rmap_err]; [discriminate|]. intro X; injection X as <-. eexists. split; [reflexivity|].
        eapply UUtf8; [exact E|apply pct_decode_spec|exact U].
      + cbn [rmap_err]. intro X; injection X as <-. eexists. split; [reflexivity|]. apply UMalformed. exact E.
    - intros (y & -> & [E|p d E D U]); rewrite E; [reflexivity|]. cbv zeta. rewrite (pct_decodes_det _ _ _ (pct_decode_spec p) D), U. reflexivity.
  Qed.
  Lemma url_ok_iff path : rmap_err HttpCertificationError (get_path_e up rq) = ROk path <-> path_of up rq path.
  Proof.
    rewrite <- C63_request_path_exact, <- forget_get_path. destruct (get_path_e up rq) as [p|y| |]; cbn [rmap_err forget]; split; congruence.
  Qed.
  Lemma tree_iff hd : validate_tree H cid (h_cert hd) (h_tree hd) = true <-> witness_certified H cid hd.
  Proof. apply validate_tree_spec. Qed.
  Lemma tree_false hd : validate_tree H cid (h_cert hd) (h_tree hd) = false <-> ~ witness_certified H cid hd.
  Proof. rewrite <- tree_iff. destruct (validate_tree H cid (h_cert hd) (h_tree hd)); split; congruence. Qed.
  Lemma body_ok_iff enc d : decode_body_e gz df (rs_body rs) enc = ROk d <-> decoded_body gz df enc (rs_body rs) d.
  Proof. rewrite <- decode_body_spec, <- forget_body. destruct (decode_body_e gz df (rs_body rs) enc) as [p|y| |]; cbn [forget]; split; congruence. Qed.
  Lemma body_err_iff enc x : decode_body_e gz df (rs_body rs) enc = RErr x <-> x = IoError /\ forall d, ~ decoded_body gz df enc (rs_body rs) d.
  Proof.
    assert (K : forall d, ~ decoded_body gz df enc (rs_body rs) d <-> decode_body_e gz df (rs_body rs) enc <> ROk d) by (intro d; rewrite body_ok_iff; tauto).
    split.
    - intro E. split; [|intro d; apply K; congruence]. revert E. unfold decode_body_e. destruct enc as [e|]; [|discriminate].
      destruct (bytes_eqb e (bs "gzip")); [destruct (gz (rs_body rs)); cbn; [discriminate|congruence]|].
      destruct (bytes_eqb e (bs "deflate")); [destruct (df (rs_body rs)); cbn; [discriminate|congruence]|discriminate].
    - intros (-> & N). assert (N' : forall d, decode_body_e gz df (rs_body rs) enc <> ROk d) by (intro d; apply K; apply N). revert N'. clear. unfold decode_body_e.
      destruct enc as [e|]; [|intro N; destruct (N _ eq_refl)].
      destruct (bytes_eqb e (bs "gzip")); [destruct (gz (rs_body rs)); cbn; [intro N; destruct (N _ eq_refl)|reflexivity]|].
      destruct (bytes_eqb e (bs "deflate")); [destruct (df (rs_body rs)); cbn; [intro N; destruct (N _ eq_refl)|reflexivity]|intro N; destruct (N _ eq_refl)].
  Qed.
  Lemma sha_false t path s : validate_body t path s = false <-> ~ shown_sha t path s.
  Proof. rewrite <- validate_body_spec. destruct (validate_body t path s); split; congruence. Qed.
  Lemma v1_errors hd x :
    v1_verification_e umod cap ck H ple vs up gz df rq rs cid now off (h_tree hd) (h_cert hd) (header_get (bs "content-encoding") (rs_headers rs)) key = RErr x <->
    v1_fault umod cap ck H ple vs up gz df rq rs cid now off key hd x.
  Proof.
    assert (EO := encoding_get (rs_headers rs)). unfold v1_verification_e. split.
    - set (enc := header_get (bs "content-encoding") (rs_headers rs)) in *.
      destruct (rmap_err CertificateVerificationFailed (verify_certificate_e umod cap ck H ple vs (h_cert hd) cid key now off)) as [[]|y| |] eqn:VC; cbn [rbind]; try discriminate.
      2:{ intro X; injection X as <-. apply cert_err_iff in VC. destruct VC as (z & -> & F). apply V1Certificate. exact F. }
      apply cert_ok_iff in VC.
      destruct (rmap_err HttpCertificationError (get_path_e up rq)) as [path|y| |] eqn:GP; cbn [rbind]; try discriminate.
      2:{ intro X; injection X as <-. apply url_err_iff in GP. destruct GP as (z & -> & F). apply V1Url; assumption. }
      apply url_ok_iff in GP.
      destruct (decode_body_e gz df (rs_body rs) enc) as [d|y| |] eqn:DB; cbn [rbind]; try discriminate.
      2:{ intro X; injection X as <-. apply body_err_iff in DB. destruct DB as (-> & F). eapply V1Body; eassumption. }
      apply body_ok_iff in DB.
      destruct (validate_tree H cid (h_cert hd) (h_tree hd)) eqn:VT; cbn [negb].
      2:{ intro X; injection X as <-. apply tree_false in VT. eapply V1Tree; eassumption. }
      apply tree_iff in VT. cbv zeta. destruct (validate_body (h_tree hd) path (H d)) eqn:V0.
      + destruct enc; discriminate.
      + apply sha_false in V0. destruct enc as [e|] eqn:EE.
        * destruct (validate_body (h_tree hd) path (H (rs_body rs))) eqn:V1; [discriminate|]. intro X; injection X as <-. apply sha_false in V1. eapply V1Mismatch; eassumption.
        * intro X; injection X as <-. eapply V1Mismatch; try eassumption. destruct DB as [[Z _]|[[Z _]|(_ & _ & <-)]]; [discriminate|discriminate|exact V0].
    - destruct 1 as [y F|y G F|path enc G P E N|path enc d G P E D N|path enc d G P E D W N1 N2].
      + assert (Z : rmap_err CertificateVerificationFailed (verify_certificate_e umod cap ck H ple vs (h_cert hd) cid key now off) = RErr (CertificateVerificationFailed y)) by (apply cert_err_iff; eauto).
        rewrite Z. reflexivity.
      + apply cert_ok_iff in G. rewrite G. cbn [rbind].
        assert (Z : rmap_err HttpCertificationError (get_path_e up rq) = RErr (HttpCertificationError y)) by (apply url_err_iff; eauto). rewrite Z. reflexivity.
      + apply cert_ok_iff in G. rewrite G. cbn [rbind]. apply url_ok_iff in P. rewrite P. cbn [rbind]. rewrite (encoding_fun _ _ E).
        assert (Z : decode_body_e gz df (rs_body rs) enc = RErr IoError) by (apply body_err_iff; auto). rewrite Z. reflexivity.
      + apply cert_ok_iff in G. rewrite G. cbn [rbind]. apply url_ok_iff in P. rewrite P. cbn [rbind]. rewrite (encoding_fun _ _ E).
        apply body_ok_iff in D. rewrite D. cbn [rbind]. apply tree_false in N. rewrite N. reflexivity.
      + apply cert_ok_iff in G. rewrite G. cbn [rbind]. apply url_ok_iff in P. rewrite P. cbn [rbind]. rewrite (encoding_fun _ _ E).
        apply body_ok_iff in D. rewrite D. cbn [rbind]. apply tree_iff in W. rewrite W. cbn [negb]. cbv zeta. apply sha_false in N1, N2. rewrite N1, N2. destruct enc; reflexivity.
  Qed.
  Lemma path_ok_iff e path t : validate_expr_path_e e path t = ROk tt <-> validate_expr_path e path t = true.
  Proof.
    assert (X := forget_path e path t). destruct (validate_expr_path e path t); destruct (validate_expr_path_e e path t) as [[]|y| |]; cbn [forget] in X; split; congruence.
  Qed.
  Lemma hashes_false eh rqh rsh e w c : validate_hashes eh rqh rsh e w c = false <->
    lookup_subtree (e ++ [eh; match c, rqh with CelFull _ _, Some h => h | _, _ => [] end; rsh]) w <> SFound (HLeaf []).
  Proof. rewrite <- validate_hashes_spec. destruct (validate_hashes eh rqh rsh e w c); split; congruence. Qed.
  Lemma request_hash_none qc : request_hash H uq rq qc = None <-> uq (rq_url rq) = None.
  Proof. unfold request_hash. destruct (uq (rq_url rq)); split; congruence. Qed.
  Hypothesis NR : forall path, path_of up rq path -> no_reserved_end path.
  Lemma check_errors hd hv expr e c x : header_get (lower certificate_header_name) (rs_headers rs) = Some hv ->
    (v2_verification_e umod cap ck H ple vs up uq rq rs cid now off (h_tree hd) (h_cert hd) e (H expr) c key = RErr x <->
     check_fault umod cap ck H ple vs up uq rq rs cid now off key hd expr e c x).
  Proof.
    intro HG. unfold v2_verification_e. split.
    - destruct (rmap_err HttpCertificationError (get_path_e up rq)) as [path|y| |] eqn:GP; cbn [rbind]; try discriminate.
      2:{ intro X; injection X as <-. apply url_err_iff in GP. destruct GP as (z & -> & F). apply V2Url; assumption. }
      apply url_ok_iff in GP.
      destruct (rmap_err CertificateVerificationFailed (verify_certificate_e umod cap ck H ple vs (h_cert hd) cid key now off)) as [[]|y| |] eqn:VC; cbn [rbind]; try discriminate.
      2:{ intro X; injection X as <-. apply cert_err_iff in VC. destruct VC as (z & -> & F). eapply V2Certificate; eassumption. }
      apply cert_ok_iff in VC.
      destruct (validate_tree H cid (h_cert hd) (h_tree hd)) eqn:VT; cbn [negb].
      2:{ intro X; injection X as <-. apply tree_false in VT. eapply V2Tree; eassumption. }
      apply tree_iff in VT.
      destruct (validate_expr_path_e e path (h_tree hd)) as [[]|y| |] eqn:VE; cbn [rbind]; try discriminate.
      2:{ intro X; injection X as <-. apply C83_expression_path_errors in VE; [|apply NR; exact GP]. eapply V2Path; eassumption. }
      apply path_ok_iff in VE. cbv zeta. destruct c as [|rc|qc rc].
      + unfold validate_expr_hash. destruct (lookup_subtree (e ++ [H expr]) (h_tree hd)) as [| |s] eqn:L; try discriminate;
          (intro X; injection X as <-; eapply V2Skip; try eassumption; intros s; congruence).
      + cbn [rbind]. destruct (validate_hashes _ _ _ _ _ _) eqn:VH.
        * destruct (snd (filter_response_headers rs rc)) eqn:SF; [discriminate|]. destruct (certificate_found rc _ _ HG None SF).
        * intro X; injection X as <-. apply hashes_false in VH. eapply V2Response; eassumption.
      + destruct (request_hash H uq rq qc) as [h|] eqn:RH; cbn [of_opt with_err rbind].
        * destruct (validate_hashes _ _ _ _ _ _) eqn:VH.
          -- destruct (snd (filter_response_headers rs rc)) eqn:SF; [discriminate|]. destruct (certificate_found rc _ _ HG None SF).
          -- intro X; injection X as <-. apply hashes_false in VH. eapply V2Full; eassumption.
        * intro X; injection X as <-. apply request_hash_none in RH. eapply V2Query; eassumption.
    - destruct 1 as [expr e c y F|expr e c path y P F|expr e c path P G N|expr e c path y P G W F|expr e path P G W V N|expr e qc rc path P G W V Q|expr e rc path P G W V N|expr e qc rc path h P G W V RH N].
      + assert (Z : rmap_err HttpCertificationError (get_path_e up rq) = RErr (HttpCertificationError y)) by (apply url_err_iff; eauto). rewrite Z. reflexivity.
      + apply url_ok_iff in P. rewrite P. cbn [rbind].
        assert (Z : rmap_err CertificateVerificationFailed (verify_certificate_e umod cap ck H ple vs (h_cert hd) cid key now off) = RErr (CertificateVerificationFailed y)) by (apply cert_err_iff; eauto).
        rewrite Z. reflexivity.
      + apply url_ok_iff in P. rewrite P. cbn [rbind]. apply cert_ok_iff in G. rewrite G. cbn [rbind]. apply tree_false in N. rewrite N. reflexivity.
      + assert (R := NR _ P). apply url_ok_iff in P. rewrite P. cbn [rbind]. apply cert_ok_iff in G. rewrite G. cbn [rbind]. apply tree_iff in W. rewrite W. cbn [negb].
        apply C83_expression_path_errors in F; [|exact R]. rewrite F. reflexivity.
      + apply url_ok_iff in P. rewrite P. cbn [rbind]. apply cert_ok_iff in G. rewrite G. cbn [rbind]. apply tree_iff in W. rewrite W. cbn [negb]. apply path_ok_iff in V. rewrite V. cbn [rbind].
        cbv zeta. unfold validate_expr_hash. destruct (lookup_subtree (e ++ [H expr]) (h_tree hd)) as [| |s]; try reflexivity. destruct (N s eq_refl).
      + apply url_ok_iff in P. rewrite P. cbn [rbind]. apply cert_ok_iff in G. rewrite G. cbn [rbind]. apply tree_iff in W. rewrite W. cbn [negb]. apply path_ok_iff in V. rewrite V. cbn [rbind].
        cbv zeta. apply (request_hash_none qc) in Q. rewrite Q. reflexivity.
      + apply url_ok_iff in P. rewrite P. cbn [rbind]. apply cert_ok_iff in G. rewrite G. cbn [rbind]. apply tree_iff in W. rewrite W. cbn [negb]. apply path_ok_iff in V. rewrite V. cbn [rbind].
        cbv zeta. match goal with |- context [validate_hashes ?a ?b ?r ?d ?w ?ce] => assert (X : validate_hashes a b r d w ce = false) by (apply hashes_false; exact N); rewrite X end. reflexivity.
      + apply url_ok_iff in P. rewrite P. cbn [rbind]. apply cert_ok_iff in G. rewrite G. cbn [rbind]. apply tree_iff in W. rewrite W. cbn [negb]. apply path_ok_iff in V. rewrite V. cbn [rbind].
        cbv zeta. rewrite RH. cbn [of_opt with_err rbind].
        match goal with |- context [validate_hashes ?a ?b ?r ?d ?w ?ce] => assert (X : validate_hashes a b r d w ce = false) by (apply hashes_false; exact N); rewrite X end. reflexivity.
  Qed.
  Lemma header_ok_iff hv hd : header_from_e umod cap hv = ROk hd <-> header_from umod cap hv = OOk hd.
  Proof. rewrite <- forget_header. destruct (header_from_e umod cap hv); cbn [forget]; split; congruence. Qed.
  Lemma verify_errors x :
    verify_e umod cap ck H ple vs up uq gz df rq rs cid now off key mv = RErr x <->
    fault umod cap ck H ple vs up uq gz df rq rs cid now off key mv x.
  Proof.
    assert (HS := header_get_spec certificate_header_name (rs_headers rs)). assert (ES := header_get_spec cert_expr_header_name (rs_headers rs)). unfold verify_e. split.
    - destruct (header_get (lower certificate_header_name) (rs_headers rs)) as [hv|] eqn:HG.
      2:{ intro X; injection X as <-. apply NoHeader. exact HS. }
      destruct (header_from_e umod cap hv) as [hd|y| |] eqn:HF; cbn [rbind]; try discriminate.
      2:{ intro X; injection X as <-. apply C83_header_errors in HF. eapply BadHeader; eassumption. }
      apply header_ok_iff in HF. destruct (N.ltb_spec (h_version hd) mv) as [L|L].
      { intro X; injection X as <-. eapply OldVersion; eassumption. }
      destruct (N.eqb_spec (h_version hd) 1) as [V1|V1].
      { intro X. apply v1_errors in X. eapply Version1; eassumption. }
      destruct (N.eqb_spec (h_version hd) 2) as [V2|V2].
      2:{ intro X; injection X as <-. eapply OtherVersion; eassumption. }
      intro X. eapply Version2; try eassumption. revert X.
      destruct (header_get (lower cert_expr_header_name) (rs_headers rs)) as [expr|].
      2:{ intro X; injection X as <-. apply V2NoExpression. exact ES. }
      destruct (h_expr_path hd) as [e|] eqn:EP; [|intro X; injection X as <-; eapply V2NoPath; eassumption].
      destruct (cel_of_text expr) as [c|] eqn:CE; cbn [of_opt with_err rbind]; [|intro X; injection X as <-; eapply V2Cel; eassumption].
      intro X. apply (check_errors hd hv) in X; [|exact HG]. eapply V2Checks; eassumption.
    - destruct 1 as [N|v x LH F|v hd LH HF L|v hd x LH HF L V F|v hd x LH HF L V F|v hd LH HF L N1 N2].
      + apply no_header_fun in N. change (bs "IC-Certificate") with certificate_header_name in N. rewrite N. reflexivity.
      + apply last_header_fun in LH. change (bs "IC-Certificate") with certificate_header_name in LH. rewrite LH. apply C83_header_errors in F. rewrite F. reflexivity.
      + apply last_header_fun in LH. change (bs "IC-Certificate") with certificate_header_name in LH. rewrite LH. apply header_ok_iff in HF. rewrite HF. cbn [rbind]. apply N.ltb_lt in L. rewrite L. reflexivity.
      + apply last_header_fun in LH. change (bs "IC-Certificate") with certificate_header_name in LH. rewrite LH. apply header_ok_iff in HF. rewrite HF. cbn [rbind]. apply N.ltb_ge in L. rewrite L.
        rewrite V. cbn [N.eqb Pos.eqb]. apply v1_errors. exact F.
      + apply last_header_fun in LH. change (bs "IC-Certificate") with certificate_header_name in LH. rewrite LH. apply header_ok_iff in HF. rewrite HF. cbn [rbind]. apply N.ltb_ge in L. rewrite L.
        rewrite V. cbn [N.eqb Pos.eqb]. destruct F as [N|expr EX EP|expr e EX EP CE|expr e c x EX EP CE F].
        * apply no_header_fun in N. change (bs "IC-CertificateExpression") with cert_expr_header_name in N. rewrite N. reflexivity.
        * apply last_header_fun in EX. change (bs "IC-CertificateExpression") with cert_expr_header_name in EX. rewrite EX, EP. reflexivity.
        * apply last_header_fun in EX. change (bs "IC-CertificateExpression") with cert_expr_header_name in EX. rewrite EX, EP, CE. reflexivity.
        * apply last_header_fun in EX. change (bs "IC-CertificateExpression") with cert_expr_header_name in EX. rewrite EX, EP, CE. cbn [of_opt with_err rbind]. apply (check_errors hd v); assumption.
      + apply last_header_fun in LH. change (bs "IC-Certificate") with certificate_header_name in LH. rewrite LH. apply header_ok_iff in HF. rewrite HF. cbn [rbind]. apply N.ltb_ge in L. rewrite L.
        destruct (N.eqb_spec (h_version hd) 1); [contradiction|]. destruct (N.eqb_spec (h_version hd) 2); [contradiction|reflexivity].
  Qed.
End WholeErrors.

(** C83: a request-response pair is refused exactly with the error that says what is
    wrong with it: the first check that fails decides. *)
Theorem C83_reported_error :
  forall umod cap_max checked H ple vs uri_path uri_query gunzip inflate rq rs canister_id now offset key min_version (x : rv_error),
  (now + offset < 2 ^ 128)%N -> (offset <= now)%N -> length canister_id <= 29 ->
  (forall path, path_of uri_path rq path -> no_reserved_end path) ->
  (verify_e umod cap_max checked H ple vs uri_path uri_query gunzip inflate rq rs canister_id now offset key min_version = RErr x <->
   fault umod cap_max checked H ple vs uri_path uri_query gunzip inflate rq rs canister_id now offset key min_version x).
Proof. intros. apply verify_errors; assumption. Qed.
Print Assumptions C83_reported_error.

(** The error for a missing expression header is never reported, although it exists:
    its absence is reported as a missing certificate header. *)
Theorem C83_missing_expression_refuted :
  forall umod cap_max checked H ple vs uri_path uri_query gunzip inflate rq rs canister_id now offset key min_version,
  verify_e umod cap_max checked H ple vs uri_path uri_query gunzip inflate rq rs canister_id now offset key min_version <> RErr MissingCertificateExpression.
Proof.
  intros umod cap ck H ple vs up uq gz df rq rs cid now off key mv E. unfold verify_e in E.
  destruct (header_get (lower certificate_header_name) (rs_headers rs)) as [hv|]; [|discriminate].
  destruct (header_from_e umod cap hv) as [hd|y| |] eqn:HF; cbn [rbind] in E; try discriminate.
  2:{ injection E as ->. apply C83_header_errors in HF. inversion HF; subst. match goal with F : field_fault _ _ _ _ _ |- _ => inversion F end. }
  destruct (h_version hd <? mv)%N; [discriminate|]. destruct (h_version hd =? 1)%N.
  - unfold v1_verification_e in E.
    destruct (verify_certificate_e umod cap ck H ple vs (h_cert hd) cid key now off); cbn [rmap_err rbind] in E; try discriminate.
    destruct (get_path_e up rq); cbn [rmap_err rbind] in E; try discriminate.
    unfold decode_body_e in E. set (enc := header_get (bs "content-encoding") (rs_headers rs)) in *.
    match type of E with (rok _ <- ?d; _) = _ => destruct d as [d0|y| |] eqn:D end; cbn [rbind] in E; try discriminate.
    + destruct (negb (validate_tree H cid (h_cert hd) (h_tree hd))); [discriminate|]. cbv zeta in E.
      match type of E with (if ?b then _ else _) = _ => destruct b end; discriminate.
    + injection E as ->. destruct enc as [e|]; [|discriminate].
      destruct (bytes_eqb e (bs "gzip")); [destruct (gz (rs_body rs)); discriminate|]. destruct (bytes_eqb e (bs "deflate")); [destruct (df (rs_body rs)); discriminate|discriminate].
  - destruct (h_version hd =? 2)%N; [|discriminate].
    destruct (header_get (lower cert_expr_header_name) (rs_headers rs)) as [expr|]; [|discriminate].
    destruct (h_expr_path hd) as [e|]; [|discriminate]. destruct (cel_of_text expr) as [c|]; cbn [of_opt with_err rbind] in E; [|discriminate].
    unfold v2_verification_e in E.
    destruct (get_path_e up rq) as [path| | |]; cbn [rmap_err rbind] in E; try discriminate.
    destruct (verify_certificate_e umod cap ck H ple vs (h_cert hd) cid key now off); cbn [rmap_err rbind] in E; try discriminate.
    destruct (negb (validate_tree H cid (h_cert hd) (h_tree hd))); [discriminate|].
    destruct (validate_expr_path_e e path (h_tree hd)) as [[]|y| |] eqn:V; cbn [rbind] in E; try discriminate.
    + cbv zeta in E. destruct c as [|rc|qc rc].
      * destruct (validate_expr_hash e (H expr) (h_tree hd)); discriminate.
      * cbn [rbind] in E. match type of E with (if ?b then _ else _) = _ => destruct b end; [|discriminate]. destruct (snd (filter_response_headers rs rc)); discriminate.
      * destruct (request_hash H uq rq qc); cbn [of_opt with_err rbind] in E; [|discriminate].
        match type of E with (if ?b then _ else _) = _ => destruct b end; [|discriminate]. destruct (snd (filter_response_headers rs rc)); discriminate.
    + injection E as ->. unfold validate_expr_path_e in V.
      repeat match type of V with (if ?b then _ else _) = _ => destruct b; try discriminate | (let _ := _ in _) = _ => cbv zeta in V end.
      destruct (more_specific_wildcards_for (path_prefix :: request_parts path) e) as [l|]; [|discriminate]. destruct (first_might_exist l (h_tree hd)); [discriminate|]. destruct (path_exists e (h_tree hd)); discriminate.
Qed.
Print Assumptions C83_missing_expression_refuted.

(** ** Concrete cases: one-leaf certificates, every signature accepted *)
Definition eh (_ : bytes) : bytes := repeat x07 32.
Definition e_state : htree := ex_state (digest eh HEmpty).
Definition e_header (w : htree) (more : bytes) : bytes :=
  bs "certificate=:" ++ b64_enc true (enc_cert (mk_cert e_state (bs "sig") None)) ++ bs ":, tree=:" ++ b64_enc true (self_describe ++ enc_tree w) ++ bs ":" ++ more.
Definition e_verify (now mv : N) (headers : list (bytes * bytes)) : res rv_error info :=
  verify_e (2 ^ 64) (2 ^ 60) true eh ex_ple (fun _ _ _ => true) ex_uri ex_query ex_none ex_none
    (mk_request (bs "GET") (bs "/a/b?x") [] []) (mk_response 200 headers (bs "body")) (bs "e") now 20 (ex_key x01) mv.
Definition e_expr : bytes * bytes := (bs "IC-CertificateExpression", print_cel (CelResponseOnly (CertifiedHeaders []))).
Definition e_path (p : list bytes) : bytes := bs ", version=2, expr_path=:" ++ b64_enc true (self_describe ++ enc_strings p) ++ bs ":".
(** a witness that hides what stands below "a" *)
Definition e_wit : htree := HLabeled (bs "http_expr") (HFork (HLabeled (bs "<*>") (HLeaf [])) (HLabeled (bs "a") (HPruned (repeat x07 32)))).
Example e_no_header : e_verify 1000 1 [] = RErr MissingCertification.
Proof. vm_compute. reflexivity. Qed.
Example e_base64 : e_verify 1000 1 [(bs "ic-certificate", bs "version=2, certificate=:?:, tree=nonsense")] = RErr Base64DecodingError.
Proof. vm_compute. reflexivity. Qed.
Example e_version_number : e_verify 1000 1 [(bs "ic-certificate", bs "version=256, certificate=:?:")] = RErr ParseIntError.
Proof. vm_compute. reflexivity. Qed.
Example e_no_tree : e_verify 1000 1 [(bs "ic-certificate", bs "certificate=:" ++ b64_enc true (enc_cert (mk_cert e_state (bs "sig") None)) ++ bs ":")] = RErr MissingTree.
Proof. vm_compute. reflexivity. Qed.
Example e_old : e_verify 1000 2 [(bs "ic-certificate", e_header HEmpty [])] = RErr (RequestedVerificationVersionMismatch 2 1).
Proof. vm_compute. reflexivity. Qed.
Example e_unknown : e_verify 1000 2 [(bs "ic-certificate", e_header HEmpty (bs ", version=9"))] = RErr (UnsupportedVerificationVersion 1 2 9).
Proof. vm_compute. reflexivity. Qed.
Example e_late : e_verify 1021 1 [(bs "ic-certificate", e_header HEmpty [])] = RErr (CertificateVerificationFailed (TimeTooFarInThePast 1000 1001)).
Proof. vm_compute. reflexivity. Qed.
Example e_v1_body : e_verify 1020 1 [(bs "ic-certificate", e_header HEmpty [])] = RErr InvalidResponseBody.
Proof. vm_compute. reflexivity. Qed.
Example e_more_specific : e_verify 1000 2 [e_expr; (bs "ic-certificate", e_header e_wit (e_path [bs "http_expr"; bs "<*>"]))] =
  RErr (ExactExpressionPathMightExistInTree [bs "http_expr"; bs "<*>"] [bs "http_expr"; bs "a"; bs "b"; bs "<$>"] (bs "/a/b")).
Proof. vm_compute. reflexivity. Qed.
Example e_path_may : validate_expr_path_e [bs "http_expr"; bs "<*>"] (bs "/c")
    (HLabeled (bs "http_expr") (HFork (HLabeled (bs "<*>") (HLeaf [])) (HLabeled (bs "c") (HLabeled (bs "<*>") (HLeaf []))))) =
  RErr (MoreSpecificWildcardExpressionMightExistInTree [bs "http_expr"; bs "<*>"] [bs "http_expr"; bs "c"; bs "<*>"] (bs "/c")).
Proof. vm_compute. reflexivity. Qed.
(** and the hypotheses of the theorem hold of these *)
Example e_hypotheses : (1000 + 20 < 2 ^ 128)%N /\ length (bs "e") <= 29 /\
  forall path, path_of ex_uri (mk_request (bs "GET") (bs "/a/b?x") [] []) path -> no_reserved_end path.
Proof.
  split; [reflexivity|]. split; [vm_compute; lia|]. intros path P. apply C63_request_path_exact in P. vm_compute in P.
  assert (E : path = bs "/a/b") by (injection P as <-; reflexivity). subst path. split; intros q E; destruct q as [|x [|y [|z q]]]; discriminate.
Qed.
