(** Properties C46-C50: response verification end to end. *)
From Coq Require Import List Arith NArith Lia Bool.
From Verif Require Import Bytes Sha256 Toy Text Utf8 HashTree HashTreeSpec HashTreeProofs HashTreeSpecProofs Props_HashTree Cbor CborSpec Props_Cbor
  HttpTypes HttpHash HttpSpec Props_Hash Cel Wildcard WildcardSpec V2 Props_Wildcard Leb128 CertVerify CertSpec Props_Cert Base64 Header HeaderProofs Verify VerifySpec.
Import ListNotations.
Local Open Scope N_scope.

(** ** Header lookup *)
Lemma header_get_spec name hs :
  match header_get (lower name) hs with
  | Some v => last_header name hs v
  | None => no_header name hs
  end.
Proof.
  induction hs as [|[n v] hs IH]; cbn [header_get]; [constructor|].
  destruct (header_get (lower name) hs) as [x|].
  - destruct IH as (a & m & b & -> & S & F). exists ((n, v) :: a), m, b. auto.
  - destruct (bytes_eqb (lower n) (lower name)) eqn:E.
    + exists [], n, hs. split; [reflexivity|]. split; [apply eq_nocase_spec; exact E|exact IH].
    + constructor; [|exact IH]. cbn [fst]. apply eq_nocase_false. exact E.
Qed.
Lemma last_header_fun name hs v : last_header name hs v -> header_get (lower name) hs = Some v.
Proof.
  intros (a & n & b & -> & S & F). induction a as [|[m x] a IH]; cbn [app header_get].
  - assert (X := header_get_spec name b). destruct (header_get (lower name) b) as [y|].
    + exfalso. destruct X as (c & k & d & -> & S' & _). apply Forall_app in F. destruct F as [_ F]. inversion F; subst. auto.
    + apply eq_nocase_spec in S. unfold eq_nocase in S. rewrite S. reflexivity.
  - rewrite IH. reflexivity.
Qed.
Lemma no_header_fun name hs : no_header name hs -> header_get (lower name) hs = None.
Proof.
  intro F. assert (X := header_get_spec name hs). destruct (header_get (lower name) hs) as [y|]; [|reflexivity].
  exfalso. destruct X as (c & k & d & -> & S' & _). apply Forall_app in F. destruct F as [_ F]. inversion F; subst. auto.
Qed.

(** ** Percent decoding *)
Definition hex_table : bool :=
  forallb (fun n => let b := n2b (N.of_nat n) in
    match hex_val b with
    | Some h => match nth_error hex_digits (N.to_nat h) with Some c => byte_eqb c (lower_byte b) | None => false end
    | None => negb (existsb (byte_eqb (lower_byte b)) hex_digits)
    end) (seq 0 256).
Lemma hex_table_ok : hex_table = true. Proof. vm_compute. reflexivity. Qed.
Lemma hex_table_at b : 
    match hex_val b with
    | Some h => match nth_error hex_digits (N.to_nat h) with Some c => byte_eqb c (lower_byte b) | None => false end
    | None => negb (existsb (byte_eqb (lower_byte b)) hex_digits)
    end = true.
Proof.
  assert (X := hex_table_ok). unfold hex_table in X. rewrite forallb_forall in X.
  specialize (X (N.to_nat (b2n b))). rewrite N2Nat.id, n2b_b2n in X. apply X.
  apply in_seq. assert (L := b2n_lt b). lia.
Qed.
Lemma hex_nodup : NoDup hex_digits.
Proof.
  assert (X : forall l : bytes, (fix nd l := match l with [] => true | x :: r => negb (existsb (byte_eqb x) r) && nd r end) l = true -> NoDup l).
  { induction l as [|x l IH]; intro E; [constructor|]. apply andb_prop in E. destruct E as [E1 E2]. constructor; [|auto].
    intro I. apply negb_true_iff in E1. assert (Y : existsb (byte_eqb x) l = true); [|congruence].
    apply existsb_exists. exists x. split; [exact I|apply byte_eqb_refl]. }
  apply X. vm_compute. reflexivity.
Qed.
Lemma hex_val_spec b h : hex_val b = Some h <-> hex_digit b h.
Proof.
  unfold hex_digit. assert (T := hex_table_at b). split.
  - intro E. rewrite E in T. destruct (nth_error hex_digits (N.to_nat h)) as [c|]; [|discriminate].
    destruct (byte_eqb_spec c (lower_byte b)); [congruence|discriminate].
  - intro E. destruct (hex_val b) as [h'|].
    + destruct (nth_error hex_digits (N.to_nat h')) as [c|] eqn:E'; [|discriminate].
      destruct (byte_eqb_spec c (lower_byte b)) as [->|]; [|discriminate]. f_equal.
      assert (X : N.to_nat h' = N.to_nat h); [|lia].
      apply (proj1 (NoDup_nth_error hex_digits) hex_nodup); [apply nth_error_Some; congruence|congruence].
    + exfalso. apply negb_true_iff in T. apply nth_error_In in E. assert (Y : existsb (byte_eqb (lower_byte b)) hex_digits = true); [|congruence].
      apply existsb_exists. exists (lower_byte b). split; [exact E|apply byte_eqb_refl].
Qed.
Lemma pct_decode_cons b x y r : pct_decode (b :: x :: y :: r) =
  match (if byte_eqb b "%" then hex_val x else None), hex_val y with
  | Some h, Some l => n2b (16 * h + l) :: pct_decode r
  | _, _ => b :: pct_decode (x :: y :: r)
  end.
Proof. reflexivity. Qed.
Lemma pct_decode_spec s : pct_decodes s (pct_decode s).
Proof.
  remember (length s) as n eqn:L. revert s L. induction n as [n IH] using lt_wf_ind. intros s ->.
  destruct s as [|b s]; [constructor|].
  assert (R : pct_decodes s (pct_decode s)) by (apply (IH (length s)); [simpl; lia|reflexivity]).
  assert (P : ~ escape (b :: s) -> pct_decodes (b :: s) (b :: pct_decode s)) by (intro N; constructor; assumption).
  destruct s as [|x [|y r]].
  - apply P. intros (? & ? & ? & ? & ? & E & _). discriminate.
  - apply P. intros (? & ? & ? & ? & ? & E & _). discriminate.
  - rewrite pct_decode_cons. destruct (byte_eqb_spec b "%") as [->|N].
    2:{ apply P. intros (? & ? & ? & ? & ? & E & _). injection E as E. congruence. }
    destruct (hex_val x) as [h|] eqn:X.
    + destruct (hex_val y) as [l|] eqn:Y.
      * constructor; try (apply hex_val_spec; assumption). apply (IH (length r)); [simpl; lia|reflexivity].
      * apply P. intros (? & ? & ? & l & ? & E & _ & D). injection E as -> ->. apply hex_val_spec in D. congruence.
    + apply P. intros (? & ? & h & ? & ? & E & D & _). injection E as -> ->. apply hex_val_spec in D. congruence.
Qed.
Lemma pct_decodes_det s d d' : pct_decodes s d -> pct_decodes s d' -> d = d'.
Proof.
  intro A. revert d'. induction A as [|x y h l s d X Y A IH|b s d N A IH]; intros d' B; inversion B; subst; auto.
  - apply hex_val_spec in X, Y. match goal with U : hex_digit x _, V : hex_digit y _ |- _ => apply hex_val_spec in U, V end.
    f_equal; [congruence|auto].
  - exfalso. match goal with U : ~ escape _ |- _ => apply U end. exists x, y, h, l, s. auto.
  - exfalso. apply N. exists x, y, h, l, s0. auto.
  - f_equal. auto.
Qed.
(** The request path is the percent-decoded path of the URL. *)
Theorem C63_request_path_exact :
  forall (uri_path : bytes -> option bytes) (rq : request) (path : bytes),
  get_path uri_path rq = OOk path <-> path_of uri_path rq path.
Proof.
  intros u rq path. unfold get_path, path_of. destruct (u (rq_url rq)) as [p|]; [|split; [discriminate|intros (p & E & _); discriminate]].
  cbv zeta. destruct (utf8_valid (pct_decode p)) eqn:V; split.
  - intro E; injection E as <-. exists p. split; [reflexivity|]. split; [apply pct_decode_spec|exact V].
  - intros (q & E & D & _). injection E as <-. f_equal. eapply pct_decodes_det; [apply pct_decode_spec|exact D].
  - discriminate.
  - intros (q & E & D & W). injection E as <-. rewrite (pct_decodes_det _ _ _ D (pct_decode_spec p)) in W. congruence.
Qed.
Print Assumptions C63_request_path_exact.

(** ** C46 *)
Theorem C46_no_success_below_version :
  forall umod cap_max checked (H : bytes -> bytes) ple vs uri_path uri_query gunzip inflate rq rs canister_id now offset key min_version i,
  verify umod cap_max checked H ple vs uri_path uri_query gunzip inflate rq rs canister_id now offset key min_version = OOk i ->
  min_version <= i_version i /\ (i_version i = 1 \/ i_version i = 2) /\
  exists hv hd, last_header (bs "IC-Certificate") (rs_headers rs) hv /\ header_from umod cap_max hv = OOk hd /\ h_version hd = i_version i.
Proof.
  intros umod cap ck H ple vs up uq gz df rq rs cid now off key mv i E. unfold verify in E.
  assert (G := header_get_spec certificate_header_name (rs_headers rs)).
  destruct (header_get (lower certificate_header_name) (rs_headers rs)) as [hv|]; [|discriminate].
  destruct (header_from umod cap hv) as [hd| | |] eqn:HF; try discriminate. cbn [out_bind] in E.
  destruct (N.ltb_spec (h_version hd) mv) as [L|L]; [discriminate|].
  assert (X : i_version i = h_version hd /\ (i_version i = 1 \/ i_version i = 2)).
  { destruct (N.eqb_spec (h_version hd) 1) as [V|V].
    - unfold v1_verification in E.
      destruct (verify_certificate umod cap ck H ple vs (h_cert hd) cid key now off) as [[]| | |]; try discriminate. cbn [out_bind] in E.
      destruct (get_path up rq) as [path| | |]; try discriminate. cbn [out_bind] in E.
      destruct (decode_body gz df (rs_body rs) (header_get (bs "content-encoding") (rs_headers rs))) as [d| | |]; try discriminate. cbn [out_bind] in E.
      destruct (negb (validate_tree H cid (h_cert hd) (h_tree hd))); [discriminate|].
      match type of E with (if ?b then _ else _) = _ => destruct b; [|discriminate] end. injection E as <-. cbn. auto.
    - destruct (N.eqb_spec (h_version hd) 2) as [V2|]; [|discriminate].
      destruct (header_get (lower cert_expr_header_name) (rs_headers rs)) as [expr|]; [|discriminate].
      destruct (h_expr_path hd) as [e|]; [|discriminate].
      destruct (cel_of_text expr) as [c|]; [|discriminate]. cbn [of_opt out_bind] in E.
      unfold v2_verification in E.
      destruct (get_path up rq) as [path| | |]; try discriminate. cbn [out_bind] in E.
      destruct (verify_certificate umod cap ck H ple vs (h_cert hd) cid key now off) as [[]| | |]; try discriminate. cbn [out_bind] in E.
      destruct (negb (validate_tree H cid (h_cert hd) (h_tree hd))); [discriminate|].
      destruct (negb (validate_expr_path e path (h_tree hd))); [discriminate|].
      destruct c as [|rc|qc rc]; cbv zeta in E; cbn [out_bind] in E.
      + destruct (validate_expr_hash e (H expr) (h_tree hd)); [|discriminate]. injection E as <-. cbn. auto.
      + destruct (validate_hashes _ _ _ _ _ _); [|discriminate]. destruct (snd (filter_response_headers rs rc)); [|discriminate]. injection E as <-. cbn. auto.
      + destruct (request_hash H uq rq qc) as [h|]; [|discriminate]. cbn [of_opt out_bind] in E.
        destruct (validate_hashes _ _ _ _ _ _); [|discriminate]. destruct (snd (filter_response_headers rs rc)); [|discriminate]. injection E as <-. cbn. auto. }
  destruct X as [X1 X2]. split; [lia|]. split; [exact X2|]. exists hv, hd. auto.
Qed.
Print Assumptions C46_no_success_below_version.

(** ** C47, C48 *)
Lemma validate_tree_spec H cid c t :
  validate_tree H cid c t = true <-> lookup_path (certified_data_path cid) (c_tree c) = Found (digest H t).
Proof.
  unfold validate_tree, certified_data_path. destruct (lookup_path [bs "canister"; cid; bs "certified_data"] (c_tree c)) as [| |d|]; try (split; discriminate).
  split; intro E; [apply bytes_eqb_eq in E; congruence|injection E as ->; apply bytes_eqb_refl].
Qed.
Lemma lookup_subtree_app p q t : lookup_subtree (p ++ q) t =
  match lookup_subtree p t with SFound s => lookup_subtree q s | SAbsent => SAbsent | SUnknown => SUnknown end.
Proof.
  revert t. induction p as [|k p IH]; intro t; [reflexivity|]. cbn [app lookup_subtree].
  destruct (lookup_label k t); auto.
Qed.
(** What the witness must show. *)
Definition shown_entry (H : bytes -> bytes) uri_query (w : htree) (e : list bytes) (expr : bytes) (c : cel) rq rs : Prop :=
  match c with
  | CelSkip => exists s, lookup_subtree (e ++ [H expr]) w = SFound s
  | CelResponseOnly rc => lookup_subtree (e ++ [H expr; []; response_hash H rs rc None]) w = SFound (HLeaf [])
  | CelFull qc rc => exists h, request_hash H uri_query rq qc = Some h /\
      lookup_subtree (e ++ [H expr; h; response_hash H rs rc None]) w = SFound (HLeaf [])
  end.
Definition shown_response (c : cel) (rs : response) (o : option verified) : Prop :=
  let shown rc := exists ch, snd (filter_response_headers rs rc) = Some ch /\
      o = Some (mk_verified (Some (rs_status rs)) (fst (filter_response_headers rs rc) ++ [(certificate_header_name, ch)]) (rs_body rs)) in
  match c with CelSkip => o = None | CelResponseOnly rc => shown rc | CelFull _ rc => shown rc end.
Lemma validate_hashes_spec eh rqh rsh e w c :
  validate_hashes eh rqh rsh e w c = true <->
  lookup_subtree (e ++ [eh; match c, rqh with CelFull _ _, Some h => h | _, _ => [] end; rsh]) w = SFound (HLeaf []).
Proof.
  unfold validate_hashes, validate_expr_hash. set (k := match c, rqh with CelFull _ _, Some h => h | _, _ => [] end).
  change [eh; k; rsh] with ([eh] ++ [k; rsh]). rewrite app_assoc, (lookup_subtree_app (e ++ [eh]) [k; rsh]).
  destruct (lookup_subtree (e ++ [eh]) w) as [| |s]; [split; intro X; discriminate X|split; intro X; discriminate X|].
  destruct (lookup_subtree [k; rsh] s) as [| |[| | |[|]|]]; split; intro X; try discriminate X; reflexivity.
Qed.
Lemma v2_spec umod cap ck H ple vs up uq rq rs cid now off t c e eh expr key i : eh = H expr -> forall ce,
  v2_verification umod cap ck H ple vs up uq rq rs cid now off t c e eh ce key = OOk i <->
  (exists path, get_path up rq = OOk path /\ validate_expr_path e path t = true) /\
  verify_certificate umod cap ck H ple vs c cid key now off = OOk tt /\
  validate_tree H cid c t = true /\
  shown_entry H uq t e expr ce rq rs /\ shown_response ce rs (i_response i) /\ i_version i = 2.
Proof.
  intros -> ce. unfold v2_verification. split.
  - intro E.
    destruct (get_path up rq) as [path| | |]; try discriminate. cbn [out_bind] in E.
    destruct (verify_certificate umod cap ck H ple vs c cid key now off) as [[]| | |]; try discriminate. cbn [out_bind] in E.
    destruct (validate_tree H cid c t); [|discriminate]. cbn [negb] in E.
    destruct (validate_expr_path e path t) eqn:V; [|discriminate]. cbn [negb] in E. cbv zeta in E.
    split; [exists path; auto|]. split; [reflexivity|]. split; [reflexivity|].
    destruct ce as [|rc|qc rc]; cbn [out_bind] in E.
    + unfold validate_expr_hash in E. destruct (lookup_subtree (e ++ [H expr]) t) as [| |s] eqn:L; try discriminate. injection E as <-.
      split; [exists s; exact L|]. split; reflexivity.
    + destruct (validate_hashes _ _ _ _ _ _) eqn:VH; [|discriminate]. apply validate_hashes_spec in VH.
      destruct (snd (filter_response_headers rs rc)) as [ch|] eqn:F; [|discriminate]. injection E as <-.
      split; [exact VH|]. split; [|reflexivity]. exists ch. auto.
    + destruct (request_hash H uq rq qc) as [h|] eqn:RH; [|discriminate]. cbn [of_opt out_bind] in E.
      destruct (validate_hashes _ _ _ _ _ _) eqn:VH; [|discriminate]. apply validate_hashes_spec in VH.
      destruct (snd (filter_response_headers rs rc)) as [ch|] eqn:F; [|discriminate]. injection E as <-.
      split; [exists h; split; [exact RH|exact VH]|]. split; [|reflexivity]. exists ch. auto.
  - intros ((path & GP & V) & VC & VT & SE & SR & VV). destruct i as [o ver]. cbn [i_version i_response] in *. subst ver.
    rewrite GP. cbn [out_bind]. rewrite VC. cbn [out_bind]. rewrite VT, V. cbn [negb]. cbv zeta.
    destruct ce as [|rc|qc rc]; cbn [out_bind].
    + destruct SE as (s & L). unfold validate_expr_hash. rewrite L. cbn in SR. subst o. reflexivity.
    + destruct SR as (ch & F & ->).
      match goal with |- context [validate_hashes ?a ?b ?r ?d ?w ?ce] => assert (X : validate_hashes a b r d w ce = true) by (apply validate_hashes_spec; exact SE); rewrite X end.
      rewrite F. reflexivity.
    + destruct SR as (ch & F & ->). destruct SE as (h & RH & SE). rewrite RH. cbn [of_opt out_bind].
      match goal with |- context [validate_hashes ?a ?b ?r ?d ?w ?ce] => assert (X : validate_hashes a b r d w ce = true) by (apply validate_hashes_spec; exact SE); rewrite X end.
      rewrite F. reflexivity.
Qed.
Lemma verify_v2_spec umod cap ck H ple vs up uq gz df rq rs cid now off key mv i :
  verify umod cap ck H ple vs up uq gz df rq rs cid now off key mv = OOk i /\ i_version i = 2 <->
  exists hv hd expr e c,
    last_header (bs "IC-Certificate") (rs_headers rs) hv /\ header_from umod cap hv = OOk hd /\
    h_version hd = 2 /\ mv <= 2 /\
    last_header (bs "IC-CertificateExpression") (rs_headers rs) expr /\ cel_of_text expr = Some c /\ h_expr_path hd = Some e /\
    v2_verification umod cap ck H ple vs up uq rq rs cid now off (h_tree hd) (h_cert hd) e (H expr) c key = OOk i.
Proof.
  split.
  - intros [E V2].
    destruct (C46_no_success_below_version _ _ _ _ _ _ _ _ _ _ _ _ _ _ _ _ _ _ E) as (L & _ & hv & hd & LH & HF & HV).
    unfold verify in E. assert (X := last_header_fun _ _ _ LH). change (bs "IC-Certificate") with certificate_header_name in X. rewrite X, HF in E. cbn [out_bind] in E.
    rewrite V2 in HV, L. rewrite HV in E. destruct (2 <? mv); [discriminate|]. cbn [N.eqb Pos.eqb] in E.
    assert (G := header_get_spec cert_expr_header_name (rs_headers rs)).
    destruct (header_get (lower cert_expr_header_name) (rs_headers rs)) as [expr|]; [|discriminate].
    destruct (h_expr_path hd) as [e|] eqn:EP; [|discriminate]. destruct (cel_of_text expr) as [c|] eqn:CE; [|discriminate].
    cbn [of_opt out_bind] in E. exists hv, hd, expr, e, c. auto 10.
  - intros (hv & hd & expr & e & c & LH & HF & HV & L & LE & CE & EP & E). split.
    + unfold verify. assert (X := last_header_fun _ _ _ LH). change (bs "IC-Certificate") with certificate_header_name in X. rewrite X, HF. cbn [out_bind].
      rewrite HV. assert (Y : 2 <? mv = false) by (apply N.ltb_ge; exact L). rewrite Y. cbn [N.eqb Pos.eqb].
      assert (Z := last_header_fun _ _ _ LE). change (bs "IC-CertificateExpression") with cert_expr_header_name in Z. rewrite Z, EP, CE. exact E.
    + apply (v2_spec umod cap ck H ple vs up uq rq rs cid now off _ _ _ (H expr) expr key i eq_refl) in E. tauto.
Qed.

Lemma fill_some {A} (P : A -> Prop) slot d v s : (forall x, slot = Some x -> P x) -> (forall v x, d v = OOk x -> P x) ->
  fill slot d v = OOk s -> forall x, s = Some x -> P x.
Proof.
  intros F D E x ->. unfold fill in E. destruct slot as [y|]; [injection E as ->; auto|].
  destruct (d v) as [y| | |] eqn:Q; try discriminate. injection E as ->. eauto.
Qed.
Lemma decode_tree32 umod cap v t : decode_tree umod cap v = OOk t -> HashTree.hashes32 t = true.
Proof.
  unfold decode_tree. destruct (b64_dec v) as [b|]; [|discriminate]. cbn [of_opt out_bind]. intro E.
  apply hashes32_bool. eapply C20_decoded_hashes_are_32_bytes. exact E.
Qed.
Lemma decode_cert32 umod cap v c : decode_certificate umod cap v = OOk c -> HashTree.hashes32 (c_tree c) = true.
Proof.
  unfold decode_certificate. destruct (b64_dec v) as [b|]; [|discriminate]. cbn [of_opt out_bind]. apply cert_hashes32.
Qed.
Definition slots32 (s : slots) : Prop :=
  (forall c, s_cert s = Some c -> HashTree.hashes32 (c_tree c) = true) /\ (forall t, s_tree s = Some t -> HashTree.hashes32 t = true).
Lemma add_field32 umod cap s f s' : slots32 s -> add_field umod cap s f = OOk s' -> slots32 s'.
Proof.
  intros [A B] E. unfold add_field in E. destruct (header_field f) as [[n v]|]; [|injection E as <-; split; assumption].
  destruct (bytes_eqb n (bs "certificate")).
  { destruct (fill (s_cert s) (decode_certificate umod cap) v) as [o| | |] eqn:F; try discriminate. injection E as <-.
    split; [|exact B]. cbn [s_cert]. intros c Q. eapply (fill_some (fun c => HashTree.hashes32 (c_tree c) = true)); eauto using decode_cert32. }
  destruct (bytes_eqb n (bs "tree")).
  { destruct (fill (s_tree s) (decode_tree umod cap) v) as [o| | |] eqn:F; try discriminate. injection E as <-.
    split; [exact A|]. cbn [s_tree]. intros c Q. eapply (fill_some (fun c => HashTree.hashes32 c = true)); eauto using decode_tree32. }
  destruct (bytes_eqb n (bs "version")).
  { destruct (fill (s_version s) decode_version v); try discriminate. injection E as <-. split; assumption. }
  destruct (bytes_eqb n (bs "expr_path")).
  { destruct (fill (s_path s) (decode_expr_path umod cap) v); try discriminate. injection E as <-. split; assumption. }
  injection E as <-. split; assumption.
Qed.
Lemma header_hashes32 umod cap hv hd : header_from umod cap hv = OOk hd ->
  HashTree.hashes32 (c_tree (h_cert hd)) = true /\ HashTree.hashes32 (h_tree hd) = true.
Proof.
  unfold header_from. intro E.
  assert (G : forall fs s s', slots32 s -> add_fields umod cap s fs = OOk s' -> slots32 s').
  { induction fs as [|f fs IH]; intros s s' S Q; cbn [add_fields] in Q; [injection Q as <-; exact S|].
    destruct (add_field umod cap s f) as [s1| | |] eqn:F; try discriminate. cbn [out_bind] in Q. eauto using add_field32. }
  destruct (add_fields umod cap (mk_slots None None None None) (split_on "," hv)) as [s| | |] eqn:F; try discriminate. cbn [out_bind] in E.
  assert (S : slots32 s) by (refine (G _ _ _ _ F); split; intros ? X; discriminate X). destruct S as [A B].
  destruct (s_cert s) as [c|]; [|discriminate]. destruct (s_tree s) as [t|]; [|discriminate]. injection E as <-. cbn. auto.
Qed.

(** From what the witness shows to what the certified tree contains. *)
Lemma shown_certified H uq t w e expr c rq rs : wf t -> full t = true -> prunes H t w ->
  shown_entry H uq w e expr c rq rs -> certified_entry H uq t e expr c rq rs.
Proof.
  intros W F P.
  assert (S : forall p s, lookup_subtree p w = SFound s -> exists s', at_path p t s' /\ prunes H s' s).
  { intros p s L. generalize (lookup_subtree_sound H p t w W F P). rewrite L. auto. }
  assert (L : forall p, lookup_subtree p w = SFound (HLeaf []) -> at_path p t (HLeaf [])).
  { intros p X. destruct (S _ _ X) as (s' & A & Q). inversion Q; subst. exact A. }
  destruct c as [|rc|qc rc]; cbn.
  - intros (s & X). destruct (S _ _ X) as (s' & A & _). eauto.
  - apply L.
  - intros (h & R & X). eauto.
Qed.

(** C47.  [t] is any well-formed full tree whose root hash is the certified
    data, e.g. the one the canister holds. *)
Theorem C47_v2_soundness :
  forall umod cap_max checked (H : bytes -> bytes) ple vs uri_path uri_query gunzip inflate rq rs canister_id now offset key min_version i,
  (forall x, length (H x) = 32%nat) ->
  verify umod cap_max checked H ple vs uri_path uri_query gunzip inflate rq rs canister_id now offset key min_version = OOk i ->
  i_version i = 2 ->
  exists hv hd expr e c path,
    last_header (bs "IC-Certificate") (rs_headers rs) hv /\ header_from umod cap_max hv = OOk hd /\
    last_header (bs "IC-CertificateExpression") (rs_headers rs) expr /\ cel_of_text expr = Some c /\
    h_expr_path hd = Some e /\ path_of uri_path rq path /\
    verify_certificate umod cap_max checked H ple vs (h_cert hd) canister_id key now offset = OOk tt /\
    lookup_path (certified_data_path canister_id) (c_tree (h_cert hd)) = Found (digest H (h_tree hd)) /\
    forall t, wf t -> full t = true -> digest H t = digest H (h_tree hd) ->
      collision H (preimages H t) (preimages H (h_tree hd)) \/
      (certified_entry H uri_query t e expr c rq rs /\ (ordinary_path path -> expression_path_for t path e)).
Proof.
  intros umod cap ck H ple vs up uq gz df rq rs cid now off key mv i HL E V.
  destruct (proj1 (verify_v2_spec umod cap ck H ple vs up uq gz df rq rs cid now off key mv i) (conj E V)) as (hv & hd & expr & e & c & A1 & A2 & A3 & A4 & A5 & A6 & A7 & A8).
  apply (v2_spec umod cap ck H ple vs up uq rq rs cid now off _ _ _ (H expr) expr key i eq_refl) in A8.
  destruct A8 as ((path & GP & VP) & VC & VT & SE & _).
  exists hv, hd, expr, e, c, path. do 5 (split; [assumption|]).
  split; [apply C63_request_path_exact; exact GP|]. split; [exact VC|]. split; [apply validate_tree_spec; exact VT|].
  intros t W F D. destruct (C02_full_tree_determines_witness H HL t (h_tree hd) F (proj2 (header_hashes32 _ _ _ _ A2)) D) as [P|C]; [|left; exact C].
  right. split; [exact (shown_certified H uq t _ e expr c rq rs W F P SE)|].
  intro O. exact (C36_accepted_path_is_most_specific_partial H t _ e path W F P O VP).
Qed.
Print Assumptions C47_v2_soundness.

(** C48 *)
Theorem C48_v2_returns_only_certified_data :
  forall umod cap_max checked (H : bytes -> bytes) ple vs uri_path uri_query gunzip inflate rq rs canister_id now offset key min_version i,
  verify umod cap_max checked H ple vs uri_path uri_query gunzip inflate rq rs canister_id now offset key min_version = OOk i ->
  i_version i = 2 ->
  exists expr c, last_header (bs "IC-CertificateExpression") (rs_headers rs) expr /\ cel_of_text expr = Some c /\
  match c with
  | CelSkip => i_response i = None
  | CelResponseOnly rc | CelFull _ rc =>
      exists v hs hv, i_response i = Some v /\ v_status v = Some (rs_status rs) /\ v_body v = rs_body rs /\
        v_headers v = hs ++ [(bs "IC-Certificate", hv)] /\
        picks (covered rc) (rs_headers rs) hs /\ last_header (bs "IC-Certificate") (rs_headers rs) hv
  end.
Proof.
  intros umod cap ck H ple vs up uq gz df rq rs cid now off key mv i E V.
  destruct (proj1 (verify_v2_spec umod cap ck H ple vs up uq gz df rq rs cid now off key mv i) (conj E V)) as (hv & hd & expr & e & c & A1 & A2 & A3 & A4 & A5 & A6 & A7 & A8).
  apply (v2_spec umod cap ck H ple vs up uq rq rs cid now off _ _ _ (H expr) expr key i eq_refl) in A8.
  destruct A8 as (_ & _ & _ & _ & SR & _). exists expr, c. split; [exact A5|]. split; [exact A6|].
  assert (G : forall rc, (exists ch, snd (filter_response_headers rs rc) = Some ch /\
      i_response i = Some (mk_verified (Some (rs_status rs)) (fst (filter_response_headers rs rc) ++ [(certificate_header_name, ch)]) (rs_body rs))) ->
      exists v hs hv, i_response i = Some v /\ v_status v = Some (rs_status rs) /\ v_body v = rs_body rs /\
        v_headers v = hs ++ [(bs "IC-Certificate", hv)] /\
        picks (covered rc) (rs_headers rs) hs /\ last_header (bs "IC-Certificate") (rs_headers rs) hv).
  { intros rc (ch & F & ->). destruct (C29_header_filter_exact rs rc) as [X Y]. rewrite F in Y.
    exists (mk_verified (Some (rs_status rs)) (fst (filter_response_headers rs rc) ++ [(certificate_header_name, ch)]) (rs_body rs)), (fst (filter_response_headers rs rc)), ch.
    repeat split; auto. }
  destruct c as [|rc|qc rc]; [exact SR|apply G; exact SR|apply G; exact SR].
Qed.
Print Assumptions C48_v2_returns_only_certified_data.

(** ** C47 down to the state certified by the IC *)
(** State trees that speak for a canister: the root subnet's, or that of a
    subnet to which a root state assigns the canister. *)
Definition speaks_for (umod cap_max : N) (ple : bytes -> bytes -> bool) (Root : htree -> Prop) (Sub : bytes -> htree -> Prop) (canister_id : bytes) (St : htree) : Prop :=
  Root St \/
  exists r subnet enc ranges lo hi, Root r /\
    at_path (subnet_path subnet (bs "canister_ranges")) r (HLeaf enc) /\
    principals_from_cbor umod cap_max enc = OOk ranges /\ In (lo, hi) ranges /\
    ple lo canister_id = true /\ ple canister_id hi = true /\ Sub subnet St.
(** An explicit SHA-256 collision between trees the IC certified and trees the
    response's certificate presents. *)
Definition certificate_collision (umod cap_max : N) (H : bytes -> bytes) (Root : htree -> Prop) (Sub : bytes -> htree -> Prop) (c : certificate) : Prop :=
  (exists St, (Root St \/ exists s, Sub s St) /\ collision H (preimages H St) (preimages H (c_tree c))) \/
  (exists d dc r, c_deleg c = Some d /\ cert_from_cbor umod cap_max (d_cert d) = OOk dc /\ Root r /\
     collision H (preimages H r) (preimages H (c_tree dc))).
Lemma certified_state umod cap ck H ple vs key Root Sub c cid now off d :
  (forall x, length (H x) = 32%nat) -> unforgeable H vs key Root Sub -> HashTree.hashes32 (c_tree c) = true ->
  verify_certificate umod cap ck H ple vs c cid key now off = OOk tt ->
  lookup_path (certified_data_path cid) (c_tree c) = Found d ->
  certificate_collision umod cap H Root Sub c \/
  exists St, speaks_for umod cap ple Root Sub cid St /\ at_path (certified_data_path cid) St (HLeaf d).
Proof.
  intros HL U W E L. assert (U' := U). destruct U' as (WR & WS & _).
  destruct (C40_shows_certified_state umod cap ck H ple vs key Root Sub HL U c cid now off W E) as [(t & R & _ & [P|C])|(dl & dc & r & D & DC & R & [C|(t & enc & ranges & lo & hi & A1 & A2 & A3 & A4 & A5 & S & [P|C])])].
  - right. destruct (WR t R) as [Wt Ft]. exists t. split; [left; exact R|].
    apply (C03_found_is_sound H t _ _ _ Wt Ft P) in L. apply lookup_path_at_iff in L; auto.
  - left. left. exists t. auto.
  - left. right. exists dl, dc, r. auto.
  - right. destruct (WS _ t S) as [Wt Ft]. exists t. split; [right; exists r, (d_subnet dl), enc, ranges, lo, hi; auto 10|].
    apply (C03_found_is_sound H t _ _ _ Wt Ft P) in L. apply lookup_path_at_iff in L; auto.
  - left. left. exists t. split; [right; eauto|exact C].
Qed.
Theorem C47_v2_shows_canister_tree :
  forall umod cap_max checked (H : bytes -> bytes) ple vs uri_path uri_query gunzip inflate key (Root : htree -> Prop) (Sub : bytes -> htree -> Prop),
  (forall x, length (H x) = 32%nat) -> unforgeable H vs key Root Sub ->
  forall rq rs canister_id now offset min_version i,
  verify umod cap_max checked H ple vs uri_path uri_query gunzip inflate rq rs canister_id now offset key min_version = OOk i ->
  i_version i = 2 ->
  exists hv hd expr e c path,
    last_header (bs "IC-Certificate") (rs_headers rs) hv /\ header_from umod cap_max hv = OOk hd /\
    last_header (bs "IC-CertificateExpression") (rs_headers rs) expr /\ cel_of_text expr = Some c /\ path_of uri_path rq path /\
    (certificate_collision umod cap_max H Root Sub (h_cert hd) \/
     exists St data, speaks_for umod cap_max ple Root Sub canister_id St /\
       at_path (certified_data_path canister_id) St (HLeaf data) /\
       forall t, wf t -> full t = true -> digest H t = data ->
         collision H (preimages H t) (preimages H (h_tree hd)) \/
         (certified_entry H uri_query t e expr c rq rs /\ (ordinary_path path -> expression_path_for t path e))).
Proof.
  intros umod cap ck H ple vs up uq gz df key Root Sub HL U rq rs cid now off mv i E V.
  destruct (C47_v2_soundness _ _ _ _ _ _ _ _ _ _ _ _ _ _ _ _ _ _ HL E V) as (hv & hd & expr & e & c & path & A1 & A2 & A3 & A4 & A5 & A6 & A7 & A8 & A9).
  exists hv, hd, expr, e, c, path. do 5 (split; [assumption|]).
  destruct (certified_state umod cap ck H ple vs key Root Sub (h_cert hd) cid now off _ HL U (proj1 (header_hashes32 _ _ _ _ A2)) A7 A8) as [C|(St & S & A)]; [left; exact C|].
  right. exists St, (digest H (h_tree hd)). auto.
Qed.
Print Assumptions C47_v2_shows_canister_tree.

(** ** C49, C50 *)
Definition encoding_of (hs : list (bytes * bytes)) (o : option bytes) : Prop :=
  match o with Some v => last_header (bs "content-encoding") hs v | None => no_header (bs "content-encoding") hs end.
Lemma encoding_get hs : encoding_of hs (header_get (bs "content-encoding") hs).
Proof. exact (header_get_spec (bs "content-encoding") hs). Qed.
Lemma encoding_fun hs o : encoding_of hs o -> header_get (bs "content-encoding") hs = o.
Proof. destruct o as [v|]; [exact (last_header_fun (bs "content-encoding") hs v)|exact (no_header_fun (bs "content-encoding") hs)]. Qed.
Lemma decode_body_spec gz df body enc d : decode_body gz df body enc = OOk d <-> decoded_body gz df enc body d.
Proof.
  unfold decode_body, decoded_body. destruct enc as [e|].
  - destruct (bytes_eqb_spec e (bs "gzip")) as [->|N1].
    + split.
      * destruct (gz body) as [x|]; [|discriminate]. intro X; injection X as ->. auto.
      * intros [[_ X]|[[X _]|(X & _)]]; [rewrite X; reflexivity|discriminate X|congruence].
    + destruct (bytes_eqb_spec e (bs "deflate")) as [->|N2].
      * split.
        -- destruct (df body) as [x|]; [|discriminate]. intro X; injection X as ->. auto.
        -- intros [[X _]|[[_ X]|(_ & X & _)]]; [discriminate X|rewrite X; reflexivity|congruence].
      * split.
        -- intro X; injection X as ->. right. right. repeat split; congruence.
        -- intros [[X _]|[[X _]|(_ & _ & ->)]]; [congruence|congruence|reflexivity].
  - split; [intro X; injection X as ->; right; right; repeat split; congruence|].
    intros [[X _]|[[X _]|(_ & _ & ->)]]; [congruence|congruence|reflexivity].
Qed.
(** The value the witness shows for the request path, or failing that for
    "/index.html". *)
Definition shown_sha (w : htree) (path v : bytes) : Prop :=
  lookup_path (asset_path path) w = Found v \/
  ((forall u, lookup_path (asset_path path) w <> Found u) /\ lookup_path (asset_path (bs "/index.html")) w = Found v).
Lemma validate_body_spec w path sha : validate_body w path sha = true <-> shown_sha w path sha.
Proof.
  unfold validate_body, shown_sha, asset_path.
  assert (Q : (match lookup_path [bs "http_assets"; bs "/index.html"] w with Found v => bytes_eqb sha v | _ => false end = true) <->
     lookup_path [bs "http_assets"; bs "/index.html"] w = Found sha).
  { destruct (lookup_path [bs "http_assets"; bs "/index.html"] w) as [| |v|]; try (split; intro X; discriminate X).
    split; intro X; [apply bytes_eqb_eq in X; congruence|injection X as ->; apply bytes_eqb_refl]. }
  destruct (lookup_path [bs "http_assets"; path] w) as [| |v|].
  - rewrite Q. split; [intro X; right; split; [discriminate|exact X]|intros [X|[_ X]]; [discriminate X|exact X]].
  - rewrite Q. split; [intro X; right; split; [discriminate|exact X]|intros [X|[_ X]]; [discriminate X|exact X]].
  - split; [intro X; apply bytes_eqb_eq in X; subst; auto|]. intros [X|[N _]]; [injection X as ->; apply bytes_eqb_refl|exfalso; exact (N v eq_refl)].
  - rewrite Q. split; [intro X; right; split; [discriminate|exact X]|intros [X|[_ X]]; [discriminate X|exact X]].
Qed.
(** C49, both directions: what exactly v1 verification accepts. *)
Theorem C49_v1_accepted_iff :
  forall umod cap_max checked (H : bytes -> bytes) ple vs uri_path uri_query gunzip inflate rq rs canister_id now offset key min_version i,
  verify umod cap_max checked H ple vs uri_path uri_query gunzip inflate rq rs canister_id now offset key min_version = OOk i /\ i_version i = 1 <->
  exists hv hd path enc d,
    last_header (bs "IC-Certificate") (rs_headers rs) hv /\ header_from umod cap_max hv = OOk hd /\ h_version hd = 1 /\ min_version <= 1 /\
    path_of uri_path rq path /\ encoding_of (rs_headers rs) enc /\ decoded_body gunzip inflate enc (rs_body rs) d /\
    verify_certificate umod cap_max checked H ple vs (h_cert hd) canister_id key now offset = OOk tt /\
    lookup_path (certified_data_path canister_id) (c_tree (h_cert hd)) = Found (digest H (h_tree hd)) /\
    (shown_sha (h_tree hd) path (H d) \/ shown_sha (h_tree hd) path (H (rs_body rs))) /\
    i = mk_info (Some (mk_verified None [] (rs_body rs))) 1.
Proof.
  intros umod cap ck H ple vs up uq gz df rq rs cid now off key mv i. split.
  - intros [E V].
    destruct (C46_no_success_below_version _ _ _ _ _ _ _ _ _ _ _ _ _ _ _ _ _ _ E) as (L & _ & hv & hd & LH & HF & HV).
    unfold verify in E. assert (X := last_header_fun _ _ _ LH). change (bs "IC-Certificate") with certificate_header_name in X. rewrite X, HF in E. cbn [out_bind] in E.
    rewrite V in HV, L. rewrite HV in E. destruct (1 <? mv); [discriminate|]. cbn [N.eqb Pos.eqb] in E. unfold v1_verification in E.
    destruct (verify_certificate umod cap ck H ple vs (h_cert hd) cid key now off) as [[]| | |] eqn:VC; try discriminate. cbn [out_bind] in E.
    destruct (get_path up rq) as [path| | |] eqn:GP; try discriminate. cbn [out_bind] in E. apply C63_request_path_exact in GP.
    assert (EN := encoding_get (rs_headers rs)). set (enc := header_get (bs "content-encoding") (rs_headers rs)) in *.
    destruct (decode_body gz df (rs_body rs) enc) as [d| | |] eqn:DB; try discriminate. cbn [out_bind] in E. apply decode_body_spec in DB.
    destruct (validate_tree H cid (h_cert hd) (h_tree hd)) eqn:VT; [|discriminate]. cbn [negb] in E. apply validate_tree_spec in VT. cbv zeta in E.
    exists hv, hd, path, enc, d. do 9 (split; [assumption|]).
    destruct (validate_body (h_tree hd) path (H d)) eqn:V0.
    + apply validate_body_spec in V0. split; [left; exact V0|]. destruct enc; injection E as <-; reflexivity.
    + destruct enc as [en|]; [|discriminate]. destruct (validate_body (h_tree hd) path (H (rs_body rs))) eqn:V1; [|discriminate].
      apply validate_body_spec in V1. split; [right; exact V1|]. injection E as <-. reflexivity.
  - intros (hv & hd & path & enc & d & LH & HF & HV & L & GP & EN & DB & VC & VT & SB & ->). split; [|reflexivity].
    unfold verify. assert (X := last_header_fun _ _ _ LH). change (bs "IC-Certificate") with certificate_header_name in X. rewrite X, HF. cbn [out_bind].
    rewrite HV. assert (Y : 1 <? mv = false) by (apply N.ltb_ge; exact L). rewrite Y. cbn [N.eqb Pos.eqb].
    apply encoding_fun in EN. rewrite EN. unfold v1_verification. rewrite VC. cbn [out_bind].
    apply C63_request_path_exact in GP. rewrite GP. cbn [out_bind]. assert (DB' := DB). apply decode_body_spec in DB. rewrite DB. cbn [out_bind].
    apply validate_tree_spec in VT. rewrite VT. cbn [negb]. cbv zeta.
    destruct SB as [SB|SB]; apply validate_body_spec in SB.
    + rewrite SB. destruct enc; reflexivity.
    + destruct enc as [en|]; [rewrite SB; destruct (validate_body (h_tree hd) path (H d)); reflexivity|].
      destruct DB' as [[Z _]|[[Z _]|(_ & _ & ->)]]; [discriminate Z|discriminate Z|]. rewrite SB. reflexivity.
Qed.
Print Assumptions C49_v1_accepted_iff.
(** C49, down to the canister's tree. *)
Theorem C49_v1_soundness :
  forall umod cap_max checked (H : bytes -> bytes) ple vs uri_path uri_query gunzip inflate key (Root : htree -> Prop) (Sub : bytes -> htree -> Prop),
  (forall x, length (H x) = 32%nat) -> unforgeable H vs key Root Sub ->
  forall rq rs canister_id now offset min_version i,
  verify umod cap_max checked H ple vs uri_path uri_query gunzip inflate rq rs canister_id now offset key min_version = OOk i ->
  i_version i = 1 ->
  i_response i = Some (mk_verified None [] (rs_body rs)) /\
  exists hv hd path enc d,
    last_header (bs "IC-Certificate") (rs_headers rs) hv /\ header_from umod cap_max hv = OOk hd /\
    path_of uri_path rq path /\ encoding_of (rs_headers rs) enc /\ decoded_body gunzip inflate enc (rs_body rs) d /\
    (certificate_collision umod cap_max H Root Sub (h_cert hd) \/
     exists St data, speaks_for umod cap_max ple Root Sub canister_id St /\
       at_path (certified_data_path canister_id) St (HLeaf data) /\
       forall t, wf t -> full t = true -> digest H t = data ->
         collision H (preimages H t) (preimages H (h_tree hd)) \/
         exists v, (v = H d \/ v = H (rs_body rs)) /\
           (at_path (asset_path path) t (HLeaf v) \/
            (at_path (asset_path (bs "/index.html")) t (HLeaf v) /\ forall u, lookup_path (asset_path path) (h_tree hd) <> Found u))).
Proof.
  intros umod cap ck H ple vs up uq gz df key Root Sub HL U rq rs cid now off mv i E V.
  destruct (proj1 (C49_v1_accepted_iff umod cap ck H ple vs up uq gz df rq rs cid now off key mv i) (conj E V)) as (hv & hd & path & enc & d & A1 & A2 & A3 & A4 & A5 & A6 & A7 & A8 & A9 & SB & ->).
  split; [reflexivity|]. exists hv, hd, path, enc, d. do 5 (split; [assumption|]).
  destruct (certified_state umod cap ck H ple vs key Root Sub (h_cert hd) cid now off _ HL U (proj1 (header_hashes32 _ _ _ _ A2)) A8 A9) as [C|(St & S & A)]; [left; exact C|].
  right. exists St, (digest H (h_tree hd)). split; [exact S|]. split; [exact A|]. intros t W F D.
  destruct (C02_full_tree_determines_witness H HL t (h_tree hd) F (proj2 (header_hashes32 _ _ _ _ A2)) D) as [P|C]; [|left; exact C]. right.
  assert (G : forall v, shown_sha (h_tree hd) path v ->
     at_path (asset_path path) t (HLeaf v) \/ (at_path (asset_path (bs "/index.html")) t (HLeaf v) /\ forall u, lookup_path (asset_path path) (h_tree hd) <> Found u)).
  { intros v [X|[N X]]; apply (C03_found_is_sound H t _ _ _ W F P) in X; apply lookup_path_at_iff in X; auto. }
  destruct SB as [SB|SB]; [exists (H d)|exists (H (rs_body rs))]; auto.
Qed.
Print Assumptions C49_v1_soundness.
(** C50, what holds: if the witness shows the request path (does not prune it
    away) the fallback is used only when the tree has no value there. *)
Theorem C50_index_fallback_partial :
  forall (H : bytes -> bytes) (t w : htree) (path : bytes),
  wf t -> full t = true -> prunes H t w ->
  (forall u, lookup_path (asset_path path) w <> Found u) ->
  lookup_path (asset_path path) w = Unknown \/ forall v, ~ at_path (asset_path path) t (HLeaf v).
Proof.
  intros H t w path W F P N. generalize (lookup_path_sound H (asset_path path) t w W F P).
  destruct (lookup_path (asset_path path) w) as [| |v|].
  - auto.
  - auto.
  - exfalso. exact (N v eq_refl).
  - intros (c & A & K). right. intros v B. rewrite (at_path_unique _ _ _ _ W A B) in K. discriminate.
Qed.
Print Assumptions C50_index_fallback_partial.

(** ** Concrete cases *)
Definition ex_state (data : bytes) : htree :=
  HFork (HLabeled (bs "canister") (HLabeled (bs "e") (HLabeled (bs "certified_data") (HLeaf data))))
        (HLabeled (bs "time") (HLeaf (leb_enc 1000))).
(** the root key's owner signed exactly the state [t] *)
Definition ex_signer (t : htree) (pk sig m : bytes) : bool :=
  bytes_eqb pk (repeat x01 96) && bytes_eqb m (state_root_message (digest sha256 t)).
Lemma ex_state_wf data : wf (ex_state data) /\ full (ex_state data) = true.
Proof.
  split; [|reflexivity]. unfold ex_state. generalize (leb_enc 1000). intro u. simpl. repeat split. intros a b [<-|[]] [<-|[]]. vm_compute. reflexivity.
Qed.
Lemma ex_signer_unforgeable data : unforgeable sha256 (ex_signer (ex_state data)) (ex_key x01) (fun t => t = ex_state data) (fun _ _ => False).
Proof.
  split; [|split; [|split]].
  - intros t ->. apply ex_state_wf.
  - intros s t [].
  - intros pk sig m D V. apply ex_der in D. subst pk. unfold ex_signer in V. rewrite bytes_eqb_refl in V. cbn [andb] in V. apply bytes_eqb_eq in V. eauto.
  - intros r s k pk sig m -> A D V. exfalso. unfold ex_state, subnet_path in A. revert A. generalize (leb_enc 1000). intros u A.
    inversion A as [|k0 p t0 c0 s0 Ch A1]; subst. inversion Ch as [|k0 l r0 t1 Ch1|k0 l r0 t1 Ch1]; subst; inversion Ch1.
Qed.
(** the same with the function of Toy.v *)
Definition toy_signer (t : htree) (pk sig m : bytes) : bool :=
  bytes_eqb pk (repeat x01 96) && bytes_eqb m (state_root_message (digest toy t)).
Lemma toy_signer_unforgeable data : unforgeable toy (toy_signer (ex_state data)) (ex_key x01) (fun t => t = ex_state data) (fun _ _ => False).
Proof.
  split; [|split; [|split]].
  - intros t ->. apply ex_state_wf.
  - intros s t [].
  - intros pk sig m D V. apply ex_der in D. subst pk. unfold toy_signer in V. rewrite bytes_eqb_refl in V. cbn [andb] in V. apply bytes_eqb_eq in V. eauto.
  - intros r s k pk sig m -> A D V. exfalso. unfold ex_state, subnet_path in A. revert A. generalize (leb_enc 1000). intros u A.
    inversion A as [|k0 p t0 c0 s0 Ch A1]; subst. inversion Ch as [|k0 l r0 t1 Ch1|k0 l r0 t1 Ch1]; subst; inversion Ch1.
Qed.
Definition ex_certificate (data : bytes) : bytes := enc_cert (mk_cert (ex_state data) (bs "sig") None).
Definition ex_uri (u : bytes) : option bytes := Some (match split_on "?" u with p :: _ => p | [] => [] end).
Definition ex_query (u : bytes) : option (option bytes) := Some (match split_on "?" u with _ :: q :: _ => Some q | _ => None end).
Definition ex_none (b : bytes) : option bytes := None.

(** v1: two assets, of which the witness prunes "/a.js". *)
Definition ex_assets : htree :=
  HLabeled (bs "http_assets") (HFork (HLabeled (bs "/a.js") (HLeaf (sha256 (bs "code")))) (HLabeled (bs "/index.html") (HLeaf (sha256 (bs "index"))))).
Definition ex_assets_pruned : htree :=
  HLabeled (bs "http_assets") (HFork (HPruned (digest sha256 (HLabeled (bs "/a.js") (HLeaf (sha256 (bs "code")))))) (HLabeled (bs "/index.html") (HLeaf (sha256 (bs "index"))))).
Definition ex_v1_header (w : htree) : bytes :=
  bs "certificate=:" ++ b64_enc true (ex_certificate (digest sha256 w)) ++ bs ":, tree=:" ++ b64_enc true (self_describe ++ enc_tree w) ++ bs ":".
Definition ex_v1_verify (w : htree) (url body : bytes) : out info :=
  verify (2 ^ 64) (2 ^ 60) true sha256 ex_ple (ex_signer (ex_state (digest sha256 w))) ex_uri ex_query ex_none ex_none
    (mk_request (bs "GET") url [] []) (mk_response 200 [(bs "ic-certificate", ex_v1_header w)] body) (bs "e") 1010 20 (ex_key x01) 1.
Example ex_v1_accepted : ex_v1_verify ex_assets (bs "/%61.js?x") (bs "code") = OOk (mk_info (Some (mk_verified None [] (bs "code"))) 1).
Proof. vm_compute. reflexivity. Qed.
Example ex_v1_rejected : ex_v1_verify ex_assets (bs "/a.js") (bs "index") = OErr.
Proof. vm_compute. reflexivity. Qed.
Example ex_v1_min_version :
  verify (2 ^ 64) (2 ^ 60) true sha256 ex_ple (ex_signer (ex_state (digest sha256 ex_assets))) ex_uri ex_query ex_none ex_none
    (mk_request (bs "GET") (bs "/a.js") [] []) (mk_response 200 [(bs "ic-certificate", ex_v1_header ex_assets)] (bs "code")) (bs "e") 1010 20 (ex_key x01) 2 = OErr.
Proof. vm_compute. reflexivity. Qed.

(** C50 is false: the canister certified "code" for "/a.js", a genuine witness
    that prunes this entry away makes the body of "/index.html" pass for "/a.js". *)
Theorem C50_index_fallback_only_if_absent_refuted :
  exists t w vs (Root : htree -> Prop) Sub St key rq rs,
  wf t /\ full t = true /\ prunes sha256 t w /\
  unforgeable sha256 vs key Root Sub /\ Root St /\ at_path (certified_data_path (bs "e")) St (HLeaf (digest sha256 t)) /\
  path_of ex_uri rq (bs "/a.js") /\ at_path (asset_path (bs "/a.js")) t (HLeaf (sha256 (bs "code"))) /\ rs_body rs = bs "index" /\
  verify (2 ^ 64) (2 ^ 60) true sha256 ex_ple vs ex_uri ex_query ex_none ex_none rq rs (bs "e") 1010 20 key 1 =
    OOk (mk_info (Some (mk_verified None [] (bs "index"))) 1) /\
  exists hv hd, rs_headers rs = [(bs "ic-certificate", hv)] /\ header_from (2 ^ 64) (2 ^ 60) hv = OOk hd /\ h_tree hd = w.
Proof.
  exists ex_assets, ex_assets_pruned, (ex_signer (ex_state (digest sha256 ex_assets_pruned))), (fun t => t = ex_state (digest sha256 ex_assets_pruned)), (fun _ _ => False),
    (ex_state (digest sha256 ex_assets_pruned)), (ex_key x01), (mk_request (bs "GET") (bs "/a.js") [] []),
    (mk_response 200 [(bs "ic-certificate", ex_v1_header ex_assets_pruned)] (bs "index")).
  assert (P : prunes sha256 ex_assets ex_assets_pruned) by (unfold ex_assets, ex_assets_pruned; constructor; constructor; constructor; constructor).
  split. { unfold ex_assets. generalize (sha256 (bs "code")) (sha256 (bs "index")). intros u v. simpl. repeat split. intros a b [<-|[]] [<-|[]]. vm_compute. reflexivity. }
  split; [reflexivity|]. split; [exact P|]. split; [apply ex_signer_unforgeable|]. split; [reflexivity|].
  split. { rewrite (prunes_digest _ _ _ P). unfold certified_data_path, ex_state.
    eapply AtCons; [apply ChLeft; constructor|]. eapply AtCons; [constructor|]. eapply AtCons; [constructor|]. constructor. }
  split. { apply C63_request_path_exact. reflexivity. }
  split. { unfold ex_assets, asset_path. eapply AtCons; [constructor|]. eapply AtCons; [apply ChLeft; constructor|]. constructor. }
  split; [reflexivity|]. split; [vm_compute; reflexivity|].
  exists (ex_v1_header ex_assets_pruned), (mk_header (mk_cert (ex_state (digest sha256 ex_assets_pruned)) (bs "sig") None) ex_assets_pruned 1 None).
  split; [reflexivity|]. split; [vm_compute; reflexivity|reflexivity].
Qed.
Print Assumptions C50_index_fallback_only_if_absent_refuted.

(** v2: "/a" certified with a request-and-response certification. *)
Definition ex_cel : cel := CelFull (mk_request_cert [bs "host"] [bs "q"]) (CertifiedHeaders [bs "Content-Type"]).
Definition ex_rq : request := mk_request (bs "GET") (bs "/a?q=1&z=2") [(bs "Host", bs "h")] [].
Definition ex_rs (extra : list (bytes * bytes)) : response :=
  mk_response 200 ([(bs "IC-CertificateExpression", print_cel ex_cel); (bs "content-type", bs "text/html"); (bs "x-other", bs "y")] ++ extra) (bs "body").
Definition ex_entry : htree :=
  match request_hash sha256 ex_query ex_rq (mk_request_cert [bs "host"] [bs "q"]) with
  | Some h => HLabeled (bs "http_expr") (HLabeled (bs "a") (HLabeled (bs "<$>") (HLabeled (sha256 (print_cel ex_cel)) (HLabeled h
      (HLabeled (response_hash sha256 (ex_rs []) (CertifiedHeaders [bs "Content-Type"]) None) (HLeaf []))))))
  | None => HEmpty
  end.
Definition ex_v2_header : bytes := v2_certificate_header (ex_certificate (digest sha256 ex_entry)) ex_entry [bs "http_expr"; bs "a"; bs "<$>"].
Definition ex_v2_verify (rq : request) (rs : response) : out info :=
  verify (2 ^ 64) (2 ^ 60) true sha256 ex_ple (ex_signer (ex_state (digest sha256 ex_entry))) ex_uri ex_query ex_none ex_none
    rq rs (bs "e") 1010 20 (ex_key x01) 2.
Example ex_v2_accepted :
  ex_v2_verify ex_rq (ex_rs [(bs "Ic-Certificate", ex_v2_header)]) =
  OOk (mk_info (Some (mk_verified (Some 200)
    [(bs "ic-certificateexpression", print_cel ex_cel); (bs "content-type", bs "text/html"); (bs "IC-Certificate", ex_v2_header)] (bs "body"))) 2).
Proof. vm_compute. reflexivity. Qed.
Example ex_v2_other_query : ex_v2_verify (mk_request (bs "GET") (bs "/a?q=2") [(bs "Host", bs "h")] []) (ex_rs [(bs "Ic-Certificate", ex_v2_header)]) = OErr.
Proof. vm_compute. reflexivity. Qed.
