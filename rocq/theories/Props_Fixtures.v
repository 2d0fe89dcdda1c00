(** C115: the fixtures for tests verify.  C116: certificates built in JavaScript. *)
From Coq Require Import List Arith NArith ZArith Lia Bool.
From Verif Require Import Bytes HashTree Nested NestedSpec Cbor CborSpec Base64 Header HttpTypes HttpHash HttpSpec HttpTree HttpTreeSpec V2 WildcardSpec Cel CelSpec Utf8 CertVerify CertSpec Verify VerifySpec AssetRouter CertBuilder CertBuilderSpec JsBindings Fixtures
  Props_HttpTree Props_Builder Props_Skip.
Import ListNotations.
From Verif Require Import Toy Props_Verify.
Local Open Scope N_scope.

Lemma b64_long b : (length b <= length (b64_enc true b))%nat.
Proof.
  assert (X : forall n s, (length s <= n)%nat -> (length s <= length (b64_enc true s))%nat).
  { induction n as [|n IH]; intros s L; [destruct s; [cbn; lia|cbn in L; lia]|]. destruct s as [|a [|c [|d r]]]; [cbn; lia|cbn; lia|cbn; lia|].
    assert (Y : (length r <= length (b64_enc true r))%nat) by (apply IH; cbn [length] in L; lia). change (b64_enc true (a :: c :: d :: r)) with (b64_group true [a; c; d] ++ b64_enc true r). rewrite app_length.
    assert (Z : (3 <= length (b64_group true [a; c; d]))%nat) by (cbn; lia). cbn [length]. lia. }
  exact (X (length b) b (le_n _)).
Qed.
Lemma fixture_header en cert w : create_v2_header en cert (cbor_encode_tree w) = v2_certificate_header cert w (expr_path (en_path en)).
Proof. reflexivity. Qed.

(** Specification: the entry is for this request path, exactly or as a wildcard.
    The path does not contain the segment with which wildcards end. *)
Definition entry_for (p : cert_path) (path : bytes) : Prop :=
  match p with
  | PExact p => request_parts p = request_parts path
  | PWildcard p => matches (request_parts p) (request_parts path) /\ ~ In (bs "<*>") (request_parts path)
  end.
Lemma matches_in w r x : matches w r -> In x w -> x = [] \/ In x r.
Proof.
  intros [(s & ->)|(p & y & s & -> & ->)] I; [right; apply in_or_app; auto|]. apply in_app_iff in I. destruct I as [I|[<-|[]]]; [right; apply in_or_app; auto|left; reflexivity].
Qed.
Lemma first_at {A} (z : A) : forall u w c q, ~ In z u -> ~ In z w -> u ++ z :: c = w ++ z :: q -> u = w.
Proof.
  induction u as [|a u IH]; intros [|b w] c q NU NW X; cbn [app] in X; auto.
  - exfalso. injection X as -> _. apply NW. left; reflexivity.
  - exfalso. injection X as -> _. apply NU. left; reflexivity.
  - injection X as -> X. f_equal. apply (IH w c q); [intro I; apply NU; right; exact I|intro I; apply NW; right; exact I|exact X].
Qed.
Lemma alone_answers en path : entry_for (en_path en) path -> answers [HInsert en] (en_path en) path.
Proof.
  destruct (en_path en) as [p|p] eqn:EP; cbn [entry_for answers]; [auto|]. intros [M N]. split; [exact M|].
  assert (NP : ~ In (bs "<*>") (request_parts p)) by (intro I; destruct (matches_in _ _ _ M I) as [Z|Z]; [discriminate Z|exact (N Z)]).
  assert (EN : entry_tree_path en = request_parts p ++ bs "<*>" :: cert_tree_path (en_certification en)).
  { unfold entry_tree_path, path_tree_path. rewrite EP, path_to_segments_parts, <- app_assoc. reflexivity. }
  split.
  - intro O. apply occupied_inserted in O. destruct O as (e & q & [X|[]] & _ & Q). injection X as <-. rewrite EN, <- app_assoc in Q. cbn [app] in Q.
    assert (I : In (bs "<*>") (request_parts path ++ [bs "<$>"])).
    { destruct M as [(s & Es)|(p0 & x & s & E1 & E2)].
      - rewrite Es, <- app_assoc in Q. apply app_inv_head in Q. rewrite Es. destruct s as [|a s]; cbn [app] in Q; [discriminate Q|]. injection Q as <- _. apply in_or_app. left. apply in_or_app. right. left. reflexivity.
      - rewrite E1, E2, <- !app_assoc in Q. apply app_inv_head in Q. cbn [app] in Q. injection Q as <- Q. rewrite E2. destruct s as [|a s]; cbn [app] in Q; [discriminate Q|]. injection Q as <- _.
        apply in_or_app. left. apply in_or_app. right. right. left. reflexivity. }
    apply in_app_iff in I. destruct I as [I|[I|[]]]; [exact (N I)|discriminate I].
  - intros u Mu S O. apply occupied_inserted in O. destruct O as (e & q & [X|[]] & _ & Q). injection X as <-. rewrite EN, <- app_assoc in Q. cbn [app] in Q.
    apply first_at in Q; [|exact NP|intro I; destruct (matches_in _ _ _ Mu I) as [Z|Z]; [discriminate Z|exact (N Z)]]. subst u.
    destruct S as [S|(_ & A & B)]; [lia|contradiction].
Qed.
Lemma alone_held en : held [HInsert en] en.
Proof. exact (HoldsNew [] (entry_tree_path en) []). Qed.
Theorem C115_v2_fixtures_verify :
  forall umod cap_max checked H ple vs parse_id show_id canister_of subnet_of arrange pub sign uri_path uri_query gunzip inflate
         (en : entry) (ce : cel) (rq0 rq : request) (rs : response) (req_path path : bytes) (time : N) (f : v2_fixture) (now offset min_version : N),
  32 < umod <= 2 ^ 64 -> 3 <= cap_max -> min_version <= 2 -> (forall x, length (H x) = 32%nat) ->
  keys_sign vs pub sign -> (forall l, arranges l (arrange l)) ->
  (* ids of canisters: printed and read again, and in the order of their numbers *)
  (forall n, (length (canister_of n) <= 29)%nat) -> (forall n, parse_id (show_id (canister_of n)) = Some (canister_of n)) ->
  (forall m n, m <= n < 2 ^ 64 -> ple (canister_of m) (canister_of n) = true) ->
  create_v2_fixture parse_id show_id canister_of subnet_of arrange H pub sign req_path en time = Some f ->
  (* the entry was made for this expression and response, and is for the path of the request *)
  made H uri_query ce rq0 rs (en_certification en) -> Forall plain_name (cel_names ce) ->
  (ce = CelSkip -> last_header (bs "IC-CertificateExpression") (rs_headers rs) (print_cel ce)) ->
  (forall qc rc, ce = CelFull qc rc -> request_hash H uri_query rq qc = request_hash H uri_query rq0 qc) ->
  path_of uri_path rq path -> request_parts req_path = request_parts path -> entry_for (en_path en) path -> unreserved (en_path en) path ->
  (* strings fit in memory, paths are strings *)
  Forall (short umod) (entry_tree_path en) -> utf8_valid (path_text (en_path en)) = true -> N.of_nat (length (path_text (en_path en))) + 4 < umod ->
  short umod (f_certificate_header f) ->
  (* it is the time of the fixture *)
  now + offset < 2 ^ 128 -> offset <= now -> now - offset <= time mod 2 ^ 64 <= now + offset ->
  exists i,
  verify umod cap_max checked H ple vs uri_path uri_query gunzip inflate rq
    (mk_response (rs_status rs) (rs_headers rs ++ [(bs "IC-Certificate", f_certificate_header f)]) (rs_body rs)) (f_canister_id f) now offset (f_root_key f) min_version = OOk i /\
  i_version i = 2 /\
  match ce with
  | CelSkip => i_response i = None
  | CelResponseOnly rc | CelFull _ rc => exists v hs hv, i_response i = Some v /\
      v_status v = Some (rs_status rs) /\ v_body v = rs_body rs /\ v_headers v = hs ++ [(bs "IC-Certificate", hv)] /\ picks (covered rc) (rs_headers rs) hs
  end.
Proof.
  intros umod cap ck H ple vs parse show canof subof arrange pub sign up uq gz df en ce rq0 rq rs rp path time f now off mv
    U K MV HL KS AR CL PI PL F M PN SK RQ PA RP EF UR SH UT LE SF L1 L2 TM.
  unfold create_v2_fixture, create_v2_tree_fixture, create_v2_certificate_fixture in F.
  destruct (http_run H [HInsert en]) as [t|] eqn:R; [|discriminate F]. destruct (http_witness H t en rp) as [w| | |] eqn:W; try discriminate F.
  destruct (cb_new parse (show (canof 5)) (http_root_hash H t)) as [b|] eqn:N; [|discriminate F].
  destruct (cb_build arrange H pub sign _) as [cd|] eqn:B in F; [|discriminate F]. injection F as <-. cbn [f_root_key f_certificate_header f_canister_id] in *.
  rewrite fixture_header in *. assert (Sc : short umod (cd_cbor cd)).
  { unfold short in *. assert (Z := b64_long (cd_cbor cd)). unfold v2_certificate_header in SF. rewrite !app_length in SF. lia. }
  destruct (C79_built_certificates_verify umod cap ck H ple vs parse canof subof arrange pub sign (show (canof 5)) (canof 5) (http_root_hash H t) [WithTime time; WithDelegation 123 [(0, 10)]] b cd U K KS AR CL (PI 5) N B Sc) as (DC & LD & V).
  { intros [X|[X|[]]]; discriminate X. } { right. reflexivity. }
  apply (C51_certified_response_is_accepted umod cap ck H ple vs up uq gz df [HInsert en] t en ce rq0 rq rs rp path (cd_cbor cd) (cd_cert cd) w (canof 5) now off (cd_root_key cd) mv); try assumption.
  - apply alone_held.
  - apply alone_answers. exact EF.
  - constructor; [exact SH|constructor].
  - apply V; [exact L1|exact L2|]. split; [exact TM|]. intros s ranges X. injection X as <- <-. split; [apply CL|]. exists 0, 10. split; [left; reflexivity|]. split; apply PL; lia.
Qed.
Print Assumptions C115_v2_fixtures_verify.
(** Making one fails only for a wildcard longer than the path. *)
Theorem C115_v2_fixtures_are_made :
  forall parse_id show_id canister_of subnet_of arrange H pub sign (req_path : bytes) (en : entry) (time : N),
  parse_id (show_id (canister_of 5)) <> None ->
  (create_v2_fixture parse_id show_id canister_of subnet_of arrange H pub sign req_path en time = None <->
   exists p, en_path en = PWildcard p /\ (length (request_parts req_path) < length (request_parts p))%nat).
Proof.
  intros parse show canof subof arrange H pub sign rp en time PI. unfold create_v2_fixture, create_v2_tree_fixture, create_v2_certificate_fixture.
  destruct (C52_witness_never_panics H [HInsert en]) as (t & R & X). rewrite R.
  assert (C : forall d, exists x, match cb_new parse (show (canof 5)) d with None => None | Some b =>
      match cb_build arrange H pub sign (cb_set canof subof (cb_set canof subof b (WithTime time)) (WithDelegation 123 [(0, 10)])) with None => None | Some cd => Some (cd_root_key cd, cd_cbor cd, canof 5) end end = Some x).
  { intro d. destruct (C79_building_never_fails parse canof subof arrange H pub sign (show (canof 5)) d [WithTime time; WithDelegation 123 [(0, 10)]]) as [N B].
    destruct (cb_new parse (show (canof 5)) d) as [b|] eqn:E; [|exfalso; apply PI; apply N; reflexivity]. destruct (B b (or_introl eq_refl)) as [B' _]. cbn [fold_left] in B'.
    destruct (cb_build arrange H pub sign _) as [cd|]; [|congruence]. eexists. reflexivity. }
  destruct (X en rp) as [(w & W & _)|(W & p & EP & L)]; rewrite W.
  - destruct (C (http_root_hash H t)) as (((rk & cc) & ci) & ->). split; [intro Z; discriminate Z|]. intros (p & EP & L). exfalso.
    unfold http_witness in W. rewrite EP in W. unfold path_tree_path in W. rewrite !path_to_segments_parts in W. cbv zeta in W.
    destruct (Nat.ltb_spec (length (request_parts rp ++ [Wildcard.exact_terminator])) (length (request_parts p ++ [Wildcard.wildcard_terminator]))) as [_|G]; [cbn [out_bind] in W; discriminate W|]. rewrite !app_length in G. cbn [length] in G. lia.
  - split; [intros _; exists p; auto|reflexivity].
Qed.
Print Assumptions C115_v2_fixtures_are_made.

(** a fixture for the wildcard "/" and a request for "/zz/y" *)
Definition fx_id (n : N) : bytes := [n2b (N.min n 255)].
Definition fx_ple (a b : bytes) : bool := match a, b with [x], [y] => b2n x <=? b2n y | _, _ => false end.
Definition fx_en : entry := mk_entry (PWildcard (bs "/")) (certify_skip toy).
Definition fx_rs : response := mk_response 404 [(bs "IC-CertificateExpression", print_cel CelSkip)] (bs "no").
Definition fx_rq : request := mk_request (bs "GET") (bs "/zz/y") [] [].
Definition fx_made : option v2_fixture := create_v2_fixture (fun x => Some x) (fun x => x) fx_id fx_id comb toy ex_pub ex_sign (bs "/zz/y") fx_en 1000.
Example C115_hypotheses :
  keys_sign ex_bvs ex_pub ex_sign /\ (forall l, arranges l (comb l)) /\ (forall n, (length (fx_id n) <= 29)%nat) /\
  (forall m n, m <= n < 2 ^ 64 -> fx_ple (fx_id m) (fx_id n) = true) /\
  made toy ex_query CelSkip fx_rq fx_rs (en_certification fx_en) /\ Forall plain_name (cel_names CelSkip) /\
  last_header (bs "IC-CertificateExpression") (rs_headers fx_rs) (print_cel CelSkip) /\
  path_of ex_uri fx_rq (bs "/zz/y") /\ entry_for (en_path fx_en) (bs "/zz/y") /\ unreserved (en_path fx_en) (bs "/zz/y") /\
  Forall (short (2 ^ 64)) (entry_tree_path fx_en) /\
  match fx_made with
  | Some f => short (2 ^ 64) (f_certificate_header f) /\
      verify (2 ^ 64) 100 true toy fx_ple ex_bvs ex_uri ex_query ex_none ex_none fx_rq
        (mk_response (rs_status fx_rs) (rs_headers fx_rs ++ [(bs "IC-Certificate", f_certificate_header f)]) (rs_body fx_rs)) (f_canister_id f) 1010 20 (f_root_key f) 2 = OOk (mk_info None 2)
  | None => False
  end.
Proof.
  split; [exact ex_keys_sign|]. split; [exact comb_arranges|]. split; [intro n; cbn; lia|]. split.
  { intros m n [L _]. unfold fx_ple, fx_id. apply N.leb_le. rewrite !b2n_n2b by lia. lia. }
  split; [constructor|]. split; [constructor|]. split; [exists [], (bs "IC-CertificateExpression"), []; split; [reflexivity|]; split; [apply Props_Hash.same_name_refl|]; constructor|].
  split; [exists (bs "/zz/y"); split; [reflexivity|]; split; [|reflexivity]; exact (pct_decode_spec (bs "/zz/y"))|].
  split. { cbn [entry_for en_path fx_en]. change (request_parts (bs "/")) with [@nil byte]. change (request_parts (bs "/zz/y")) with [bs "zz"; bs "y"]. split; [right; exists [], (bs "zz"), [bs "y"]; split; reflexivity|]. intros [Z|[Z|[]]]; discriminate Z. }
  split. { cbn [unreserved en_path fx_en]. unfold ordinary_path. change (request_parts (bs "/zz/y")) with ([bs "zz"] ++ [bs "y"]). split; [split; intros q Z; apply app_inj_tail in Z; destruct Z as [_ Z]; discriminate Z|]. intros r Z. discriminate Z. }
  split; [repeat constructor|]. vm_compute. split; reflexivity.
Qed.

(** ** C116: certificates built in JavaScript *)
(** what the calls ask for: the last time in milliseconds, the last delegation with its
    ranges read from objects with fields low and high *)
Definition js_asked_time (l : list js_call) : option N := last_some (fun c => match c with JsWithTime ms => Some ms | _ => None end) l.
Definition is_range (v : jsval) (r : N * N) : Prop :=
  exists es, v = JObj es /\ In (bs "low", JNum (Z.of_N (fst r))) es /\ In (bs "high", JNum (Z.of_N (snd r))) es.
Definition js_asked_delegation (l : list js_call) : option (N * list jsval) := last_some (fun c => match c with JsWithDelegation s r => Some (s, r) | _ => None end) l.

Definition of_js (l : list js_call) : option (list cb_call) :=
  fold_right (fun c acc => match cb_call_of_js c, acc with Some c, Some l => Some (c :: l) | _, _ => None end) (Some []) l.
Lemma of_js_cons c l : of_js (c :: l) = match cb_call_of_js c, of_js l with Some c, Some l => Some (c :: l) | _, _ => None end.
Proof. reflexivity. Qed.
Lemma js_calls_fold canof subof : forall l b b', js_calls canof subof l b = Some b' -> exists l', of_js l = Some l' /\ b' = fold_left (cb_set canof subof) l' b.
Proof.
  induction l as [|c l IH]; intros b b' E; cbn [js_calls] in E; [injection E as <-; exists []; split; reflexivity|].
  destruct (cb_call_of_js c) as [c'|] eqn:C; [|discriminate E]. apply IH in E. destruct E as (l' & E & ->). exists (c' :: l'). rewrite of_js_cons, C, E. split; reflexivity.
Qed.
Lemma of_js_time : forall l l', of_js l = Some l' -> asked_time l' = option_map (fun ms => ms * 1000000) (js_asked_time l).
Proof.
  induction l as [|c l IH]; intros l' E; [|rewrite of_js_cons in E]; [injection E as <-; reflexivity|].
  destruct (cb_call_of_js c) as [c'|] eqn:C; [|discriminate E]. destruct (of_js l) as [l''|]; [|discriminate E]. injection E as <-. specialize (IH _ eq_refl).
  unfold asked_time, js_asked_time in *. cbn [last_some]. rewrite IH. destruct (last_some _ l); [reflexivity|]. cbn [option_map].
  destruct c as [s r|ms|]; cbn [cb_call_of_js] in C; [destruct (ranges_of_js r); [|discriminate C]| |]; injection C as <-; reflexivity.
Qed.
Lemma of_js_delegation : forall l l', of_js l = Some l' ->
  match js_asked_delegation l with None => asked_delegation l' = None | Some (s, r) => exists r', ranges_of_js r = Some r' /\ asked_delegation l' = Some (s, r') end.
Proof.
  induction l as [|c l IH]; intros l' E; [|rewrite of_js_cons in E]; [injection E as <-; reflexivity|].
  destruct (cb_call_of_js c) as [c'|] eqn:C; [|discriminate E]. destruct (of_js l) as [l''|]; [|discriminate E]. injection E as <-. specialize (IH _ eq_refl).
  unfold asked_delegation, js_asked_delegation in *. cbn [last_some]. destruct (last_some (fun c0 => match c0 with JsWithDelegation s r => Some (s, r) | _ => None end) l) as [[s r]|].
  - destruct IH as (r' & A & B). exists r'. rewrite B. auto.
  - rewrite IH. destruct c as [s r|ms|]; cbn [cb_call_of_js] in C; [destruct (ranges_of_js r) as [r'|]; [|discriminate C]| |]; injection C as <-; try reflexivity. exists r'. auto.
Qed.
Lemma of_js_other : forall l l', of_js l = Some l' -> (In WithInvalidSignature l' <-> In JsWithInvalidSignature l) /\ asked_nested l' = None.
Proof.
  induction l as [|c l IH]; intros l' E; [|rewrite of_js_cons in E]; [injection E as <-; split; [tauto|reflexivity]|].
  destruct (cb_call_of_js c) as [c'|] eqn:C; [|discriminate E]. destruct (of_js l) as [l''|]; [|discriminate E]. injection E as <-. destruct (IH _ eq_refl) as [A B].
  unfold asked_nested in *. cbn [last_some In]. rewrite B.
  destruct c as [s r|ms|]; cbn [cb_call_of_js] in C; [destruct (ranges_of_js r) as [r'|]; [|discriminate C]| |]; injection C as <-; (split; [|reflexivity]); rewrite A; intuition congruence.
Qed.
Lemma js_u64_spec v n : js_u64 v = Some n <-> v = JNum (Z.of_N n) /\ n < 2 ^ 64.
Proof.
  destruct v as [|s|z| |b|l|es]; cbn [js_u64]; try (split; [intro X; discriminate X|intros [X _]; discriminate X]).
  destruct ((0 <=? z)%Z && (z <? 2 ^ 64)%Z) eqn:E.
  - apply andb_prop in E. destruct E as [A B]. apply Z.leb_le in A. apply Z.ltb_lt in B. split.
    + intro X. injection X as <-. split; [rewrite Z2N.id by exact A; reflexivity|]. apply N2Z.inj_lt. rewrite Z2N.id by exact A. exact B.
    + intros [X _]. injection X as ->. rewrite N2Z.id. reflexivity.
  - split; [intro X; discriminate X|]. intros [X L]. injection X as ->. exfalso. apply andb_false_iff in E.
    destruct E as [E|E]; [apply Z.leb_gt in E|apply Z.ltb_ge in E]; [pose proof (N2Z.is_nonneg n); lia|]. apply N2Z.inj_lt in L. change (Z.of_N (2 ^ 64)) with (2 ^ 64)%Z in L. lia.
Qed.
Lemma js_field_spec name es : NoDup (map fst es) -> forall v, js_field name (JObj es) = Some v <-> In (name, v) es.
Proof.
  unfold js_field. cbn [js_entries]. induction es as [|[k x] es IH]; intros ND v; cbn [find fst]; [split; [intro X; discriminate X|intros []]|]. inversion ND as [|? ? NI ND' ]; subst.
  destruct (bytes_eqb_spec k name) as [->|N].
  - split; [intro X; injection X as <-; left; reflexivity|]. intros [X|X]; [injection X as <-; reflexivity|]. exfalso. apply NI. apply (in_map fst) in X. exact X.
  - rewrite (IH ND'). split; [intro X; right; exact X|]. intros [X|X]; [injection X as -> _; congruence|exact X].
Qed.
(** objects have distinct field names *)
Definition is_object (v : jsval) : Prop := forall es, v = JObj es -> NoDup (map fst es).
Lemma range_of_js_spec v r : is_object v -> (range_of_js v = Some r <-> is_range v r /\ fst r < 2 ^ 64 /\ snd r < 2 ^ 64).
Proof.
  intro O. unfold range_of_js. destruct r as [a b]. cbn [fst snd].
  destruct v as [|s|z| |x|l|es]; try (split; [intro X; discriminate X|intros ((es & X & _) & _); discriminate X]).
  specialize (O es eq_refl). assert (F := fun n v => js_field_spec n es O v). unfold is_range. cbn [fst snd]. split.
  - destruct (js_field (bs "low") (JObj es)) as [l|] eqn:L; [|intro X; discriminate X]. destruct (js_field (bs "high") (JObj es)) as [h|] eqn:Hh; [|intro X; discriminate X].
    destruct (js_u64 l) as [a'|] eqn:A; [|intro X; discriminate X]. destruct (js_u64 h) as [b'|] eqn:B; [|intro X; discriminate X]. intro X. injection X as -> ->.
    apply js_u64_spec in A. destruct A as [-> A]. apply js_u64_spec in B. destruct B as [-> B]. apply F in L. apply F in Hh. split; [exists es; auto|auto].
  - intros ((es' & X & L & Hh) & A & B). injection X as <-. apply F in L. apply F in Hh. rewrite L, Hh.
    rewrite (proj2 (js_u64_spec _ a)) by auto. rewrite (proj2 (js_u64_spec _ b)) by auto. reflexivity.
Qed.
Lemma ranges_of_js_in l : forall rs, ranges_of_js l = Some rs -> forall r, In r rs <-> exists v, In v l /\ range_of_js v = Some r.
Proof.
  induction l as [|v l IH]; intros rs E r; cbn [ranges_of_js] in E; [injection E as <-; split; [intros []|intros (v & [] & _)]|].
  destruct (range_of_js v) as [x|] eqn:X; [|discriminate E]. destruct (ranges_of_js l) as [xs|]; [|discriminate E]. injection E as <-. specialize (IH _ eq_refl r). cbn [In]. rewrite IH. split.
  - intros [<-|(u & I & Y)]; [exists v; auto|exists u; auto].
  - intros (u & [<-|I] & Y); [left; congruence|right; exists u; auto].
Qed.
Theorem C116_certificates_built_in_javascript :
  forall umod cap_max checked H ple vs parse_id canister_of subnet_of arrange pub sign (id cid data : bytes) (calls : list js_call) (cd : cert_data),
  32 < umod <= 2 ^ 64 -> 3 <= cap_max -> keys_sign vs pub sign -> (forall l, arranges l (arrange l)) -> (forall n, (length (canister_of n) <= 29)%nat) ->
  Forall (fun c => match c with JsWithDelegation _ l => Forall is_object l | _ => True end) calls ->
  parse_id id = Some cid -> js_build parse_id canister_of subnet_of arrange H pub sign id data calls = Some cd -> short umod (cd_cbor cd) ->
  ~ In JsWithInvalidSignature calls ->
  cert_from_cbor umod cap_max (cd_cbor cd) = OOk (cd_cert cd) /\
  lookup_path [bs "canister"; cid; bs "certified_data"] (c_tree (cd_cert cd)) = Found data /\
  forall who now offset, now + offset < 2 ^ 128 -> offset <= now ->
  let t := match js_asked_time calls with Some ms => ms * 1000000 | None => 1651142233000005031 end in
  (verify_certificate umod cap_max checked H ple vs (cd_cert cd) who (cd_root_key cd) now offset = OOk tt <->
   now - offset <= t mod 2 ^ 64 <= now + offset /\
   forall s ranges, js_asked_delegation calls = Some (s, ranges) ->
     (length who <= 29)%nat /\
     exists v lo hi, In v ranges /\ is_range v (lo, hi) /\ ple (canister_of lo) who = true /\ ple who (canister_of hi) = true).
Proof.
  intros umod cap ck H ple vs parse canof subof arrange pub sign id cid data calls cd U K KS AR CL OB PI B Sc NI.
  unfold js_build in B. destruct (cb_new parse id data) as [b|] eqn:N; [|discriminate B]. destruct (js_calls canof subof calls b) as [b'|] eqn:J; [|discriminate B].
  apply js_calls_fold in J. destruct J as (l & J & ->). destruct (of_js_other _ _ J) as [SI NN]. assert (TI := of_js_time _ _ J). assert (DE := of_js_delegation _ _ J).
  destruct (C79_built_certificates_verify umod cap ck H ple vs parse canof subof arrange pub sign id cid data l b cd U K KS AR CL PI N B Sc) as (DC & LD & V).
  { intro X. apply NI. apply SI. exact X. } { right. exact NN. }
  split; [exact DC|]. split; [exact LD|]. intros who now off L1 L2 t. specialize (V who now off L1 L2). cbv zeta in V. rewrite V.
  assert (ET : match asked_time l with Some t => t | None => 1651142233000005031 end = t) by (unfold t; rewrite TI; destruct (js_asked_time calls); reflexivity). rewrite ET.
  clear V. unfold t. destruct (js_asked_delegation calls) as [[s0 r0]|] eqn:JD.
  - destruct DE as (r' & RR & DD). rewrite DD. assert (IN := ranges_of_js_in _ _ RR).
    assert (OK : Forall is_object r0).
    { rewrite Forall_forall in OB. assert (X : In (JsWithDelegation s0 r0) calls).
      { clear -JD. unfold js_asked_delegation in JD. induction calls as [|c l IH]; cbn [last_some] in JD; [discriminate JD|]. destruct (last_some _ l) as [y|]; [injection JD as ->; right; apply IH; reflexivity|]. destruct c; try discriminate JD. injection JD as -> ->. left; reflexivity. }
      exact (OB _ X). }
    rewrite Forall_forall in OK. split; intros [T D]; (split; [exact T|]); intros s ranges X; injection X as <- <-; destruct (D _ _ eq_refl) as [LW D']; (split; [exact LW|]).
    + destruct D' as (lo & hi & I & A & A'). apply IN in I. destruct I as (v & I & Y). apply range_of_js_spec in Y; [|exact (OK _ I)]. exists v, lo, hi. tauto.
    + destruct D' as (v & lo & hi & I & A & A'). exists lo, hi. split; [|exact A']. apply IN. exists v. split; [exact I|].
      clear -RR I A OK. revert r' RR. induction r0 as [|u l IH]; intros r' RR; [destruct I|]. cbn [ranges_of_js] in RR. destruct (range_of_js u) as [x|] eqn:X; [|discriminate RR]. destruct (ranges_of_js l) as [xs|]; [|discriminate RR].
      destruct I as [->|I]; [|apply (IH (fun z Z => OK z (or_intror Z)) I xs eq_refl)].
      assert (O := OK v (or_introl eq_refl)). assert (Y := X). apply range_of_js_spec in Y; [|exact O]. destruct Y as ((es & -> & L1 & L2) & B1 & B2). destruct A as (es' & E & L3 & L4). injection E as <-. specialize (O es eq_refl).
      assert (F := fun n v => js_field_spec n es O v). assert (E1 := proj2 (F _ _) L1). assert (E3 := proj2 (F _ _) L3). assert (E2 := proj2 (F _ _) L2). assert (E4 := proj2 (F _ _) L4).
      rewrite E1 in E3. rewrite E2 in E4. injection E3 as E3. injection E4 as E4. cbn [fst snd] in *. apply N2Z.inj in E3. apply N2Z.inj in E4. rewrite X. destruct x as [x y]. cbn [fst snd] in *. subst. reflexivity.
  - rewrite DE. split; intros [T _]; (split; [exact T|]); intros s ranges X; discriminate X.
Qed.
Print Assumptions C116_certificates_built_in_javascript.
(** Building fails only for an id that is none, or a range that is none. *)
Theorem C116_building_in_javascript_fails :
  forall parse_id canister_of subnet_of arrange H pub sign (id data : bytes) (calls : list js_call),
  Forall (fun c => match c with JsWithDelegation _ l => Forall is_object l | _ => True end) calls ->
  (js_build parse_id canister_of subnet_of arrange H pub sign id data calls = None <->
   parse_id id = None \/
   exists s ranges v, In (JsWithDelegation s ranges) calls /\ In v ranges /\ ~ exists lo hi, is_range v (lo, hi) /\ lo < 2 ^ 64 /\ hi < 2 ^ 64).
Proof.
  intros parse canof subof arrange H pub sign id data calls OB. unfold js_build.
  destruct (cb_new parse id data) as [b|] eqn:N; unfold cb_new in N; [|destruct (parse id) eqn:P; [discriminate N|]; split; auto].
  destruct (parse id) as [cid|] eqn:P; [|discriminate N].
  assert (RN : forall l, Forall is_object l -> (ranges_of_js l = None <-> exists v, In v l /\ ~ exists lo hi, is_range v (lo, hi) /\ lo < 2 ^ 64 /\ hi < 2 ^ 64)).
  { induction l as [|v l IH]; intro O; cbn [ranges_of_js]; [split; [intro X; discriminate X|intros (v & [] & _)]|]. inversion O as [|? ? O1 O2]; subst. specialize (IH O2).
    destruct (range_of_js v) as [[lo hi]|] eqn:X.
    - apply range_of_js_spec in X; [|exact O1]. destruct (ranges_of_js l) as [xs|].
      + split; [intro Z; discriminate Z|]. intros (u & [<-|I] & NX); [exfalso; apply NX; exists lo, hi; exact X|]. assert (Z : Some xs = None) by (apply IH; exists u; auto). discriminate Z.
      + split; [intros _|reflexivity]. destruct (proj1 IH eq_refl) as (u & I & NX). exists u. split; [right; exact I|exact NX].
    - split; [intros _|reflexivity]. exists v. split; [left; reflexivity|]. intros (lo & hi & Z). assert (Y : range_of_js v = Some (lo, hi)) by (apply range_of_js_spec; assumption). rewrite X in Y. discriminate Y. }
  assert (JN : forall b, js_calls canof subof calls b = None <-> exists s ranges v, In (JsWithDelegation s ranges) calls /\ In v ranges /\ ~ exists lo hi, is_range v (lo, hi) /\ lo < 2 ^ 64 /\ hi < 2 ^ 64).
  { clear N b. induction calls as [|c l IH]; intro b; cbn [js_calls]; [split; [intro X; discriminate X|intros (s & r & v & [] & _)]|]. inversion OB as [|? ? O1 O2]; subst. specialize (IH O2).
    destruct (cb_call_of_js c) as [c'|] eqn:C.
    - rewrite IH. split.
      + intros (s & r & v & I & Z). exists s, r, v. split; [right; exact I|exact Z].
      + intros (s & r & v & [->|I] & Iv & NX); [exfalso|exists s, r, v; auto]. cbn [cb_call_of_js] in C. destruct (ranges_of_js r) eqn:R; [discriminate C || idtac|discriminate C].
        assert (Z : ranges_of_js r = None) by (apply RN; [exact O1|exists v; auto]). congruence.
    - split; [intros _|reflexivity]. destruct c as [s r|ms|]; cbn [cb_call_of_js] in C; [|discriminate C|discriminate C]. destruct (ranges_of_js r) eqn:R; [discriminate C|].
      apply RN in R; [|exact O1]. destruct R as (v & I & NX). exists s, r, v. split; [left; reflexivity|auto]. }
  destruct (js_calls canof subof calls b) as [b'|] eqn:J.
  - assert (Z := js_calls_fold _ _ _ _ _ J). destruct Z as (l & _ & ->).
    assert (NB : cb_new parse id data = Some b) by (unfold cb_new; rewrite P; exact N).
    destruct (proj2 (C79_building_never_fails parse canof subof arrange H pub sign id data l) b (or_introl NB)) as [B _].
    split; [intro X; contradiction|]. intros [X|X]; [discriminate X|]. apply (JN b) in X. rewrite X in J. discriminate J.
  - split; [intros _; right; apply (JN b); exact J|reflexivity].
Qed.
Print Assumptions C116_building_in_javascript_fails.

Definition js_range (lo hi : Z) : jsval := JObj [(bs "high", JNum hi); (bs "note", JNaN); (bs "low", JNum lo)].
Definition js_ex_calls : list js_call := [JsWithTime 7; JsWithDelegation 9 [js_range 1 2; js_range 100 110]; JsWithTime 1000].
Example C116_hypotheses : exists cd,
  js_build (fun x => Some x) fx_id fx_id comb toy ex_pub ex_sign (bs "e") (bs "data") js_ex_calls = Some cd /\ short (2 ^ 64) (cd_cbor cd) /\
  Forall (fun c => match c with JsWithDelegation _ l => Forall is_object l | _ => True end) js_ex_calls /\ ~ In JsWithInvalidSignature js_ex_calls /\
  is_range (js_range 100 110) (100, 110) /\
  verify_certificate (2 ^ 64) 100 true toy fx_ple ex_bvs (cd_cert cd) (bs "e") (cd_root_key cd) 1000000010 20 = OOk tt /\
  verify_certificate (2 ^ 64) 100 true toy fx_ple ex_bvs (cd_cert cd) (bs "A") (cd_root_key cd) 1000000010 20 = OErr.
Proof.
  eexists. split; [reflexivity|]. split; [vm_compute; reflexivity|]. split.
  { assert (O : forall a b, is_object (js_range a b)).
    { intros a b es X. injection X as <-. cbn [map fst]. constructor; [intros [Z|[Z|[]]]; discriminate Z|]. constructor; [intros [Z|[]]; discriminate Z|]. constructor; [intros []|constructor]. }
    constructor; [exact I|]. constructor; [constructor; [apply O|]; constructor; [apply O|]; constructor|]. constructor; [exact I|constructor]. }
  split; [intros [Z|[Z|[Z|[]]]]; discriminate Z|]. split; [eexists; split; [reflexivity|]; cbn; auto|]. split; vm_compute; reflexivity.
Qed.
(** a time of more than 2^64 nanoseconds is cut off: 18446744073710 ms becomes 448384 ns *)
Example C116_time_wraps : 18446744073710 * 1000000 mod 2 ^ 64 = 448384.
Proof. reflexivity. Qed.
