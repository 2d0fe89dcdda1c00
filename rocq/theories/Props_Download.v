(** C150: downloading an asset in parts. *)
From Coq Require Import List Arith NArith Lia Bool Permutation.
From Verif Require Import Bytes Toy Text Nested Cbor HttpTypes HttpHash HttpSpec Cel Header HeaderSpec V2 Verify VerifySpec HttpTree HttpTreeSpec
  Props_Hash Props_Verify Props_HttpTree AssetRouter RangeSpec Props_Range AssetSpec AssetProofs AssetEffect PreparedProofs Props_Router ServeSpec Props_Serve Props_Encoding Props_Chunks Props_Backed Props_Revoke Props_Accept JsonText Download.
Import ListNotations.
Local Open Scope N_scope.

(** ** The client *)
Lemma range_header_fields b e t b' e' t' : b < e -> b' < e' -> range_header b e t = range_header b' e' t' -> b = b' /\ e = e' /\ t = t'.
Proof.
  intros L L' E. unfold range_header in E. apply app_inv_head in E. cbn [app] in E.
  apply dec_prefix_free in E; [|vm_compute; reflexivity]. destruct E as [-> E]. apply dec_prefix_free in E; [|vm_compute; reflexivity]. destruct E as [A B]. apply dec_inj in B. split; [reflexivity|]. split; [lia|exact B].
Qed.
Lemma part_fun rs b e t b' e' t' : part rs b e t -> part rs b' e' t' -> b = b' /\ e = e' /\ t = t'.
Proof.
  intros (_ & F & L) (_ & F' & L'). assert (X := first_value_fun _ _ _ _ F F'). apply range_header_fields in X; [exact X|lia|lia].
Qed.
Section Client.
  Variables (cs : N) (s : bytes) (serve : request -> out response) (rq : request).
  Let total := N.of_nat (length s).
  Hypothesis CS : 0 < cs.
  (** at [b] the server has the chunk that starts there *)
  Definition answers (rs : response) (b : N) : Prop :=
    part rs b (chunk_end cs s b) total /\ rs_body rs = slice b (chunk_end cs s b) s.
  Hypothesis S : forall i, i * cs < total -> exists rs, serve (from_byte rq (i * cs)) = OOk rs /\ answers rs (i * cs).
  Lemma slice_rest b : b < total -> slice b (chunk_end cs s b) s ++ skipn (N.to_nat (chunk_end cs s b)) s = skipn (N.to_nat b) s.
  Proof.
    intro L. unfold slice. replace (N.to_nat (chunk_end cs s b)) with (N.to_nat (chunk_end cs s b - b) + N.to_nat b)%nat by (unfold chunk_end; fold total; lia).
    rewrite skipn_add. apply firstn_skipn.
  Qed.
  Lemma next_begin i : i * cs < total -> chunk_end cs s (i * cs) = total \/ chunk_end cs s (i * cs) = (i + 1) * cs /\ (i + 1) * cs < total.
  Proof. intro L. unfold chunk_end. fold total. nia. Qed.
  Lemma rest_exists : forall n i, (N.to_nat total <= n + N.to_nat (i * cs))%nat -> i * cs < total -> rest_of serve rq (i * cs) total (skipn (N.to_nat (i * cs)) s).
  Proof.
    induction n as [|n IH]; intros i N L; [lia|]. destruct (S i L) as (rs & E & P & B). rewrite <- (slice_rest _ L), <- B.
    apply (RestMore _ _ _ (chunk_end cs s (i * cs))); [exact E|exact P|]. destruct (next_begin i L) as [->|[-> L']].
    - rewrite skipn_all2 by (unfold total; lia). constructor.
    - apply IH; [|exact L']. lia.
  Qed.
  Lemma rest_only b t r : rest_of serve rq b t r -> t = total -> forall i, b = i * cs -> b < total -> r = skipn (N.to_nat b) s.
  Proof.
    induction 1 as [t|b e t rs r E P R IH]; intros -> i -> L; [lia|].
    destruct (S i L) as (rs' & E' & P' & B). rewrite E in E'. injection E' as <-. destruct (part_fun _ _ _ _ _ _ _ P P') as (_ & -> & _).
    rewrite <- (slice_rest _ L), B. f_equal. destruct (next_begin i L) as [X|[X L']].
    - rewrite X in *. rewrite skipn_all2 by (unfold total; lia). clear - R. remember total as t eqn:T. assert (X : t <= t) by lia. revert X. generalize t at 1 as b. intros. inversion R as [|? ? ? ? ? ? (_ & _ & Q)]; [reflexivity|lia].
    - rewrite X in *. apply (IH eq_refl (i + 1) eq_refl L').
  Qed.
  Hypothesis S0 : exists rs, serve rq = OOk rs /\ (total <= cs /\ rs_status rs = 200 /\ rs_body rs = s \/ cs < total /\ answers rs 0).
  Lemma download_all : (exists d, download serve rq d) /\ forall d, download serve rq d -> d = s.
  Proof.
    destruct S0 as (rs & E & [(L & C & B)|(L & P & B)]).
    - split; [exists (rs_body rs); apply DownloadAtOnce; [exact E|rewrite C; discriminate]|].
      intros d [rs' E' _|rs' e t r E' (C' & _) _]; rewrite E in E'; injection E' as <-; [exact B|congruence].
    - assert (L0 : 0 < total) by lia. assert (R := slice_rest 0 L0). cbn [skipn N.to_nat] in R.
      assert (NX : chunk_end cs s 0 = 1 * cs) by (unfold chunk_end; fold total; lia).
      split.
      + exists (rs_body rs ++ skipn (N.to_nat (1 * cs)) s). apply (DownloadInParts _ _ _ (1 * cs) total); [exact E|rewrite <- NX; exact P|].
        apply (rest_exists (N.to_nat total)); [lia|lia].
      + intros d [rs' E' C'|rs' e t r E' P' T]; rewrite E in E'; injection E' as <-; [destruct P as (P & _); congruence|].
        destruct (part_fun _ _ _ _ _ _ _ P' P) as (_ & -> & ->). rewrite <- R, B. f_equal. rewrite NX in *. apply (rest_only _ _ _ T eq_refl 1 eq_refl). lia.
  Qed.
End Client.

(** ** The server *)
Section Server.
  Variables (cs : N) (H : bytes -> bytes) (uri_path : bytes -> option bytes) (uri_query : bytes -> option (option bytes)) (glob : bytes -> option (bytes -> bool))
    (umod : N) (sort : list (bytes * N) -> list (bytes * N)) (st : router) (dc : bytes).
  Hypothesis CS : 0 < cs.
  Hypothesis U : 0 < umod.
  Hypothesis R : reachable cs H uri_query glob st.
  Lemma served rq u range c : path_of uri_path rq u -> wants_range umod (rq_headers rq) range ->
    static_choice cs st u (get_preferred_encodings sort rq) range c ->
    exists w, serve_asset cs H uri_path umod sort st dc rq = OOk (add_v2_certificate_header dc (ca_response c) w (expr_path (en_path (ca_entry c)))).
  Proof.
    intros P W C. apply (C62_which_response cs H uri_query glob st u _ range CS R) in C.
    assert (PF : forall p, path_of uri_path rq p -> p = u). { intros p Q. apply C63_request_path_exact in P, Q. congruence. }
    assert (WF : forall r, wants_range umod (rq_headers rq) r -> r = range).
    { intros r Q. assert (B := range_begin_spec umod rq U). destruct (maybe_get_range_begin umod rq); try contradiction; [apply B in W; apply B in Q; congruence|destruct (B _ W)]. }
    destruct (C66_serve_asset_result cs H uri_path uri_query glob umod sort st dc rq CS U R) as [(p & r & f & c' & w & Pp & Wr & F & _ & E)|(_ & [X|[X|(p & r & Pp & Wr & F)]])].
    - apply PF in Pp. apply WF in Wr. subst p r. rewrite C in F. injection F as <- <-. exists w. exact E.
    - destruct (X _ P).
    - destruct (X _ W).
    - apply PF in Pp. apply WF in Wr. subst p r. rewrite C in F. discriminate F.
  Qed.
End Server.
Lemma no_header_here n hs v : ~ same_name n (bs "content-range") -> no_header (bs "content-range") hs -> no_header (bs "content-range") ((n, v) :: hs).
Proof. intros N F. constructor; assumption. Qed.
Lemma content_range_value body hs ct enc v expr more : no_header (bs "content-range") hs ->
  first_value (bs "content-range") (content_headers body hs ct enc (Some v) expr ++ more) v.
Proof.
  intro N. unfold content_headers.
  exists ((bs "content-length", dec (N.of_nat (length body))) :: hs ++ match ct with Some x => [(bs "content-type", x)] | None => [] end ++ match enc with Some x => [(bs "content-encoding", x)] | None => [] end),
    (bs "content-range"), ((bs "IC-CertificateExpression", expr) :: more).
  split; [cbn [app]; rewrite <- !app_assoc; reflexivity|]. split; [apply same_name_lower; reflexivity|].
  assert (Y : forall n, eq_nocase n (bs "content-range") = false -> ~ same_name n (bs "content-range")).
  { intros n X Z. apply same_name_lower in Z. unfold eq_nocase in X. rewrite Z, bytes_eqb_refl in X. discriminate X. }
  constructor; [apply Y; vm_compute; reflexivity|]. apply Forall_app. split.
  - exact N.
  - apply Forall_app. split; [destruct ct; constructor; [apply Y; vm_compute; reflexivity|constructor]|]. destruct enc; constructor; [apply Y; vm_compute; reflexivity|constructor].
Qed.
(** ** C150 *)
(** An asset was just certified; the client asks for its url, and this variant is the one it gets. Then what
    it downloads, in one response or in parts, is the content of the asset, whatever the size. What
    is missing: chunks of another encoding, certified earlier for the url (C150_stale_chunk_refuted). *)
Theorem C150_download_yields_the_content_partial :
  forall (cs : N) (H : bytes -> bytes) uri_path uri_query glob (umod : N) sort (st st' : router) order (assets : list asset) (configs : list asset_config) cfgs a c enc u dc rq,
  0 < cs -> reachable cs H uri_query glob st -> (forall l, Permutation (order l) l) -> valid_input uri_query glob assets configs ->
  (* [a] is one of the assets (or an encoded variant), with configuration [c]; [u] its url or an alias *)
  normalize_all glob configs = Some cfgs -> variant assets cfgs a c enc -> u = as_url a \/ In u (aliases_of c) ->
  (forall range x y, written cs H uri_query glob assets configs false (mk_key u (encoding_str enc) range) x ->
     written cs H uri_query glob assets configs false (mk_key u (encoding_str enc) range) y -> x = y) ->
  N.of_nat (length (as_content a)) < umod -> no_header (bs "content-range") (headers_of c) ->
  certify_assets cs H uri_query glob order assets configs st = (st', OOk tt) ->
  (* no chunk of another encoding was there for the url *)
  (forall e b y, stored st false (mk_key u e (Some b)) y -> e = encoding_str enc) ->
  (* the request is for the url, without Range header; this encoding is the one picked *)
  path_of uri_path rq u -> no_header (bs "range") (rq_headers rq) ->
  (exists x, first_choice st' false u (get_preferred_encodings sort rq) None (encoding_str enc) x) ->
  let serve := serve_asset cs H uri_path umod sort st' dc in
  (exists d, download serve rq d) /\ forall d, download serve rq d -> d = as_content a.
Proof.
  intros cs H up uq glob umod sort st st' order assets configs cfgs a c enc u dc rq CS R O V NC VA U UN UM NR E OLD PO RQ (x & FC) serve.
  assert (R' : reachable cs H uq glob st').
  { replace st' with (fst (run_call cs H uq glob (CallCertify order assets configs) st)) by (cbn [run_call]; rewrite E; reflexivity). apply ReachCall; [exact R|exact O]. }
  destruct (C67_certify_stores_and_certifies cs H uq glob st st' order assets configs CS R O E) as (ST & ST2 & _).
  assert (VF : forall b c e, variant assets cfgs b c e -> forall v, v = as_url b \/ In v (aliases_of c) -> no_header (bs "IC-CertificateExpression") (headers_of c) /\ parses uq v).
  { clear - V NC. intros a c enc VA u U. destruct V as [VA' VC]. destruct (valid_normalize uq glob configs VC) as (cfgs' & E' & VN). rewrite NC in E'. injection E' as <-.
    assert (P : forall a, last_asset assets a -> parses uq (as_url a)) by (intros b (l & r & -> & _); rewrite Forall_forall in VA'; apply VA'; apply in_or_app; right; left; reflexivity).
    inversion VA as [b c' L FC|b c' e suffix ea L FC I LE PE]; subst; destruct (valid_first uq cfgs _ c VN FC) as [N A]; (split; [exact N|]); (destruct U as [->|U]; [exact (P _ L)|rewrite Forall_forall in A; exact (A u U)]). }
  (* the whole response is written too *)
  assert (WH : forall b c e v, variant assets cfgs b c e -> v = as_url b \/ In v (aliases_of c) -> exists y, written cs H uq glob assets configs false (mk_key v (encoding_str e) None) y /\ prepare_static cs H uq (aliased b v) (content_type_of c) (headers_of c) e None = Some y).
  { intros b c2 e v VB Uv. destruct (VF b c2 e VB v Uv) as [NE (q & PU)]. destruct (prepare_static_ok cs H uq (aliased b v) (content_type_of c2) (headers_of c2) e None q NE PU) as (y & PY).
    exists y. split; [|exact PY]. left. eapply WrittenWhole; [exact NC|exact VB|]. apply WholeStatic; [exact Uv|exact PY]. }
  set (s := as_content a) in *.
  destruct FC as (before & after & EP & SX & NB).
  (* in st', what is preferred to this variant has no chunk either *)
  assert (NCH : forall e b y, In e before -> ~ stored st' false (mk_key u e (Some b)) y).
  { intros e b y I SY. assert (NE : e <> encoding_str enc). { intros ->. exact (NB _ _ I SX). }
    destruct (ST2 _ _ _ SY) as [W|OS]; [|apply NE; exact (OLD _ _ _ OS)]. destruct W as [W|W].
    - inversion W as [cf2 b2 c2 e2 f2 k2 x2 NC2 VB WW|]; subst. inversion WW.
    - inversion W as [cf2 b2 c2 e2 f2 k2 x2 NC2 VB WW]; subst. assert (cf2 = cfgs) by congruence. subst cf2. inversion WW as [v i z Uv B1 B2 PZ]; subst.
      destruct (WH b2 c2 e2 u VB Uv) as (w & Ww & _). destruct (ST _ _ _ Ww) as (w' & _ & Sw). exact (NB _ _ I Sw). }
  assert (FCH : forall b y, stored st' false (mk_key u (encoding_str enc) (Some b)) y -> first_choice st' false u (get_preferred_encodings sort rq) (Some b) (encoding_str enc) y).
  { intros b y SY. exists before, after. split; [exact EP|]. split; [exact SY|]. intros e' z I. apply NCH. exact I. }
  (* the chunks are there *)
  assert (CH : forall i, cs < N.of_nat (length s) -> i * cs < N.of_nat (length s) -> exists y, stored st' false (mk_key u (encoding_str enc) (Some (i * cs))) y /\
     prepared H uq y (PExact u) u 206 (slice (i * cs) (chunk_end cs s (i * cs)) s) (headers_of c) (content_type_of c) (encoding_str enc) (Some (range_header (i * cs) (chunk_end cs s (i * cs)) (N.of_nat (length s)))) [bs "range"]).
  { intros i Big L. destruct (VF a c enc VA u U) as [NE (q & PU)]. destruct (prepare_static_ok cs H uq (aliased a u) (content_type_of c) (headers_of c) enc (Some (i * cs)) q NE PU) as (y & PY).
    assert (W : written cs H uq glob assets configs false (mk_key u (encoding_str enc) (Some (i * cs))) y).
    { right. eapply WrittenChunk; [exact NC|exact VA|]. apply ChunkStatic; [exact U|exact Big|exact L|exact PY]. }
    exists y. split; [destruct (ST _ _ _ W) as (z & Wz & Sz); rewrite (UN _ _ _ W Wz); exact Sz|]. exact (prepare_static_chunk cs H uq (aliased a u) _ _ _ _ y CS L PY). }
  assert (ANS : forall y b w, b < N.of_nat (length s) -> prepared H uq y (PExact u) u 206 (slice b (chunk_end cs s b) s) (headers_of c) (content_type_of c) (encoding_str enc) (Some (range_header b (chunk_end cs s b) (N.of_nat (length s)))) [bs "range"] ->
     answers cs s (add_v2_certificate_header dc (ca_response y) w (expr_path (en_path (ca_entry y)))) b).
  { intros y b w L (PR & _). unfold add_v2_certificate_header, add_header. rewrite PR. split; [|reflexivity]. split; [reflexivity|]. cbn [rs_headers]. split; [apply content_range_value; exact NR|]. unfold chunk_end. lia. }
  assert (UM0 : 0 < umod) by lia.
  assert (LATER : forall i, cs < N.of_nat (length s) -> i * cs < N.of_nat (length s) -> exists rs, serve (from_byte rq (i * cs)) = OOk rs /\ answers cs s rs (i * cs)).
  { intros i Big L. destruct (CH i Big L) as (y & SY & PY).
    destruct (served cs H up uq glob umod sort st' dc CS UM0 R' (from_byte rq (i * cs)) u (Some (i * cs)) y) as (w & Ew).
    - exact PO.
    - exists (bs "bytes=" ++ dec (i * cs) ++ bs "-"), (bs "bytes=" ++ dec (i * cs) ++ bs "-"), None.
      split; [exists [], (bs "Range"), (rq_headers rq); split; [reflexivity|]; split; [apply same_name_lower; reflexivity|constructor]|].
      split; [exists [], []; split; [exists []; split; [reflexivity|constructor]|]; split; [exists []; split; [reflexivity|constructor]|rewrite app_nil_r; reflexivity]|].
      split; [|split; [lia|exact I]]. exists 0%nat, (dec (i * cs)), []. split; [reflexivity|]. split; [|reflexivity]. exists (dec (i * cs)). split; [left; reflexivity|apply dec_decimal].
    - exists (encoding_str enc), y. split; [apply FCH; exact SY|]. left. split; [|reflexivity].
      rewrite (prepared_body _ _ _ _ _ _ _ _ _ _ _ _ PY). destruct (slice_split (i * cs) (chunk_end cs s (i * cs)) s) as (_ & _ & _ & _ & -> & _); unfold chunk_end; lia.
    - exists (add_v2_certificate_header dc (ca_response y) w (expr_path (en_path (ca_entry y)))). split; [exact Ew|]. exact (ANS y _ w L PY). }
  destruct (N.le_gt_cases (N.of_nat (length s)) cs) as [Small|Big].
  - (* at once *)
    destruct (WH a c enc u VA U) as (y & Wy & PY). assert (y = x). { destruct (ST _ _ _ Wy) as (z & Wz & Sz). rewrite (UN _ _ _ Wy Wz). unfold stored in *. congruence. } subst y.
    apply prepare_static_whole in PY. destruct PY as (PR & PE).
    destruct (served cs H up uq glob umod sort st' dc CS UM0 R' rq u None x PO RQ) as (w & Ew).
    + exists (encoding_str enc), x. split; [exists before, after; auto|]. left. split; [rewrite PR; exact Small|reflexivity].
    + split.
      * eexists. apply DownloadAtOnce; [exact Ew|]. unfold add_v2_certificate_header, add_header. rewrite PR. discriminate.
      * intros d [rs E1 _|rs e t r E1 (C1 & _) _]; unfold serve in E1; rewrite Ew in E1; injection E1 as <-; unfold add_v2_certificate_header, add_header in *; rewrite PR in *; [reflexivity|discriminate C1].
  - apply (download_all cs s serve rq CS); [intros i L; exact (LATER i Big L)|]. destruct (CH 0 Big) as (y & SY & PY); [lia|]. change (0 * cs) with 0 in *.
    assert (BX : cs < N.of_nat (length (rs_body (ca_response x)))).
    { destruct (WH a c enc u VA U) as (z & Wz & PZ). assert (z = x). { destruct (ST _ _ _ Wz) as (z' & Wz' & Sz). rewrite (UN _ _ _ Wz Wz'). unfold stored in *. congruence. } subst z. apply prepare_static_whole in PZ. rewrite (prepared_body _ _ _ _ _ _ _ _ _ _ _ _ PZ). exact Big. }
    destruct (served cs H up uq glob umod sort st' dc CS UM0 R' rq u None y PO RQ) as (w & Ew).
    + exists (encoding_str enc), x. split; [exists before, after; auto|]. right. split; [exact BX|exact SY].
    + eexists. split; [exact Ew|]. right. split; [exact Big|]. apply ANS; [lia|exact PY].
Qed.
Print Assumptions C150_download_yields_the_content_partial.

(** ** Chunks of another encoding *)
(** The page had a large Brotli variant, then a small one, and was deleted; then it was certified again,
    large and without variants.  The chunks of the old variant are still there: a client that accepts
    Brotli gets the first chunk of the page, and then the other chunks of the deleted variant. *)
Definition stale_config : list asset_config := [ConfigFile (bs "a") None [] [] [] [(Brotli, bs ".br")]].
Definition stale_big : list asset := [asset_new (bs "a") (bs "plain"); asset_new (bs "a.br") (bs "abcdefghij")].
Definition stale_small : list asset := [asset_new (bs "a") (bs "plain"); asset_new (bs "a.br") (bs "abc")].
Definition stale_last : list asset := [asset_new (bs "a") (bs "0123456789")].
Definition stale_calls : list call :=
  [CallCertify (fun l => l) stale_big stale_config; CallCertify (fun l => l) stale_small stale_config; CallDelete (fun l => l) stale_small stale_config].
Definition stale_before : router := Eval vm_compute in run_calls 4 toy ex_query no_glob stale_calls router_new.
Lemma stale_before_eq : run_calls 4 toy ex_query no_glob stale_calls router_new = stale_before.
Proof. vm_cast_no_check (eq_refl stale_before). Qed.
Definition stale_state : router := Eval vm_compute in fst (certify_assets 4 toy ex_query no_glob (fun l => l) stale_last [] stale_before).
Definition get_a (accept : list (bytes * bytes)) : request := mk_request (bs "GET") (bs "/a") accept [].
Definition accept_br : list (bytes * bytes) := [(bs "Accept-Encoding", bs "br")].
Definition serve_stale : request -> out response := serve_asset 4 toy ex_uri (2 ^ 64) isort stale_state (bs "cert").
Definition answer_of (o : out response) : option (N * option bytes * bytes) :=
  match o with OOk rs => Some (rs_status rs, first_header (bs "content-range") (rs_headers rs), rs_body rs) | _ => None end.
Lemma answer_part o b e t body : answer_of o = Some (206, Some (range_header b e t), body) -> b < e <= t -> exists rs, o = OOk rs /\ part rs b e t /\ rs_body rs = body.
Proof.
  unfold answer_of. destruct o as [rs| | |]; try discriminate. intros E L. injection E as E1 E2 E3. exists rs. split; [reflexivity|]. split; [|exact E3].
  split; [exact E1|]. split; [|exact L]. assert (F := first_header_spec (bs "content-range") (rs_headers rs) eq_refl). rewrite E2 in F. exact F.
Qed.
Lemma answer_all o st v body : answer_of o = Some (st, v, body) -> exists rs, o = OOk rs /\ rs_status rs = st /\ rs_body rs = body.
Proof. unfold answer_of. destruct o as [rs| | |]; try discriminate. intro E. injection E as E1 _ E3. exists rs. auto. Qed.
(** three parts *)
Lemma three_parts serve rq e1 e2 t b1 b2 b3 :
  answer_of (serve rq) = Some (206, Some (range_header 0 e1 t), b1) -> answer_of (serve (from_byte rq e1)) = Some (206, Some (range_header e1 e2 t), b2) ->
  answer_of (serve (from_byte rq e2)) = Some (206, Some (range_header e2 t t), b3) -> 0 < e1 -> e1 < e2 -> e2 < t -> download serve rq (b1 ++ b2 ++ b3).
Proof.
  intros A B C L1 L2 L3. apply answer_part in A; [|lia]. apply answer_part in B; [|lia]. apply answer_part in C; [|lia].
  destruct A as (r1 & E1 & P1 & <-), B as (r2 & E2 & P2 & <-), C as (r3 & E3 & P3 & <-). eapply DownloadInParts; [exact E1|exact P1|]. eapply RestMore; [exact E2|exact P2|].
  rewrite <- (app_nil_r (rs_body r3)). eapply RestMore; [exact E3|exact P3|constructor].
Qed.
Lemma plain_whole : exists x, first_choice stale_state false (bs "/a") (get_preferred_encodings isort (get_a accept_br)) None None x /\ rs_body (ca_response x) = bs "0123456789".
Proof.
  destruct (m_get key_eqb (mk_key (bs "/a") None None) (r_responses stale_state)) as [x|] eqn:E.
  - exists x. split.
    + exists [Some (bs "br")], []. split; [vm_compute; reflexivity|]. split; [exact E|]. intros e y [<-|[]] Y. assert (N : m_get key_eqb (mk_key (bs "/a") (Some (bs "br")) None) (r_responses stale_state) = None) by (vm_compute; reflexivity). unfold stored in Y. rewrite N in Y. discriminate Y.
    + assert (B : option_map (fun x => rs_body (ca_response x)) (m_get key_eqb (mk_key (bs "/a") None None) (r_responses stale_state)) = Some (bs "0123456789")) by (vm_compute; reflexivity). rewrite E in B. apply (f_equal (fun o => match o with Some v => v | None => [] end)) in B. exact B.
  - exfalso. assert (B : option_map (fun x => rs_body (ca_response x)) (m_get key_eqb (mk_key (bs "/a") None None) (r_responses stale_state)) = Some (bs "0123456789")) by (vm_compute; reflexivity). rewrite E in B. discriminate B.
Qed.
Lemma get_a_path hs : path_of ex_uri (get_a hs) (bs "/a").
Proof. apply C63_request_path_exact. vm_compute. reflexivity. Qed.
Theorem C150_stale_chunk_refuted :
  Forall any_order stale_calls /\ run_calls 4 toy ex_query no_glob stale_calls router_new = stale_before /\
  (* all hypotheses of C150 but the one about chunks of another encoding *)
  reachable 4 toy ex_query no_glob stale_before /\ valid_input ex_query no_glob stale_last [] /\ variant stale_last [] (asset_new (bs "a") (bs "0123456789")) None None /\
  (forall range x y, written 4 toy ex_query no_glob stale_last [] false (mk_key (bs "/a") None range) x -> written 4 toy ex_query no_glob stale_last [] false (mk_key (bs "/a") None range) y -> x = y) /\
  certify_assets 4 toy ex_query no_glob (fun l => l) stale_last [] stale_before = (stale_state, OOk tt) /\
  path_of ex_uri (get_a accept_br) (bs "/a") /\ no_header (bs "range") (rq_headers (get_a accept_br)) /\
  (exists x, first_choice stale_state false (bs "/a") (get_preferred_encodings isort (get_a accept_br)) None None x) /\
  (* the download mixes the two *)
  download serve_stale (get_a accept_br) (bs "0123" ++ bs "efgh" ++ bs "ij") /\
  ~ download serve_stale (get_a accept_br) (bs "0123456789").
Proof.
  assert (AO : Forall any_order stale_calls) by (repeat constructor; intro l; apply Permutation_refl).
  assert (A1 : answer_of (serve_stale (get_a accept_br)) = Some (206, Some (range_header 0 4 10), bs "0123")) by (vm_compute; reflexivity).
  assert (A2 : answer_of (serve_stale (from_byte (get_a accept_br) 4)) = Some (206, Some (range_header 4 8 10), bs "efgh")) by (vm_compute; reflexivity).
  assert (A3 : answer_of (serve_stale (from_byte (get_a accept_br) 8)) = Some (206, Some (range_header 8 10 10), bs "ij")) by (vm_compute; reflexivity).
  split; [exact AO|]. split; [exact stale_before_eq|]. split; [rewrite <- stale_before_eq; apply calls_reachable; [exact AO|apply (ReachStart _ _ _ _ [] _ eq_refl)]|].
  split; [split; [constructor; [exists None; reflexivity|constructor]|constructor]|].
  split; [constructor; [exists [], []; split; [reflexivity|intros b []]|intros y []]|].
  split; [intros range x y; apply single_unique|]. split; [vm_cast_no_check (eq_refl (stale_state, OOk tt))|]. split; [apply get_a_path|].
  split; [constructor; [intro Z; apply same_name_lower in Z; vm_compute in Z; discriminate Z|constructor]|].
  split; [destruct plain_whole as (x & X & _); exists x; exact X|].
  split; [apply (three_parts _ _ 4 8 10); [exact A1|exact A2|exact A3|reflexivity|reflexivity|reflexivity]|].
  intro D. assert (Q : forall d, download serve_stale (get_a accept_br) d -> nth_error d 4 = Some "e"%byte).
  { clear D. intros d [rs E C|rs e t r E P T].
    - destruct (answer_all _ _ _ _ A1) as (rs' & E' & C' & _). rewrite E in E'. injection E' as <-. contradiction.
    - apply answer_part in A1; [|split; reflexivity || discriminate]. destruct A1 as (rs' & E' & P' & B'). rewrite E in E'. injection E' as <-. destruct (part_fun _ _ _ _ _ _ _ P P') as (_ & -> & ->). rewrite B'.
      inversion T as [|b e2 t rs2 r2 E2 P2 T2]; subst. apply answer_part in A2; [|split; reflexivity || discriminate]. destruct A2 as (rs' & E2' & P2' & B2'). rewrite E2 in E2'. injection E2' as <-. rewrite B2'. reflexivity. }
  apply Q in D. discriminate D.
Qed.
Print Assumptions C150_stale_chunk_refuted.

(** In a new router the same request meets the conditions of C150, and the page comes in three parts. *)
Definition fresh_state : router := Eval vm_compute in fst (certify_assets 4 toy ex_query no_glob (fun l => l) stale_last [] router_new).
Definition serve_fresh : request -> out response := serve_asset 4 toy ex_uri (2 ^ 64) isort fresh_state (bs "cert").
Example C150_ex :
  certify_assets 4 toy ex_query no_glob (fun l => l) stale_last [] router_new = (fresh_state, OOk tt) /\
  (exists x, first_choice fresh_state false (bs "/a") (get_preferred_encodings isort (get_a accept_br)) None None x) /\
  (forall d, download serve_fresh (get_a accept_br) d <-> d = bs "0123456789").
Proof.
  assert (CE : certify_assets 4 toy ex_query no_glob (fun l => l) stale_last [] router_new = (fresh_state, OOk tt)) by (vm_cast_no_check (eq_refl (fresh_state, OOk tt))).
  assert (A1 : answer_of (serve_fresh (get_a accept_br)) = Some (206, Some (range_header 0 4 10), bs "0123")) by (vm_compute; reflexivity).
  assert (A2 : answer_of (serve_fresh (from_byte (get_a accept_br) 4)) = Some (206, Some (range_header 4 8 10), bs "4567")) by (vm_compute; reflexivity).
  assert (A3 : answer_of (serve_fresh (from_byte (get_a accept_br) 8)) = Some (206, Some (range_header 8 10 10), bs "89")) by (vm_compute; reflexivity).
  assert (FC : exists x, first_choice fresh_state false (bs "/a") (get_preferred_encodings isort (get_a accept_br)) None None x).
  { destruct (m_get key_eqb (mk_key (bs "/a") None None) (r_responses fresh_state)) as [x|] eqn:E.
    - exists x, [Some (bs "br")], []. split; [vm_compute; reflexivity|]. split; [exact E|]. intros e y [<-|[]] Y. assert (N : m_get key_eqb (mk_key (bs "/a") (Some (bs "br")) None) (r_responses fresh_state) = None) by (vm_compute; reflexivity). unfold stored in Y. rewrite N in Y. discriminate Y.
    - exfalso. assert (B : option_map (fun x => rs_body (ca_response x)) (m_get key_eqb (mk_key (bs "/a") None None) (r_responses fresh_state)) = Some (bs "0123456789")) by (vm_compute; reflexivity). rewrite E in B. discriminate B. }
  split; [exact CE|]. split; [exact FC|]. intro d. split.
  - apply (C150_download_yields_the_content_partial 4 toy ex_uri ex_query no_glob (2 ^ 64) isort router_new fresh_state (fun l => l) stale_last [] [] (asset_new (bs "a") (bs "0123456789")) None None (bs "/a") (bs "cert") (get_a accept_br)).
    + reflexivity.
    + apply (ReachStart _ _ _ _ [] _ eq_refl).
    + intro. apply Permutation_refl.
    + split; [constructor; [exists None; reflexivity|constructor]|constructor].
    + reflexivity.
    + constructor; [exists [], []; split; [reflexivity|intros b []]|intros y []].
    + left. reflexivity.
    + intros range x y. apply single_unique.
    + reflexivity.
    + constructor.
    + exact CE.
    + intros e b y Y. discriminate Y.
    + apply get_a_path.
    + constructor; [intro Z; apply same_name_lower in Z; vm_compute in Z; discriminate Z|constructor].
    + exact FC.
  - intros ->. apply (three_parts serve_fresh (get_a accept_br) 4 8 10 (bs "0123") (bs "4567") (bs "89")); [exact A1|exact A2|exact A3|reflexivity|reflexivity|reflexivity].
Qed.
