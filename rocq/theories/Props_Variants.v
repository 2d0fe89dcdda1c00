(** C132: encoded variants of a file are served to the clients that accept them. *)
From Coq Require Import List Arith NArith Lia Bool Permutation.
From Verif Require Import Bytes Toy Text Header HashTree HashTreeSpec RbTree Nested NestedSpec NestedProofs Cbor HttpTypes HttpHash HttpSpec Cel V2 Verify VerifySpec HttpTree HttpTreeSpec
  Props_Hash Props_Verify Props_HttpTree AssetRouter RangeSpec Props_Range AssetSpec AssetProofs AssetEffect PreparedProofs Props_Router Props_Revoke ServeSpec Props_Serve Props_Encoding Encodings.
Import ListNotations.
Local Open Scope N_scope.

(** the content codings of the HTTP registry, best first *)
Definition http_name (e : encoding) : bytes :=
  match e with Brotli => bs "br" | Zstd => bs "zstd" | Gzip => bs "gzip" | Deflate => bs "deflate" | Identity => bs "identity" end.
Definition preference : list encoding := [Brotli; Zstd; Gzip; Deflate; Identity].
(** the best encoding the request's Accept-Encoding header names, if it names one *)
Definition best_encoding (hs : list (bytes * bytes)) (enc : option encoding) : Prop :=
  match enc with
  | Some e => accepts_encoding hs (http_name e) /\
      exists before after, preference = before ++ e :: after /\ forall e', In e' before -> ~ accepts_encoding hs (http_name e')
  | None => forall e, ~ accepts_encoding hs (http_name e)
  end.
(** [a] is served at [u] *)
Definition at_url (a : asset) (c : option config) (u : bytes) : Prop := u = as_url a \/ In u (aliases_of c).

Lemma http_name_eq e : http_name e = encoding_name e.
Proof. destruct e; reflexivity. Qed.
Lemma pref_split e before after : preference = before ++ e :: after -> forall e', enc_rank e < enc_rank e' -> In e' before.
Proof.
  unfold preference. intros E e' L.
  destruct before as [|b1 [|b2 [|b3 [|b4 [|b5 [|b6 bs']]]]]]; cbn in E; try (injection E; intros; subst; destruct e'; cbn in L; try lia; cbn; tauto); try discriminate E.
Qed.
Lemma name_rank e : rank (encoding_name e) (enc_rank e).
Proof.
  unfold rank, same_name. destruct e; cbn [encoding_name enc_rank].
  - do 4 right. left. split; [repeat constructor|reflexivity].
  - left. split; [repeat constructor|reflexivity].
  - right. left. split; [repeat constructor|reflexivity].
  - do 2 right. left. split; [repeat constructor|reflexivity].
  - do 3 right. left. split; [repeat constructor|reflexivity].
Qed.
Lemma rank_inj e e' : enc_rank e = enc_rank e' -> e = e'.
Proof. destruct e, e'; cbn; intro; try reflexivity; lia. Qed.
Lemma certified_headers_keep dc rs w p h : In h (rs_headers rs) -> In h (rs_headers (add_v2_certificate_header dc rs w p)).
Proof. intro I. unfold add_v2_certificate_header, add_header. cbn [rs_headers]. apply in_or_app. left. exact I. Qed.

Lemma path_fun up rq p q : path_of up rq p -> path_of up rq q -> p = q.
Proof. intros P Q. apply C63_request_path_exact in P, Q. congruence. Qed.
Lemma no_range um hs range : wants_range um hs range -> no_header (bs "range") hs -> range = None.
Proof. destruct range as [b|]; [|reflexivity]. intros (v & t & e & F & _) N. destruct (first_value_no_header _ _ _ F N). Qed.

(** The variant of the best encoding the client names is what it gets, with the content-encoding header that says so;
    who names none of the five gets the file itself. *)
Theorem C132_variant_is_served :
  forall (cs : N) (H : bytes -> bytes) uri_path uri_query glob (umod : N) sort (st : router) order (assets : list asset) (configs : list asset_config) cfgs
         (a : asset) (c : option config) (enc : option encoding) (u data_certificate : bytes) (rq : request),
  0 < cs -> 0 < umod -> reachable cs H uri_query glob st -> (forall l, Permutation (order l) l) -> valid_input uri_query glob assets configs -> sorts sort ->
  (* one of the assets, or a variant of one, with its configuration, served at [u], not larger than a chunk *)
  normalize_all glob configs = Some cfgs -> variant assets cfgs a c enc -> at_url a c u -> N.of_nat (length (as_content a)) <= cs ->
  (* the call does not give two contents for [u] in this encoding, nor redirects it *)
  (forall a' c', variant assets cfgs a' c' enc -> at_url a' c' u -> as_content a' = as_content a) ->
  (forall to kind, ~ In (ConfigRedirect u to kind) configs) ->
  path_of uri_path rq u -> no_header (bs "range") (rq_headers rq) -> best_encoding (rq_headers rq) enc ->
  exists st' r, certify_assets cs H uri_query glob order assets configs st = (st', OOk tt) /\
    serve_asset cs H uri_path umod sort st' data_certificate rq = OOk r /\
    rs_status r = 200 /\ rs_body r = as_content a /\
    match enc with Some e => In (bs "content-encoding", http_name e) (rs_headers r) | None => True end.
Proof.
  intros cs H up uq glob um sort st order assets configs cfgs a c enc u dc rq CS UM R O V S NC VA U SZ UN NR PO RG BE.
  destruct (C67_valid_calls_succeed cs H uq glob st order assets configs CS R O V) as [OK _].
  destruct (certify_assets cs H uq glob order assets configs st) as [st' o] eqn:E. cbn [snd] in OK. subst o. exists st'.
  assert (R' : reachable cs H uq glob st'). { change st' with (fst (st', @OOk unit tt)). rewrite <- E. apply (ReachCall cs H uq glob st (CallCertify order assets configs)); [exact R|exact O]. }
  destruct (C67_certify_stores_and_certifies cs H uq glob st st' order assets configs CS R O E) as (ST & _).
  destruct (variant_valid uq glob assets configs cfgs a c enc V NC VA) as (NE & PL & PA).
  assert (PU : parses uq u) by (destruct U as [->|U]; [exact PA|rewrite Forall_forall in PL; auto]). destruct PU as (q & PU).
  destruct (prepare_static_ok cs H uq (aliased a u) (content_type_of c) (headers_of c) enc None q NE PU) as (x0 & Q).
  assert (W0 : written cs H uq glob assets configs false (mk_key u (encoding_str enc) None) x0).
  { left. eapply WrittenWhole; [exact NC|exact VA|]. apply WholeStatic; assumption. }
  destruct (ST _ _ _ W0) as (y & W & SY). clear x0 Q W0.
  (* what was written there *)
  assert (Y : rs_status (ca_response y) = 200 /\ rs_body (ca_response y) = as_content a /\ match enc with Some e => In (bs "content-encoding", http_name e) (rs_headers (ca_response y)) | None => True end).
  { apply C67_written_is_configured in W; [|exact CS]. remember (mk_key u (encoding_str enc) None) as k eqn:EK. remember false as ff eqn:EF.
    destruct W as [cfgs' a' c' enc' u' x N' V' U' P|cfgs' a' c' enc' u' i before body after x N' V' U' E' L' D' B' P|cfgs' a' c' enc' fb x N' V' I' P|from to kind x I' P].
    - injection EK as -> EE. assert (enc' = enc). { destruct enc' as [[]|], enc as [[]|]; try reflexivity; discriminate EE. }
      subst enc'. assert (cfgs' = cfgs) by congruence. subst cfgs'. destruct P as (-> & _). cbn [rs_status rs_body rs_headers]. split; [reflexivity|]. split; [apply (UN _ _ V' U')|].
      destruct enc as [e|]; [|exact I]. unfold content_headers. cbn [encoding_str option_map]. rewrite http_name_eq. apply in_or_app; right. apply in_or_app; right. apply in_or_app; right. left. reflexivity.
    - discriminate EK.
    - discriminate EF.
    - injection EK as -> EE. destruct (NR _ _ I'). }
  destruct Y as (Y1 & Y2 & Y3).
  (* which encoding is picked *)
  assert (KN : forall n z, stored st' false (mk_key u (Some n) None) z -> exists e, n = encoding_name e).
  { intros n z Z. destruct (reachable_written cs H uq glob CS st' _ _ _ R' Z) as (A & C & w). destruct (written_encoding _ _ _ _ _ _ _ _ _ CS w) as ([e|] & Q); cbn in Q; [injection Q as ->; eauto|discriminate Q]. }
  assert (FC : forall e x, first_choice st' false u (get_preferred_encodings sort rq) None e x -> e = encoding_str enc).
  { intros e x F. assert (B := first_choice_best cs H uq glob st' sort rq _ _ _ _ _ CS R' S F). destruct F as (bf & af & _ & X & _). destruct e as [n|].
    - destruct (KN n x X) as (e1 & ->). destruct B as [AC B]. destruct enc as [e0|]; cbn [encoding_str option_map] in *.
      + destruct BE as (A0 & be & afe & EP & NB). rewrite http_name_eq in A0. specialize (B _ y _ _ A0 SY (name_rank e1) (name_rank e0)).
        destruct (N.eq_dec (enc_rank e0) (enc_rank e1)) as [Q|Q]; [rewrite (rank_inj _ _ Q); reflexivity|]. exfalso.
        apply (NB e1); [apply (pref_split e0 be afe EP); lia|]. rewrite http_name_eq. exact AC.
      + exfalso. apply (BE e1). rewrite http_name_eq. exact AC.
    - destruct enc as [e0|]; [|reflexivity]. exfalso. destruct BE as (A0 & _). rewrite http_name_eq in A0. exact (B _ _ A0 SY). }
  assert (PR : encoding_str enc = None \/ exists n, encoding_str enc = Some n /\ In n (get_preferred_encodings sort rq)).
  { destruct enc as [e|]; [right|left; reflexivity]. exists (encoding_name e). split; [reflexivity|]. apply accepts_preferred; [exact S|]. rewrite <- http_name_eq. apply BE. }
  assert (X62 := C62_which_response cs H uq glob st' u (get_preferred_encodings sort rq) None CS R').
  assert (G : get_asset_for_request cs st' u (get_preferred_encodings sort rq) None = Some (false, y)).
  { destruct (get_asset_for_request cs st' u (get_preferred_encodings sort rq) None) as [[[|] z]|] eqn:G; destruct X62 as (A & B & C).
    - exfalso. destruct (proj1 (B z) eq_refl) as [_ G']. exact (G' _ y PR SY).
    - destruct (proj1 (A z) eq_refl) as (e & x & F & D). assert (EE := FC e x F). subst e. assert (SX : stored st' false (mk_key u (encoding_str enc) None) x) by (destruct F as (bf & af & _ & X & _); exact X).
      assert (x = y) by (unfold stored in SX, SY; congruence). subst x. destruct D as [[_ ->]|[L _]]; [reflexivity|]. rewrite Y2 in L. lia.
    - exfalso. destruct (proj1 C eq_refl) as [G' _]. exact (G' _ y PR SY). }
  assert (SR := C66_serve_asset_result cs H up uq glob um sort st' dc rq CS UM R'). cbv zeta in SR.
  destruct SR as [(path & range & f & z & w & P' & RG' & F & _ & ->)|(_ & SR)].
  - assert (path = u) by (eapply path_fun; eassumption). subst path.
    assert (range = None) by (eapply no_range; eassumption).    subst range. rewrite G in F. injection F as <- <-. eexists. split; [reflexivity|]. split; [reflexivity|]. split; [exact Y1|]. split; [exact Y2|].
    destruct enc as [e|]; [|exact I]. apply certified_headers_keep. exact Y3.
  - exfalso. destruct SR as [SR|[SR|(path & range & P' & RG' & F)]].
    + exact (SR u PO).
    + exact (SR None RG).
    + assert (path = u) by (eapply path_fun; eassumption). subst path. assert (range = None) by (eapply no_range; eassumption). subst range. rewrite G in F. discriminate F.
Qed.
Print Assumptions C132_variant_is_served.

(** The usual case: a file, its compressed form next to it under the usual extension, and one configuration that names the encoding. *)
Definition file_extension (e : encoding) : bytes :=
  match e with Brotli => bs ".br" | Zstd => bs ".zst" | Gzip => bs ".gz" | Deflate => bs ".zz" | Identity => [] end.
Lemma url_ext (p ext : bytes) : ext <> [] -> nth_error ext 0 <> Some "/"%byte -> path_to_url (p ++ ext) <> path_to_url p.
Proof.
  intros NE NS E. apply (f_equal (@length byte)) in E. unfold path_to_url in E. destruct p as [|b p].
  - cbn [app] in E. destruct ext as [|x ext]; [congruence|]. cbn [strip_prefix bs] in E. change (bs "/") with ["/"%byte] in E. cbn [strip_prefix] in E.
    destruct (byte_eqb_spec "/" x) as [Y|Y]; [subst x; cbn in NS; congruence|]. cbn in E. lia.
  - change (bs "/") with ["/"%byte] in E. cbn [strip_prefix app] in E. destruct (byte_eqb "/" b); cbn [app length] in E; rewrite app_length in E; destruct ext; [congruence|cbn in E; lia|congruence|cbn in E; lia].
Qed.
Lemma ext_ne e : e <> Identity -> file_extension e <> [] /\ nth_error (file_extension e) 0 <> Some "/"%byte.
Proof. destruct e; intro N; [congruence| | | |]; split; intro Z; discriminate Z. Qed.
Lemma app_ne (p e : bytes) : e <> [] -> p ++ e <> p.
Proof. intros N E. apply N. apply (f_equal (@length byte)) in E. rewrite app_length in E. destruct e; [reflexivity|cbn in E; lia]. Qed.
Lemma last_of_two a b x : last_asset [a; b] x -> x = a \/ x = b.
Proof.
  intros (l & r & E & _). destruct l as [|y [|z l]]; cbn in E.
  - injection E as <- _. auto.
  - injection E as _ <- _. auto.
  - injection E as _ _ E. destruct l; discriminate E.
Qed.
Theorem C132_compressed_file :
  forall (cs : N) (H : bytes -> bytes) uri_path uri_query glob (umod : N) sort (st : router) order
         (p plain packed : bytes) content_type hs (e : encoding) (data_certificate : bytes),
  0 < cs -> 0 < umod -> reachable cs H uri_query glob st -> (forall l, Permutation (order l) l) -> sorts sort -> e <> Identity ->
  N.of_nat (length plain) <= cs -> N.of_nat (length packed) <= cs -> no_header (bs "IC-CertificateExpression") hs ->
  parses uri_query (path_to_url p) -> parses uri_query (path_to_url (p ++ file_extension e)) ->
  exists st',
  certify_assets cs H uri_query glob order [asset_new p plain; asset_new (p ++ file_extension e) packed]
    [ConfigFile p content_type hs [] [] [default_config e]] st = (st', OOk tt) /\
  forall rq, no_header (bs "range") (rq_headers rq) ->
  (path_of uri_path rq (path_to_url p) -> best_encoding (rq_headers rq) (Some e) ->
   exists r, serve_asset cs H uri_path umod sort st' data_certificate rq = OOk r /\ rs_status r = 200 /\ rs_body r = packed /\
     In (bs "content-encoding", http_name e) (rs_headers r)) /\
  (path_of uri_path rq (path_to_url p) -> best_encoding (rq_headers rq) None ->
   exists r, serve_asset cs H uri_path umod sort st' data_certificate rq = OOk r /\ rs_status r = 200 /\ rs_body r = plain) /\
  (path_of uri_path rq (path_to_url (p ++ file_extension e)) -> best_encoding (rq_headers rq) None ->
   exists r, serve_asset cs H uri_path umod sort st' data_certificate rq = OOk r /\ rs_status r = 200 /\ rs_body r = packed).
Proof.
  intros cs H up uq glob um sort st order p plain packed ct hs e dc CS UM R O S NI LP LZ NH P1 P2.
  destruct (ext_ne e NI) as [X1 X2]. set (ext := file_extension e) in *.
  assert (DC : default_config e = (e, ext)) by (unfold ext; destruct e; reflexivity). rewrite DC.
  set (A := asset_new p plain). set (B := asset_new (p ++ ext) packed). set (cfg := ConfigFile p ct hs [] [] [(e, ext)]). set (ncfg := NFile p ct hs [] [] [(e, ext)]).
  assert (V : valid_input uq glob [A; B] [cfg]).
  { split; [constructor; [exact P1|constructor; [exact P2|constructor]]|]. constructor; [|constructor]. split; [exact NH|constructor]. }
  assert (LA : last_asset [A; B] A). { exists [], [B]. split; [reflexivity|]. intros b [<-|[]]. cbn. apply app_ne. exact X1. }
  assert (LB : last_asset [A; B] B). { exists [A], []. split; [reflexivity|]. intros b []. }
  assert (FA : first_config [ncfg] A (Some ncfg)). { exists [], []. split; [reflexivity|]. split; [|intros y []]. cbn. destruct (bytes_eqb_spec p p); [reflexivity|congruence]. }
  assert (FB : first_config [ncfg] B None). { intros y [<-|[]]. cbn. destruct (bytes_eqb_spec p (p ++ ext)) as [Y|Y]; [|reflexivity]. destruct (app_ne p ext X1). congruence. }
  assert (CF : forall a c, last_asset [A; B] a -> first_config [ncfg] a c -> a = A /\ c = Some ncfg \/ a = B /\ c = None).
  { intros a c L F. destruct (last_of_two _ _ _ L) as [->| ->]; [left|right]; (split; [reflexivity|]); destruct c as [x|].
    - destruct F as (l & r & E & _). destruct l as [|z l]; [injection E as <- _; reflexivity|]. destruct l; discriminate E.
    - specialize (F ncfg (or_introl eq_refl)). cbn in F. destruct (bytes_eqb_spec p p); [discriminate F|congruence].
    - destruct F as (l & r & E & M & _). destruct l as [|z l]; [|destruct l; discriminate E]. injection E as <- _. specialize (FB ncfg (or_introl eq_refl)). congruence.
    - reflexivity. }
  assert (SP : forall a c, variant [A; B] [ncfg] a c None -> a = A /\ c = Some ncfg \/ a = B /\ c = None).
  { intros a c VV. inversion VV as [b c' L F|]; subst. apply CF; assumption. }
  assert (VE : forall a c e', variant [A; B] [ncfg] a c (Some e') -> c = Some ncfg /\ a = aliased B (as_url A)).
  { intros a c e' VV. inversion VV as [|b c' e0 suffix ea L F I LE PE]; subst. destruct (CF _ _ L F) as [[-> ->]|[-> ->]]; [|destruct I].
    destruct I as [I|[]]. injection I as <- <-. split; [reflexivity|]. destruct (last_of_two _ _ _ LE) as [->| ->]; [|reflexivity]. exfalso. cbn in PE. symmetry in PE. exact (app_ne p ext X1 PE). }
  assert (VEI : variant [A; B] [ncfg] (aliased B (as_url A)) (Some ncfg) (Some e)).
  { apply (VariantEncoded _ _ A (Some ncfg) e ext B); [exact LA|exact FA|left; reflexivity|exact LB|reflexivity]. }
  assert (NR : forall u to kind, ~ In (ConfigRedirect u to kind) [cfg]) by (intros u to kind [Z|[]]; discriminate Z).
  assert (UX : as_url B <> as_url A) by (apply url_ext; assumption).
  destruct (C67_valid_calls_succeed cs H uq glob st order [A; B] [cfg] CS R O V) as [OK _].
  destruct (certify_assets cs H uq glob order [A; B] [cfg] st) as [st' o] eqn:E. cbn [snd] in OK. subst o. exists st'. split; [reflexivity|].
  assert (G := fun a c enc u rq => C132_variant_is_served cs H up uq glob um sort st order [A; B] [cfg] [ncfg] a c enc u dc rq CS UM R O V S eq_refl).
  intros rq RG. split; [|split]; intros PO BE.
  - destruct (G _ _ _ (path_to_url p) rq VEI) as (s & r & E' & Q1 & Q2 & Q3 & Q4); try assumption.
    + left. reflexivity.
    + intros a' c' VV _. destruct (VE _ _ _ VV) as [_ ->]. reflexivity.
    + apply NR.
    + rewrite E in E'. injection E' as <-. exists r. auto.
  - destruct (G A _ _ (path_to_url p) rq (VariantSelf _ _ _ _ LA FA)) as (s & r & E' & Q1 & Q2 & Q3 & Q4); try assumption.
    + left. reflexivity.
    + intros a' c' VV U. destruct (SP _ _ VV) as [[-> ->]|[-> ->]]; [reflexivity|]. destruct U as [U|[]]. destruct UX. symmetry. exact U.
    + apply NR.
    + rewrite E in E'. injection E' as <-. exists r. auto.
  - destruct (G B _ _ (path_to_url (p ++ ext)) rq (VariantSelf _ _ _ _ LB FB)) as (s & r & E' & Q1 & Q2 & Q3 & Q4); try assumption.
    + left. reflexivity.
    + intros a' c' VV U. destruct (SP _ _ VV) as [[-> ->]|[-> ->]]; [|reflexivity]. destruct U as [U|[]]. destruct UX. exact U.
    + apply NR.
    + rewrite E in E'. injection E' as <-. exists r. auto.
Qed.
Print Assumptions C132_compressed_file.

(** requests that meet the conditions: "gzip;q=0.5, deflate" is best served with gzip, and no header with none of the five *)
Definition zipped_request : request := mk_request (bs "GET") (bs "/a") [(bs "Accept-Encoding", bs "deflate, gzip;q=0.5")] [].
Example C132_hypotheses :
  best_encoding (rq_headers zipped_request) (Some Gzip) /\ best_encoding [] None /\
  no_header (bs "range") (rq_headers zipped_request) /\ path_of ex_uri zipped_request (path_to_url (bs "a")) /\
  parses ex_query (path_to_url (bs "a")) /\ parses ex_query (path_to_url (bs "a.gz")) /\
  reachable 8 toy ex_query no_glob router_new /\ sorts isort.
Proof.
  split. { split.
    - apply (preferred_accepts isort zipped_request); [exact isort_sorts|intro Z; discriminate Z|]. vm_compute. tauto.
    - exists [Brotli; Zstd], [Deflate; Identity]. split; [reflexivity|]. intros e' I AC. rewrite http_name_eq in AC.
      assert (P := accepts_preferred isort zipped_request e' isort_sorts AC). revert P. destruct I as [<-|[<-|[]]]; vm_compute; intuition discriminate. }
  split. { intros e AC. rewrite http_name_eq in AC. destruct (accepts_preferred isort (mk_request [] [] [] []) e isort_sorts AC). }
  split. { constructor; [|constructor]. intro Z. assert (L : forall x y, same_name x y -> length x = length y) by (intros x y F; induction F; cbn; congruence). apply L in Z. discriminate Z. }
  split. { apply C63_request_path_exact. vm_compute. reflexivity. }
  split. { eexists. vm_compute. reflexivity. } split. { eexists. vm_compute. reflexivity. }
  split; [exact (ReachStart 8 toy ex_query no_glob [] ndefault eq_refl)|exact isort_sorts].
Qed.
(** Content codings are case-insensitive in HTTP (RFC 9110, 8.4.1), but who writes "GZIP" gets the uncompressed file. *)
Definition shouting_request : request := mk_request (bs "GET") (bs "/a") [(bs "Accept-Encoding", bs "GZIP")] [].
Theorem C132_any_case_refuted :
  forall (cs : N) (H : bytes -> bytes) glob (umod : N) sort (plain packed data_certificate : bytes),
  0 < cs -> 0 < umod -> sorts sort -> N.of_nat (length plain) <= cs -> N.of_nat (length packed) <= cs ->
  same_name (bs "GZIP") (http_name Gzip) /\
  exists st' r,
  certify_assets cs H ex_query glob (fun l => l) [asset_new (bs "a") plain; asset_new (bs "a.gz") packed]
    [ConfigFile (bs "a") None [] [] [] [default_config Gzip]] router_new = (st', OOk tt) /\
  serve_asset cs H ex_uri umod sort st' data_certificate shouting_request = OOk r /\ rs_body r = plain.
Proof.
  intros cs H glob um sort plain packed dc CS UM S L1 L2. split; [repeat constructor|].
  destruct C132_hypotheses as (_ & _ & _ & _ & Q1 & Q2 & _).
  destruct (C132_compressed_file cs H ex_uri ex_query glob um sort router_new (fun l => l) (bs "a") plain packed None [] Gzip dc CS UM
    (ReachStart cs H ex_query glob [] ndefault eq_refl) (fun l => Permutation_refl l) S ltac:(intro Z; discriminate Z) L1 L2 (Forall_nil _) Q1 Q2) as (st' & E & F).
  destruct (F shouting_request) as (_ & G & _).
  { constructor; [|constructor]. intro Z. assert (L : forall x y, same_name x y -> length x = length y) by (intros x y K; induction K; cbn; congruence). apply L in Z. discriminate Z. }
  destruct G as (r & R & _ & B).
  - apply C63_request_path_exact. vm_compute. reflexivity.
  - intros e AC. rewrite http_name_eq in AC. assert (P := accepts_preferred isort shouting_request e isort_sorts AC). revert P. destruct e; vm_compute; intuition discriminate.
  - exists st', r. split; [exact E|]. split; assumption.
Qed.
Print Assumptions C132_any_case_refuted.
