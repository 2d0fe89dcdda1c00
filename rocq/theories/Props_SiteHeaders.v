(** C110: which headers the assets example sends. *)
From Coq Require Import List Arith NArith Lia Bool Permutation.
From Verif Require Import Bytes Toy Text HashTree Nested Cbor HttpTypes HttpHash Cel V2 Verify VerifySpec HttpTree HttpTreeSpec AssetRouter AssetMap AssetSpec AssetProofs AssetEffect PreparedProofs Props_Router
  Props_Verify Props_HttpTree ServeSpec Props_Serve Props_Accept Shared Props_Shared Props_SharedGet Props_Skip Props_Roundtrip SiteExample Props_Site Props_SiteEx.
Import ListNotations.
Local Open Scope N_scope.

(** ** Specification *)
(** what every page must carry: no framing, no sniffing, no script, style or connection
    from elsewhere, transport security, no referrer, no embedding across origins *)
Definition security_headers : list (bytes * bytes) :=
  [(bs "x-frame-options", bs "DENY");
   (bs "x-content-type-options", bs "nosniff");
   (bs "strict-transport-security", bs "max-age=31536000; includeSubDomains");
   (bs "referrer-policy", bs "no-referrer");
   (bs "cross-origin-opener-policy", bs "same-origin");
   (bs "cross-origin-embedder-policy", bs "require-corp");
   (bs "content-security-policy", bs "default-src 'self'; img-src 'self' data:; form-action 'self'; object-src 'none'; frame-ancestors 'none'; upgrade-insecure-requests; block-all-mixed-content");
   (bs "permissions-policy", bs "accelerometer=(),ambient-light-sensor=(),autoplay=(),battery=(),camera=(),display-capture=(),document-domain=(),encrypted-media=(),fullscreen=(),gamepad=(),geolocation=(),gyroscope=(),layout-animations=(self),legacy-image-formats=(self),magnetometer=(),microphone=(),midi=(),oversized-images=(self),payment=(),picture-in-picture=(),publickey-credentials-get=(),speaker-selection=(),sync-xhr=(self),unoptimized-images=(self),unsized-media=(self),usb=(),screen-wake-lock=(),web-share=(),xr-spatial-tracking=()")].
(** patterns in the order in which they are tried, with the type of what they match *)
Definition typed_patterns : list (bytes * bytes) :=
  [(bs "**/*.js", bs "text/javascript"); (bs "**/*.css", bs "text/css"); (bs "**/*.ico", bs "image/x-icon"); (bs "**/*.svg", bs "image/svg+xml")].
Definition pattern_matches (glob : bytes -> option (bytes -> bool)) (pattern path : bytes) : Prop := exists m, glob pattern = Some m /\ m path = true.
(** The type of the file with this path, and how long it may be cached: the page itself
    not at all, files matching a pattern for a year. *)
Inductive file_kind glob : bytes -> bytes -> bytes -> Prop :=
| KindPage : file_kind glob (bs "index.html") (bs "text/html") (bs "public, no-cache, no-store")
| KindPattern path before pattern type after : path <> bs "index.html" -> typed_patterns = before ++ (pattern, type) :: after -> pattern_matches glob pattern path ->
    (forall q t, In (q, t) before -> ~ pattern_matches glob q path) ->
    file_kind glob path type (bs "public, max-age=31536000, immutable").
(** [hs] are the headers of a response that shows the file [p] *)
Definition file_headers glob (p : bytes) (hs : list (bytes * bytes)) : Prop :=
  forall type cache, file_kind glob p type cache ->
  incl security_headers hs /\ In (bs "content-type", type) hs /\ In (bs "cache-control", cache) hs.

(** ** Proof *)
Lemma secured extra : incl security_headers (get_asset_headers extra).
Proof. intros h I. unfold get_asset_headers. apply in_or_app. left. unfold security_headers in I. unfold base_headers. cbn [In] in *. tauto. Qed.
Lemma site_kind glob cfgs a c type cache : normalize_all glob site_configs = Some cfgs -> first_config cfgs a c -> file_kind glob (as_path a) type cache ->
  content_type_of c = Some type /\ headers_of c = get_asset_headers [(bs "cache-control", cache)].
Proof.
  intros N F K.
  assert (G : exists m1 m2 m3 m4, glob (bs "**/*.js") = Some m1 /\ glob (bs "**/*.css") = Some m2 /\ glob (bs "**/*.ico") = Some m3 /\ glob (bs "**/*.svg") = Some m4 /\
    cfgs = [index_config; NPattern m1 (Some (bs "text/javascript")) immutable_cache site_encodings; NPattern m2 (Some (bs "text/css")) immutable_cache site_encodings;
    NPattern m3 (Some (bs "image/x-icon")) immutable_cache []; NPattern m4 (Some (bs "image/svg+xml")) immutable_cache []; NRedirect (bs "/old-url") (bs "/") Permanent]).
  { unfold site_configs in N. cbn [normalize_all normalize] in N. destruct (glob (bs "**/*.js")) as [m1|]; [|discriminate]. destruct (glob (bs "**/*.css")) as [m2|]; [|discriminate].
    destruct (glob (bs "**/*.ico")) as [m3|]; [|discriminate]. destruct (glob (bs "**/*.svg")) as [m4|]; [|discriminate]. injection N as <-. exists m1, m2, m3, m4. repeat (split; [reflexivity|]). reflexivity. }
  destruct G as (m1 & m2 & m3 & m4 & G1 & G2 & G3 & G4 & ->). clear N.
  assert (FC : c = find (fun x => matches_asset x a) [index_config; NPattern m1 (Some (bs "text/javascript")) immutable_cache site_encodings; NPattern m2 (Some (bs "text/css")) immutable_cache site_encodings;
    NPattern m3 (Some (bs "image/x-icon")) immutable_cache []; NPattern m4 (Some (bs "image/svg+xml")) immutable_cache []; NRedirect (bs "/old-url") (bs "/") Permanent]).
  { destruct c as [x|]; cbn [first_config] in F.
    - destruct F as (l & r & -> & M & B). clear - M B. induction l as [|y l IH]; cbn [app find]; [rewrite M; reflexivity|]. rewrite (B y (or_introl eq_refl)). apply IH. intros z I. apply B. right. exact I.
    - revert F. generalize [index_config; NPattern m1 (Some (bs "text/javascript")) immutable_cache site_encodings; NPattern m2 (Some (bs "text/css")) immutable_cache site_encodings;
        NPattern m3 (Some (bs "image/x-icon")) immutable_cache []; NPattern m4 (Some (bs "image/svg+xml")) immutable_cache []; NRedirect (bs "/old-url") (bs "/") Permanent].
      intros l F. induction l as [|y l IH]; [reflexivity|]. cbn [find]. rewrite (F y (or_introl eq_refl)). apply IH. intros z I. apply F. right. exact I. }
  subst c. clear F. cbn [find matches_asset index_config]. remember (as_path a) as p eqn:EP. clear EP. inversion K as [E1 E2 E3|p' before pattern ty after NI T (m & GM & M) NB E1 E2 E3]; subst.
  - rewrite bytes_eqb_refl. split; reflexivity.
  - destruct (bytes_eqb_spec (bs "index.html") p) as [Z|_]; [congruence|]. unfold typed_patterns in T.
    assert (NM : forall q t mq, In (q, t) before -> glob q = Some mq -> mq p = false).
    { intros q t mq I Gq. destruct (mq p) eqn:Z; [|reflexivity]. exfalso. apply (NB q t I). exists mq. auto. }
    destruct before as [|b1 before]; cbn [app] in T; [injection T as <- <- <-; assert (m = m1) by congruence; subst m; rewrite M; split; reflexivity|].
    injection T as <- T. rewrite (NM _ _ m1 (or_introl eq_refl) G1).
    destruct before as [|b2 before]; cbn [app] in T; [injection T as <- <- <-; assert (m = m2) by congruence; subst m; rewrite M; split; reflexivity|].
    injection T as <- T. rewrite (NM _ _ m2 (or_intror (or_introl eq_refl)) G2).
    destruct before as [|b3 before]; cbn [app] in T; [injection T as <- <- <-; assert (m = m3) by congruence; subst m; rewrite M; split; reflexivity|].
    injection T as <- T. rewrite (NM _ _ m3 (or_intror (or_intror (or_introl eq_refl))) G3).
    destruct before as [|b4 before]; cbn [app] in T; [injection T as <- <- <-; assert (m = m4) by congruence; subst m; rewrite M; split; reflexivity|].
    injection T as <- T. destruct before; discriminate T.
Qed.
Lemma variant_kind glob d cfgs a c enc : normalize_all glob site_configs = Some cfgs -> variant (collect_assets d) cfgs a c enc ->
  exists p, as_url a = path_to_url p /\ variant_of d p (as_content a) /\ (aliases_of c = [] \/ aliases_of c = [bs "/"] /\ p = bs "index.html") /\ (fallbacks_of c = [] \/ p = bs "index.html") /\
    forall type cache, file_kind glob p type cache -> content_type_of c = Some type /\ headers_of c = get_asset_headers [(bs "cache-control", cache)].
Proof.
  intros N V. assert (SV := V).
  assert (X : exists a0, last_asset (collect_assets d) a0 /\ first_config cfgs a0 c /\ as_url a = as_url a0 /\ variant_of d (as_path a0) (as_content a)).
  { inversion V as [a' c' L F|a' c' e s ea L F Ie Le Pe]; subst.
    - exists a. destruct (last_collected d a L) as [FO _]. split; [exact L|]. split; [exact F|]. split; [reflexivity|left; exact FO].
    - exists a'. destruct (site_first _ _ _ _ N F) as (_ & SF & _). destruct (last_collected d ea Le) as [FE _]. rewrite Pe in FE. split; [exact L|]. split; [exact F|]. split; [reflexivity|]. cbn [aliased as_content].
      destruct (SF e s Ie) as [-> | ->]; [right; left; exact FE|right; right; exact FE]. }
  destruct X as (a0 & L & F & U & VO). destruct (last_collected d a0 L) as [_ U0]. exists (as_path a0). split; [congruence|]. split; [exact VO|].
  destruct (site_first _ _ _ _ N F) as (_ & _ & D). split; [|split].
  - destruct D as [[-> Q]|(_ & Q & _)]; [right; split; [reflexivity|exact Q]|left; exact Q].
  - destruct D as [[_ Q]|(_ & _ & Q)]; [right; exact Q|left; exact Q].
  - intros ty ca K. exact (site_kind glob cfgs a0 c ty ca N F K).
Qed.
Lemma content_headers_in body hs ct enc rg e h : In h hs \/ (exists t, ct = Some t /\ h = (bs "content-type", t)) -> In h (content_headers body hs ct enc rg e).
Proof.
  unfold content_headers. intros [I|(t & -> & ->)]; apply in_or_app; right; apply in_or_app; [left; exact I|right]. apply in_or_app. left. left. reflexivity.
Qed.
Lemma shown_headers glob p body c enc rg e hs : hs = content_headers body (headers_of c) (content_type_of c) enc rg e ->
  (forall type cache, file_kind glob p type cache -> content_type_of c = Some type /\ headers_of c = get_asset_headers [(bs "cache-control", cache)]) -> file_headers glob p hs.
Proof.
  intros -> K ty ca F. destruct (K ty ca F) as [E1 E2]. rewrite E2. split; [|split].
  - intros h I. apply content_headers_in. left. exact (secured _ h I).
  - apply content_headers_in. right. exists ty. auto.
  - apply content_headers_in. left. unfold get_asset_headers. apply in_or_app. right. left. reflexivity.
Qed.

Lemma some_eq {A} (a b : A) : Some a = Some b -> a = b.
Proof. congruence. Qed.
(** ** C110: whatever is asked for, the answer carries the headers of what it shows *)
Theorem C110_site_headers :
  forall (cs : N) (H : bytes -> bytes) uri_path uri_query glob (umod : N) sort order (d : dir) (st : router) (root : bytes) (rq : request) (path : bytes) data_certificate (balance : N) (rs : response),
  0 < cs -> (forall l, Permutation (order l) l) ->
  certify_all_assets cs H uri_query glob order d = Some (st, root) ->
  path_of uri_path rq path ->
  (* any answer to any request, with whatever method, headers and body *)
  site_http_request cs H uri_path umod sort st data_certificate balance rq = Some rs ->
  (* the metrics *)
  path = bs "/metrics" /\ rs_status rs = 200 /\ incl security_headers (rs_headers rs) \/
  (* the redirect *)
  path = bs "/old-url" /\ rs_status rs = 301 /\ rs_body rs = [] /\ In (bs "location", bs "/") (rs_headers rs) \/
  (* all or part of a file, under its own path or, for the page, the root or a path below it *)
  exists p content before after,
  (path = path_to_url p \/ p = bs "index.html" /\ exists rest, path = bs "/" ++ rest) /\
  variant_of d p content /\ content = before ++ rs_body rs ++ after /\
  file_headers glob p (rs_headers rs).
Proof.
  intros cs H up uq glob umod sort order d st root rq path odc balance rs CS O E PO S.
  destruct (init_run _ _ _ _ _ _ _ _ E) as (R & -> & t & Et & Ec).
  assert (RT : reachable cs H uq glob (router_with t)).
  { apply (ReachStart cs H uq glob [HInsert (metrics_entry H)] t). unfold http_run. cbn [map nrun]. rewrite Et. reflexivity. }
  assert (RE : reachable cs H uq glob st) by (exact (shared_reachable cs H uq glob _ (site_order H order d O) router_new st (new_reachable cs H uq glob) R)).
  assert (SC : forall f k x, stored st f k x -> configured cs H uq glob (collect_assets d) site_configs f k x).
  { destruct (C67_certify_stores_and_certifies cs H uq glob (router_with t) st order (collect_assets d) site_configs CS RT O Ec) as (_ & SS & _).
    intros f k x X. apply C67_written_is_configured; [exact CS|]. destruct (SS f k x X) as [w|Z]; [exact w|]. destruct f; discriminate Z. }
  apply C63_request_path_exact in PO. unfold site_http_request in S. rewrite PO in S. destruct (bytes_eqb_spec path (bs "/metrics")) as [->|NM].
  - left. split; [reflexivity|]. unfold serve_metrics in S. destruct odc as [dc|]; [|discriminate S]. destruct (http_witness H (r_tree st) (metrics_entry H) (bs "/metrics")) as [w| | |]; try discriminate S.
    apply some_eq in S. subst rs. cbn [rs_status rs_headers]. split; [reflexivity|]. intros h I. apply in_or_app. right. exact (secured _ h I).
  - right. unfold site_serve_asset in S. destruct odc as [dc|]; [|discriminate S]. unfold serve_asset in S. rewrite PO in S. cbn [out_bind] in S.
    destruct (maybe_get_range_begin umod rq) as [range| | |]; cbn [out_bind] in S; try discriminate S.
    destruct (get_asset_for_request cs st path (get_preferred_encodings sort rq) range) as [[f x]|] eqn:G; [|discriminate S].
    destruct (http_witness H (r_tree st) (ca_entry x) path) as [w| | |]; cbn [out_bind] in S; try discriminate S. injection S as <-.
    destruct (choice_stored _ _ _ _ _ _ _ _ _ _ CS RE G) as (k & Sk & KP & _ & _).
    unfold add_v2_certificate_header, add_header. cbn [rs_status rs_headers rs_body].
    assert (AP : forall p hs h, file_headers glob p hs -> file_headers glob p (hs ++ h)).
    { intros p hs h F ty ca K. destruct (F ty ca K) as (A & B & C). split; [|split; apply in_or_app; left; assumption]. intros y I. apply in_or_app. left. exact (A y I). }
    assert (C := SC f k x Sk).
    inversion C as [cfgs a c enc u x' N V UU P|cfgs a c enc u i before body after x' N V UU EB L D B P|cfgs a c enc fb x' N V I P|from to kind x' I P]; subst; cbn [k_path] in KP; subst; rewrite (proj1 P); cbn [rs_status rs_headers rs_body].
    + destruct (variant_kind glob d cfgs a c enc N V) as (p & UP & VO & AL & _ & K). right. exists p, (as_content a), [], []. rewrite app_nil_r. split; [|split; [exact VO|split; [reflexivity|apply AP; eapply shown_headers; [reflexivity|exact K]]]].
      destruct UU as [->|UU]; [left; exact UP|]. right. destruct AL as [Z|[Z ->]]; [rewrite Z in UU; destruct UU|]. rewrite Z in UU. destruct UU as [<-|[]]. split; [reflexivity|]. exists []. reflexivity.
    + destruct (variant_kind glob d cfgs a c enc N V) as (p & UP & VO & AL & _ & K). right. exists p, (as_content a), before, after. split; [|split; [exact VO|split; [exact EB|apply AP; eapply shown_headers; [reflexivity|exact K]]]].
      destruct UU as [->|UU]; [left; exact UP|]. right. destruct AL as [Z|[Z ->]]; [rewrite Z in UU; destruct UU|]. rewrite Z in UU. destruct UU as [<-|[]]. split; [reflexivity|]. exists []. reflexivity.
    + destruct (variant_kind glob d cfgs a c enc N V) as (p & UP & VO & AL & FB & K). destruct FB as [Z|PI]; [rewrite Z in I; destruct I|]. right. exists p, (as_content a), [], []. rewrite app_nil_r. split; [|split; [exact VO|split; [reflexivity|apply AP; eapply shown_headers; [reflexivity|exact K]]]].
      right. split; [exact PI|]. destruct (site_fallback d cs H uq glob _ x C) as (KF & _). cbn [k_path] in KF. rewrite KF in KP. destruct KP as (bf & rest & PR & [Q|Q]); [destruct bf as [|b bf]; [exists rest; exact PR|destruct bf; discriminate Q]|subst bf; exists (bs "/" ++ rest); exact PR].
    + left. unfold site_configs in I. destruct I as [I|[I|[I|[I|[I|[I|[]]]]]]]; try discriminate I. injection I as <- <- <-. split; [reflexivity|]. split; [reflexivity|]. split; [reflexivity|].
      apply in_or_app. left. apply content_headers_in. left. left. reflexivity.
Qed.
Print Assumptions C110_site_headers.
(** the headers of three answers of a small site, and what the specification says of the files *)
Definition has_headers (l : list (bytes * bytes)) (rs : option response) : bool :=
  match rs with Some rs => forallb (fun h => existsb (fun x => bytes_eqb (fst x) (fst h) && bytes_eqb (snd x) (snd h)) (rs_headers rs)) l | None => false end.
Example C110_ex :
  has_headers ((bs "content-type", bs "text/html") :: (bs "cache-control", bs "public, no-cache, no-store") :: security_headers) (site_serve (get (bs "/no/such/page") [])) = true /\ has_headers ((bs "content-type", bs "text/javascript") :: (bs "cache-control", bs "public, max-age=31536000, immutable") :: security_headers) (site_serve (get (bs "/js/app.js") [])) = true /\ has_headers [(bs "location", bs "/")] (site_serve (get (bs "/old-url") [])) = true /\ has_headers security_headers (site_serve (get (bs "/metrics") [])) = true.
Proof. vm_compute. repeat split. Qed.
Example C110_kind_ex : file_kind suffix_glob (bs "js/app.js") (bs "text/javascript") (bs "public, max-age=31536000, immutable").
Proof. apply (KindPattern suffix_glob (bs "js/app.js") [] (bs "**/*.js") (bs "text/javascript") (tl typed_patterns)); [intro Z; discriminate Z|reflexivity|eexists; split; [reflexivity|reflexivity]|intros q t []]. Qed.
