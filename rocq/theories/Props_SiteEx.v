(** C99-C101: a small site. *)
From Coq Require Import List Arith NArith Lia Bool Permutation.
From Verif Require Import Bytes Toy Text Leb128 HashTree HashTreeSpec RbTree Nested NestedSpec NestedProofs Cbor CborSpec HttpTypes HttpHash HttpSpec Cel V2 Wildcard WildcardSpec Verify VerifySpec Header HeaderSpec HttpTree HttpTreeSpec CertVerify CertSpec Props_Cert
  Props_Verify Props_HttpTree AssetRouter AssetMap AssetSpec AssetProofs ServeSpec Props_Serve Props_Encoding Props_Trip Props_Roundtrip Props_Skip Props_SkipEx Shared Props_Shared Props_SharedGet SiteExample Props_Site.
Import ListNotations.
Local Open Scope N_scope.

(** "**/*.js" and the like: the path ends with what follows the second star *)
Definition suffix_glob (p : bytes) : option (bytes -> bool) := Some (fun path => bprefix (rev (skipn 4 p)) (rev path)).
Definition small_site : dir :=
  Dir [(bs "index.html", bs "<html>"); (bs "index.html.br", bs "br!")]
      [Dir [(bs "js/app.js", bs "0123456789ab"); (bs "js/app.js.gz", bs "gz!")] []; Dir [] [Dir [(bs "a/b/c.css", bs "p {}")] []]].
Definition site_start : router * bytes :=
  match certify_all_assets 8 toy ex_query suffix_glob (fun l => l) small_site with Some p => p | None => (router_new, []) end.
Definition site_state : router := fst site_start.
Definition site_root : bytes := snd site_start.
Lemma site_started : certify_all_assets 8 toy ex_query suffix_glob (fun l => l) small_site = Some (site_state, site_root).
Proof.
  assert (X : match certify_all_assets 8 toy ex_query suffix_glob (fun l => l) small_site with Some _ => true | None => false end = true) by (vm_compute; reflexivity).
  unfold site_state, site_root, site_start. destruct (certify_all_assets 8 toy ex_query suffix_glob (fun l => l) small_site) as [[a b]|]; [reflexivity|discriminate X].
Qed.
Definition site_serve (rq : request) : option response := site_http_request 8 toy ex_uri (2 ^ 64) isort site_state (Some (ex_certificate site_root)) 77 rq.
Definition site_verify (rq : request) (rs : response) : out info :=
  verify (2 ^ 64) (2 ^ 60) true toy ex_ple (toy_signer (ex_state site_root)) ex_uri ex_query ex_none ex_none rq rs (bs "e") 1010 20 (ex_key x01) 2.
(** [Some None]: served, but rejected by the verifier; [Some (Some None)]: accepted without being vouched for *)
Definition site_trip (rq : request) : option (option (option (N * bytes))) :=
  match site_serve rq with
  | Some rs => match site_verify rq rs with
               | OOk i => Some (Some (match i_response i with Some v => Some (match v_status v with Some s => s | None => 0 end, v_body v) | None => None end))
               | _ => Some None
               end
  | None => None
  end.
Example C99_ex :
  option_map rs_body (site_serve (get (bs "/metrics") [])) = Some (bs "{""num_assets"":12,""num_fallback_assets"":2,""cycle_balance"":77}") /\
  site_trip (mk_request (bs "POST") (bs "/metrics?x=y") [] (bs "body")) = Some (Some None).
Proof. vm_compute. repeat split. Qed.
Example C100_ex :
  site_trip (get (bs "/") []) = Some (Some (Some (200, bs "<html>"))) /\
  site_trip (get (bs "/index.html") [(bs "accept-encoding", bs "gzip, br")]) = Some (Some (Some (200, bs "br!"))) /\
  site_trip (get (bs "/js/app.js") []) = Some (Some (Some (206, bs "01234567"))) /\
  site_trip (get (bs "/js/app.js") [(bs "accept-encoding", bs "gzip")]) = Some (Some (Some (200, bs "gz!"))) /\
  site_trip (get (bs "/a/b/c.css") []) = Some (Some (Some (200, bs "p {}"))) /\
  site_trip (get (bs "/old-url") []) = Some (Some (Some (301, []))) /\
  site_trip (get (bs "/no/such/page") []) = Some (Some (Some (200, bs "<html>"))).
Proof. vm_compute. repeat split. Qed.
(** C100 does not hold for every GET: the remaining part of a large file, requests with a query string, and paths
    that differ from a known one in slashes are served with responses that do not verify. *)
Theorem C100_site_get_is_rejected_refuted :
  certify_all_assets 8 toy ex_query suffix_glob (fun l => l) small_site = Some (site_state, site_root) /\
  site_trip (get (bs "/js/app.js") [(bs "range", bs "bytes=8-")]) = Some None /\
  site_trip (get (bs "/a/b/c.css?v=2") []) = Some None /\
  site_trip (get (bs "//metrics") []) = Some None /\
  site_trip (get (bs "/a//b/c.css") []) = Some None.
Proof. split; [exact site_started|]. vm_compute. repeat split. Qed.
Print Assumptions C100_site_get_is_rejected_refuted.

Definition small_names : list bytes := map as_url (collect_assets small_site) ++ [bs "/"; bs "/old-url"].
Lemma small_name u : site_name small_site u -> In u small_names.
Proof.
  intros [(p & c & F & ->)|[-> | ->]]; apply in_or_app; [left|right; left; reflexivity|right; right; left; reflexivity].
  apply in_map_iff. exists (asset_new p c). split; [reflexivity|]. apply collected. eauto.
Qed.
Lemma small_tidy : tidy (2 ^ 64) ex_query small_site.
Proof.
  assert (A : forallb (fun u => match ex_query u with Some None => N.ltb (N.of_nat (length u) + 4) (2 ^ 64) | _ => false end) small_names = true) by (vm_compute; reflexivity).
  assert (B : forallb (fun u => clean_b u && negb (peqb (request_parts u) [bs "metrics"])) small_names = true) by (vm_compute; reflexivity).
  assert (C : forallb (fun u => forallb (fun u' => negb (peqb (request_parts u) (request_parts u')) || bytes_eqb u u') small_names) small_names = true) by (vm_compute; reflexivity).
  rewrite forallb_forall in A, B, C. split; [|split].
  - intros u N. specialize (A u (small_name u N)). destruct (ex_query u) as [[q|]|]; try discriminate A. split; [reflexivity|]. apply N.ltb_lt. exact A.
  - intros u N. specialize (B u (small_name u N)). apply andb_prop in B. destruct B as [B1 B2]. apply clean_b_ok in B1. split; [apply B1|]. split; [apply B1|].
    intro E. apply peqb_spec in E. rewrite E in B2. discriminate B2.
  - intros u u' N N' E. specialize (C u (small_name u N)). rewrite forallb_forall in C. specialize (C u' (small_name u' N')). apply peqb_spec in E. rewrite E in C. apply bytes_eqb_eq. exact C.
Qed.
Lemma small_index : exists content, file_of small_site (bs "index.html") content.
Proof. exists (bs "<html>"). apply FileHere. left. reflexivity. Qed.
Definition page : request := get (bs "/no/such/page") [].
Example C100_hypotheses :
  tidy (2 ^ 64) ex_query small_site /\ (exists content, file_of small_site (bs "index.html") content) /\
  Forall (fun p => exists m, suffix_glob p = Some m) [bs "**/*.js"; bs "**/*.css"; bs "**/*.ico"; bs "**/*.svg"] /\
  (forall u, site_name small_site u -> exists q, ex_query u = Some q) /\
  plain_get ex_query page True /\ path_of ex_uri page (bs "/no/such/page") /\
  (forall s, In s (request_parts (bs "/no/such/page")) -> s <> bs "<$>" /\ s <> bs "<*>") /\ (forall r, request_parts (bs "/no/such/page") <> bs "http_expr" :: r) /\
  (forall u, site_name small_site u \/ u = bs "/metrics" -> request_parts u = request_parts (bs "/no/such/page") -> u = bs "/no/such/page") /\
  (exists c, cert_from_cbor (2 ^ 64) (2 ^ 60) (ex_certificate site_root) = OOk c /\
   verify_certificate (2 ^ 64) (2 ^ 60) true toy ex_ple (toy_signer (ex_state site_root)) c (bs "e") (ex_key x01) 1010 20 = OOk tt /\
   lookup_path (certified_data_path (bs "e")) (c_tree c) = Found site_root).
Proof.
  split; [exact small_tidy|]. split; [exact small_index|]. split; [repeat (apply Forall_cons; [eexists; reflexivity|]); apply Forall_nil|].
  split. { intros u N. exists None. apply (proj1 small_tidy u N). }
  split; [repeat split; constructor|]. split; [apply C63_request_path_exact; vm_compute; reflexivity|].
  split. { intros s I. vm_compute in I. destruct I as [<-|[<-|[<-|[]]]]; split; intro Z; discriminate Z. }
  split. { intros r Z. discriminate Z. }
  split.
  { intros u N E. exfalso. assert (B : forallb (fun u => negb (peqb (request_parts u) (request_parts (bs "/no/such/page")))) (bs "/metrics" :: small_names) = true) by (vm_compute; reflexivity).
    rewrite forallb_forall in B. assert (I : In u (bs "/metrics" :: small_names)) by (destruct N as [N| ->]; [right; exact (small_name u N)|left; reflexivity]).
    specialize (B u I). apply peqb_spec in E. rewrite E in B. discriminate B. }
  eexists. split; [vm_compute; reflexivity|]. split; vm_compute; reflexivity.
Qed.
Print Assumptions C100_hypotheses.
Example C101_hypotheses :
  unforgeable toy (toy_signer (ex_state site_root)) (ex_key x01) (fun t => t = ex_state site_root) (fun _ _ => False) /\
  (forall St x, speaks_for (2 ^ 64) (2 ^ 60) ex_ple (fun t => t = ex_state site_root) (fun _ _ => False) (bs "e") St ->
     at_path (certified_data_path (bs "e")) St (HLeaf x) -> x = site_root) /\
  (forall path, path_of ex_uri page path -> ordinary_path path) /\
  (exists rs i, site_serve page = Some rs /\ site_verify page rs = OOk i /\ no_pseudo (rs_headers rs) /\
     site_content small_site (bs "/no/such/page") (rs_status rs) (rs_body rs)).
Proof.
  split; [apply toy_signer_unforgeable|]. split; [apply ex_speaks|]. split.
  { intros path PO. apply C63_request_path_exact in PO. vm_compute in PO. injection PO as <-. apply clean_ordinary. apply sk_clean. vm_compute. reflexivity. }
  assert (T : match site_serve page with Some rs => match site_verify page rs with OOk _ => no_colon_b (OOk rs) && N.eqb (rs_status rs) 200 && bytes_eqb (rs_body rs) (bs "<html>") | _ => false end | None => false end = true) by (vm_compute; reflexivity).
  destruct (site_serve page) as [rs|]; [|discriminate T]. destruct (site_verify page rs) as [i| | |] eqn:V; try discriminate T. exists rs, i. split; [reflexivity|]. split; [exact V|].
  apply andb_prop in T. destruct T as [T T3]. apply andb_prop in T. destruct T as [T1 T2]. split; [exact (no_colon_ok _ rs T1 eq_refl)|].
  apply N.eqb_eq in T2. apply bytes_eqb_eq in T3. rewrite T2, T3. apply ContentIndex; [|left; apply FileHere; left; reflexivity].
  intros u N E. assert (X := proj1 (proj2 (proj2 (proj2 (proj2 (proj2 (proj2 (proj2 (proj2 C100_hypotheses)))))))) u N E). subst u. vm_compute in E.
  destruct N as [N|N]; [|discriminate N]. assert (I := small_name _ N). revert I. clear. unfold small_names. intro I. vm_compute in I.
  repeat (destruct I as [I|I]; [discriminate I|]). exact I.
Qed.
Print Assumptions C101_hypotheses.
