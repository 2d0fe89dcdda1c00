(** C94: concrete cases, and the counterexample for paths with reserved segments. *)
From Coq Require Import List Arith NArith Lia Bool Permutation.
From Verif Require Import Bytes Sha256 Toy Utf8 Text HashTree HashTreeSpec Nested NestedSpec Cbor CborSpec HttpTypes HttpHash HttpSpec Cel CelSpec V2 WildcardSpec Verify VerifySpec Header HeaderSpec HttpTree HttpTreeSpec CertVerify CertSpec Props_Cert
  Props_Verify Props_HttpTree AssetRouter AssetSpec ServeSpec Props_Trip Props_Roundtrip Props_Skip.
Import ListNotations.

(** ** Concrete cases *)
Definition sk_verify (H : bytes -> bytes) (signer : htree -> bytes -> bytes -> bytes -> bool) (t : ntree) (rq : request) (rs : response) : out info :=
  verify (2 ^ 64) (2 ^ 60) true H ex_ple (signer (ex_state (http_root_hash H t))) ex_uri ex_query ex_none ex_none rq rs (bs "e") 1010 20 (ex_key x01) 2.
Definition sk_headers (H : bytes -> bytes) (t : ntree) (expr_path : list bytes) (expr : bytes) : list (bytes * bytes) :=
  [(bs "IC-Certificate", v2_certificate_header (ex_certificate (http_root_hash H t)) (HLabeled (bs "http_expr") (nhtree H t)) expr_path);
   (bs "IC-CertificateExpression", expr)].
Definition sk_rc : response_cert := HeaderExclusions [].
Definition sk_rs (body : bytes) : response := mk_response 200 [(bs "ic-certificateexpression", print_cel (CelResponseOnly sk_rc))] body.
Definition sk_entry (H : bytes -> bytes) (p : cert_path) (body : bytes) : entry := mk_entry p (get_cert (certify_response_only H sk_rc (sk_rs body) None)).
Lemma sk_made H rq p body : made H ex_query (CelResponseOnly sk_rc) rq (sk_rs body) (en_certification (sk_entry H p body)).
Proof.
  assert (X : exists c, certify_response_only H sk_rc (sk_rs body) None = Some c).
  { unfold certify_response_only. assert (V : validate_response (sk_rs body) (print_cel (CelResponseOnly sk_rc)) = true) by reflexivity. rewrite V. eexists. reflexivity. }
  destruct X as (c & X). unfold sk_entry. cbn [en_certification]. rewrite X. apply (MadeResponseOnly H ex_query _ _ _ None); auto.
Qed.
(** each entry was made for the response with this body, or to skip *)
Definition sk_src (H : bytes -> bytes) (en : entry) (ce : cel) (rq : request) (rs : response) : Prop :=
  (ce = CelResponseOnly sk_rc /\ exists body, rs = sk_rs body /\ en = sk_entry H (en_path en) body) \/
  (ce = CelSkip /\ en = mk_entry (en_path en) (certify_skip H)).
Lemma sk_honest H p body : honest H ex_query (sk_src H) (sk_entry H p body).
Proof.
  exists (CelResponseOnly sk_rc), (mk_request (bs "GET") (bs "/") [] []), (sk_rs body). split; [left; eauto|]. split; [apply sk_made|]. split; [constructor|].
  split; repeat constructor; intro Z; discriminate Z.
Qed.
(** "/a" certified, everything below "/b" skipped *)
Definition sk_ops : list http_op := [HInsert (sk_entry toy (PExact (bs "/a")) (bs "real")); HInsert (mk_entry (PWildcard (bs "/b")) (certify_skip toy))].
Definition sk_tree : ntree := Eval vm_compute in match http_run toy sk_ops with Some t => t | None => ndefault end.
Definition sk_request (url : bytes) : request := mk_request (bs "GET") url [] [].
Lemma sk_clean u : forallb (fun s => negb (bytes_eqb s (bs "<$>")) && negb (bytes_eqb s (bs "<*>"))) (request_parts u) = true -> clean_url u.
Proof. rewrite forallb_forall. intro F. split; intro I; specialize (F _ I); rewrite bytes_eqb_refl in F; cbn in F; discriminate F. Qed.
Lemma sk_ordinary : forall path, path_of ex_uri (sk_request (bs "/b/c")) path -> ordinary_path path.
Proof.
  intros path PO. apply C63_request_path_exact in PO. vm_compute in PO. injection PO as <-. apply clean_ordinary. apply sk_clean. vm_compute. reflexivity.
Qed.
Example C94_hypotheses :
  http_run toy sk_ops = Some sk_tree /\
  Forall (fun o => match o with HInsert en => clean_url (path_text (en_path en)) /\ honest toy ex_query (sk_src toy) en | _ => True end) sk_ops /\
  (forall St d, speaks_for (2 ^ 64) (2 ^ 60) ex_ple (fun t => t = ex_state (http_root_hash toy sk_tree)) (fun _ _ => False) (bs "e") St ->
     at_path (certified_data_path (bs "e")) St (HLeaf d) -> d = http_root_hash toy sk_tree) /\
  (forall path, path_of ex_uri (sk_request (bs "/b/c")) path -> ordinary_path path) /\
  (exists i, sk_verify toy toy_signer sk_tree (sk_request (bs "/b/c")) (mk_response 500 (sk_headers toy sk_tree [bs "http_expr"; bs "b"; bs "<*>"] (print_cel CelSkip)) (bs "any")) = OOk i /\ i_response i = None) /\
  sk_verify toy toy_signer sk_tree (sk_request (bs "/a")) (mk_response 500 (sk_headers toy sk_tree [bs "http_expr"; bs "a"; bs "<$>"] (print_cel CelSkip)) (bs "any")) = OErr.
Proof.
  split; [vm_compute; reflexivity|]. split.
  - constructor; [|constructor; [|constructor]].
    + split; [apply sk_clean; vm_compute; reflexivity|apply sk_honest].
    + split; [apply sk_clean; vm_compute; reflexivity|]. exists CelSkip, (sk_request []), (sk_rs []). split; [right; auto|]. split; [constructor|]. split; [constructor|]. split; repeat constructor; intro Z; discriminate Z.
  - split; [apply ex_speaks|]. split; [exact sk_ordinary|]. split; [|vm_compute; reflexivity]. eexists. split; [vm_compute; reflexivity|reflexivity].
Qed.
Print Assumptions C94_hypotheses.

(** Without the condition on paths C94 is false.  [odd_skip] is the skip expression with white space
    before its last parenthesis, chosen so that its SHA-256 hash is UTF-8 text without a slash.
    A response certified at the path "/a/<$>/" followed by this hash makes the verifier accept every response
    for "/a", although "/a" is certified with another response and nothing is certified to be skipped. *)
Definition odd_skip : bytes := unhex "64656661756c745f63657274696669636174696f6e2856616c69646174696f6e417267737b6e6f5f63657274696669636174696f6e3a456d7074797b7d7d20202020202020092009202009202009092020090909200920200920202020202029".
Definition odd_path : bytes := bs "/a/<$>/" ++ sha256 odd_skip.
Definition odd_ops : list http_op := [HInsert (sk_entry sha256 (PExact (bs "/a")) (bs "real")); HInsert (sk_entry sha256 (PExact odd_path) (bs "upload"))].
Definition odd_tree : ntree := Eval vm_compute in match http_run sha256 odd_ops with Some t => t | None => ndefault end.
Theorem C94_skip_without_skip_entry_refuted :
  exists (ops : list http_op) (t : ntree) (hs : list (bytes * bytes)) (i : info),
  (* the paths are texts, the entries are response-only certifications made by the constructors *)
  Forall (fun o => match o with HInsert en => utf8_valid (path_text (en_path en)) = true /\ honest sha256 ex_query (sk_src sha256) en /\
                                exists rs, made sha256 ex_query (CelResponseOnly sk_rc) (sk_request (bs "/a")) rs (en_certification en) | _ => False end) ops /\
  http_run sha256 ops = Some t /\ (exists en, held ops en /\ en_path en = PExact (bs "/a")) /\
  (forall St d, speaks_for (2 ^ 64) (2 ^ 60) ex_ple (fun t' => t' = ex_state (http_root_hash sha256 t)) (fun _ _ => False) (bs "e") St ->
     at_path (certified_data_path (bs "e")) St (HLeaf d) -> d = http_root_hash sha256 t) /\
  i_response i = None /\
  forall (status : N) (body : bytes), sk_verify sha256 ex_signer t (sk_request (bs "/a")) (mk_response status hs body) = OOk i.
Proof.
  exists odd_ops, odd_tree, (sk_headers sha256 odd_tree [bs "http_expr"; bs "a"; bs "<$>"] odd_skip), (mk_info None 2).
  assert (R : http_run sha256 odd_ops = Some odd_tree) by (vm_compute; reflexivity).
  split.
  { constructor; [|constructor; [|constructor]]; (split; [vm_compute; reflexivity|]); (split; [apply sk_honest|]); eexists; apply sk_made. }
  split; [exact R|]. split.
  { exists (sk_entry sha256 (PExact (bs "/a")) (bs "real")). split; [|reflexivity]. apply (held_get sha256 odd_ops odd_tree _ R). vm_compute. reflexivity. }
  split; [apply ex_speaks|]. split; [reflexivity|]. intros status body. vm_compute. reflexivity.
Qed.
Print Assumptions C94_skip_without_skip_entry_refuted.

(** [page_calls] and a verified response meet the conditions of C94_router_never_skips. *)
Example C94_router_hypotheses :
  Forall any_order page_calls /\ Forall plain_call page_calls /\ Forall (plain_urls (2 ^ 64) ex_query) page_calls /\
  (forall f c u, In c page_calls -> In u (call_names f c) -> clean_url u) /\
  (forall path, path_of ex_uri (get (bs "/b") []) path -> ordinary_path path) /\
  exists rs i, trip_serve 8 page_state (get (bs "/b") []) = OOk rs /\ trip_verify page_state (get (bs "/b") []) rs = OOk i.
Proof.
  split; [apply page_calls_plain|]. split; [apply page_calls_plain|]. split; [apply page_calls_plain|]. split; [apply C59_plain_get_hypotheses|]. split.
  - intros path PO. apply C63_request_path_exact in PO. vm_compute in PO. injection PO as <-. apply clean_ordinary. apply sk_clean. vm_compute. reflexivity.
  - destruct (trip_accepted 8 page_state _ _ (proj1 (proj2 C59_ex_accepted))) as (rs & i & A & B & _). eauto.
Qed.
