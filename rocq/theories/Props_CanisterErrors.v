(** C145, C146: the error a canister gets from certifying and serving says what is wrong. *)
From Coq Require Import List Arith NArith Lia Bool Permutation.
From Verif Require Import Bytes Text Utf8 HashTree RbTree Nested Cbor HttpTypes HttpHash HttpSpec Props_Hash Cel V2 WildcardSpec Props_Wildcard Header HeaderSpec HeaderProofs Props_Header Verify VerifySpec Props_Verify
  HttpTree HttpTreeSpec Props_HttpTree AssetRouter AssetSpec AssetProofs RangeSpec Props_Range ServeSpec Props_Serve Props_Router Errors Props_Errors CanisterErrors CanisterErrorSpec.
Import ListNotations.
Local Open Scope N_scope.

(** ** Forgetting the error values *)
Lemma forget_validate_headers hs expr : forall found, forget (validate_headers_e hs expr found) = if validate_headers hs expr found then OOk tt else OErr.
Proof.
  induction hs as [|[n v] hs IH]; intro found; cbn [validate_headers_e validate_headers]; [destruct found; reflexivity|].
  destruct (bytes_eqb (lower n) (lower cert_expr_header_name)); [|apply IH]. destruct (bytes_eqb v expr); [|reflexivity]. destruct found; [reflexivity|apply IH].
Qed.
Lemma forget_response_only H rc rs bh : forget (certify_response_only_e H rc rs bh) = of_opt (certify_response_only H rc rs bh).
Proof.
  unfold certify_response_only_e, certify_response_only, validate_response_e, validate_response. cbv zeta. rewrite forget_bind, forget_validate_headers.
  destruct (validate_headers (rs_headers rs) (print_cel (CelResponseOnly rc)) false); reflexivity.
Qed.
Lemma forget_full H uq qc rc rq rs bh : forget (certify_full_e H uq qc rc rq rs bh) = of_opt (certify_full H uq qc rc rq rs bh).
Proof.
  unfold certify_full_e, certify_full, validate_response_e, validate_response, request_hash_e. cbv zeta. rewrite forget_bind, forget_validate_headers.
  destruct (validate_headers (rs_headers rs) (print_cel (CelFull qc rc)) false); [|reflexivity]. cbn [out_bind]. rewrite forget_bind, forget_with.
  destruct (request_hash H uq rq qc); reflexivity.
Qed.
Lemma forget_digits umod s : forall a, forget (digits_below_e umod s a) = of_opt (digits_below umod s a).
Proof. induction s as [|b s IH]; intro a; cbn [digits_below_e digits_below]; [reflexivity|]. destruct (digit b); [|reflexivity]. destruct (_ <? _); [apply IH|reflexivity]. Qed.
Lemma forget_usize umod s : forget (parse_usize_e umod s) = of_opt (parse_usize umod s).
Proof.
  unfold parse_usize_e, parse_usize. destruct s as [|b s]; [reflexivity|]. cbv zeta. destruct (drop_opt "+" (b :: s)); [reflexivity|apply forget_digits].
Qed.
Lemma forget_parse_range umod v : forget (parse_range_e umod v) = of_opt (parse_range umod v).
Proof.
  unfold parse_range_e, parse_range. cbv zeta. destruct (strip_prefix (bs "bytes=") (trim v)); [|reflexivity].
  destruct (split_on "-" (trim_with [bs "bytes="] (length (trim v)) (trim v))) as [|b [|e [|? ?]]]; try reflexivity.
  rewrite forget_bind, forget_map, forget_usize. destruct (parse_usize umod b) as [rb|]; [|reflexivity]. cbn [of_opt out_bind]. rewrite forget_bind.
  destruct e as [|c e].
  - cbn [forget out_bind]. destruct (umod - 1 <? rb); reflexivity.
  - rewrite forget_bind, forget_map, forget_usize. destruct (parse_usize umod (c :: e)) as [re|]; [|reflexivity]. cbn [of_opt out_bind forget]. destruct (re <? rb); reflexivity.
Qed.
Lemma forget_range_begin umod rq : forget (maybe_get_range_begin_e umod rq) = maybe_get_range_begin umod rq.
Proof.
  unfold maybe_get_range_begin_e, maybe_get_range_begin. destruct (first_header (bs "range") (rq_headers rq)) as [v|]; [|reflexivity].
  rewrite forget_bind, forget_map, forget_parse_range. destruct (parse_range umod v) as [[b e]|]; reflexivity.
Qed.
Lemma forget_path up rq : forget (get_path_e up rq) = get_path up rq.
Proof. unfold get_path_e, get_path. destruct (up (rq_url rq)); [|reflexivity]. cbv zeta. destruct (utf8_valid _); reflexivity. Qed.
Lemma forget_witness H t en url : forget (http_witness_e H t en url) = http_witness H t en url.
Proof. apply forget_with. Qed.
Lemma forget_serve cs H up umod sort st dc rq : forget (serve_asset_e cs H up umod sort st dc rq) = serve_asset cs H up umod sort st dc rq.
Proof.
  unfold serve_asset_e, serve_asset. cbv zeta. rewrite forget_bind, forget_map, forget_path. apply bind_ext. intro path.
  rewrite forget_bind, forget_range_begin. apply bind_ext. intro range. destruct (get_asset_for_request cs st path (get_preferred_encodings sort rq) range) as [[f c]|]; [|reflexivity].
  rewrite forget_bind, forget_map, forget_witness. reflexivity.
Qed.

(** actions *)
Definition plain_of {A} (r : A * res asset_error unit) : A * out unit := (fst r, forget (snd r)).
Definition agrees (e : eact) (a : act) : Prop := forall st, plain_of (e st) = a st.
Lemma agrees_done : agrees edone done. Proof. intro st. reflexivity. Qed.
Lemma agrees_seq e f a b : agrees e a -> agrees f b -> agrees (eseq e f) (seq a b).
Proof.
  intros A B st. unfold eseq, seq. rewrite <- A. destruct (e st) as [st1 [[]| | |]]; cbn [plain_of fst snd forget]; [apply B|reflexivity|reflexivity|reflexivity].
Qed.
Lemma agrees_each {A} (f : A -> eact) g l : (forall x, agrees (f x) (g x)) -> agrees (eeach f l) (each g l).
Proof. intro F. induction l as [|x l IH]; [apply agrees_done|]. apply (agrees_seq _ _ (g x) (each g l)); [apply F|exact IH]. Qed.
Lemma agrees_attempt {A} (r : res asset_error A) o f g : forget r = of_opt o -> (forall x, agrees (f x) (g x)) -> agrees (eattempt r f) (attempt o g).
Proof. intros E F. destruct r, o; try discriminate E; [injection E as <-; apply F|intro st; reflexivity]. Qed.
Lemma agrees_silent a : (forall st, snd (a st) <> OErr) -> agrees (silent a) a.
Proof.
  intros N st. unfold silent, plain_of. cbn [fst snd]. specialize (N st). destruct (a st) as [st1 o]. cbn [fst snd] in *. destruct o; cbn [forget]; congruence.
Qed.
Lemma agrees_tree H o : agrees (silent (tree_act H o)) (tree_act H o).
Proof. apply agrees_silent. intro st. unfold tree_act. destruct (nstep H (r_tree st) (http_nop o)); discriminate. Qed.
Lemma agrees_responses f : agrees (silent (on_responses f)) (on_responses f). Proof. apply agrees_silent. discriminate. Qed.
Lemma agrees_fallbacks f : agrees (silent (on_fallbacks f)) (on_fallbacks f). Proof. apply agrees_silent. discriminate. Qed.

Section Agree.
  Variables (cs : N) (H : bytes -> bytes) (uq : bytes -> option (option bytes)) (glob : bytes -> option (bytes -> bool)).
  Lemma of_opt_map {A B} (o : option A) (f : A -> B) : out_bind (of_opt o) (fun x => OOk (f x)) = of_opt (option_map f o).
  Proof. destruct o; reflexivity. Qed.
  Lemma agrees_prepare url status body hs names : forget (prepare_response_e H uq url status body hs names) = of_opt (prepare_response H uq url status body hs names).
  Proof. unfold prepare_response_e, prepare_response. cbv zeta. rewrite forget_bind, forget_map, forget_full. destruct (certify_full _ _ _ _ _ _ _); reflexivity. Qed.
  Lemma agrees_prepare_asset a hs ct enc rg stt : forget (prepare_asset_response_e cs H uq a hs ct enc rg stt) = of_opt (prepare_asset_response cs H uq a hs ct enc rg stt).
  Proof. unfold prepare_asset_response_e, prepare_asset_response. cbv zeta. destruct rg; apply agrees_prepare. Qed.
  Lemma agrees_prepare_static a ct hs enc rg : forget (prepare_static_e cs H uq a ct hs enc rg) = of_opt (prepare_static cs H uq a ct hs enc rg).
  Proof. unfold prepare_static_e, prepare_static. rewrite forget_bind, agrees_prepare_asset. destruct (prepare_asset_response _ _ _ _ _ _ _ _ _) as [[rs c]|]; reflexivity. Qed.
  Lemma agrees_prepare_fallback a hs ct fb enc : forget (prepare_fallback_e cs H uq a hs ct fb enc) = of_opt (prepare_fallback cs H uq a hs ct fb enc).
  Proof. unfold prepare_fallback_e, prepare_fallback. rewrite forget_bind, agrees_prepare_asset. destruct (prepare_asset_response _ _ _ _ _ _ _ _ _) as [[rs c]|]; reflexivity. Qed.
  Lemma agrees_prepare_redirect f t k : forget (prepare_redirect_e H uq f t k) = of_opt (prepare_redirect H uq f t k).
  Proof. unfold prepare_redirect_e, prepare_redirect. rewrite forget_bind, agrees_prepare. destruct (prepare_response _ _ _ _ _ _ _) as [[rs c]|]; reflexivity. Qed.
  Lemma agrees_insert_static a ct hs enc : agrees (insert_static_e cs H uq a ct hs enc) (insert_static cs H uq a ct hs enc).
  Proof.
    assert (O : forall rg, agrees (eattempt (prepare_static_e cs H uq a ct hs enc rg) (fun c => eseq (silent (tree_act H (HInsert (ca_entry c)))) (silent (on_responses (m_insert key_eqb (mk_key (as_url a) (encoding_str enc) rg) c)))))
                  (attempt (prepare_static cs H uq a ct hs enc rg) (fun c => seq (tree_act H (HInsert (ca_entry c))) (on_responses (m_insert key_eqb (mk_key (as_url a) (encoding_str enc) rg) c))))).
    { intro rg. apply agrees_attempt; [apply agrees_prepare_static|]. intro c. apply agrees_seq; [apply agrees_tree|apply agrees_responses]. }
    unfold insert_static_e, insert_static. cbv zeta. apply agrees_seq; [|apply O].
    destruct (cs <? _); [|apply agrees_done]. apply agrees_each. intro b. apply O.
  Qed.
  Lemma agrees_delete_static a ct hs enc : agrees (delete_static_e cs H uq a ct hs enc) (delete_static cs H uq a ct hs enc).
  Proof.
    unfold delete_static_e, delete_static. apply agrees_attempt; [apply agrees_prepare_static|]. intro c. apply agrees_seq; [apply agrees_tree|]. apply agrees_seq; [apply agrees_responses|].
    cbv zeta. destruct (cs <? _); [|apply agrees_done]. apply agrees_each. intro b. apply agrees_responses.
  Qed.
  Lemma agrees_insert_fallback a ct hs fb enc : agrees (insert_fallback_e cs H uq a ct hs fb enc) (insert_fallback cs H uq a ct hs fb enc).
  Proof. apply agrees_attempt; [apply agrees_prepare_fallback|]. intro c. apply agrees_seq; [apply agrees_tree|apply agrees_fallbacks]. Qed.
  Lemma agrees_delete_fallback a ct hs fb enc : agrees (delete_fallback_e cs H uq a ct hs fb enc) (delete_fallback cs H uq a ct hs fb enc).
  Proof. apply agrees_attempt; [apply agrees_prepare_fallback|]. intro c. apply agrees_seq; [apply agrees_tree|apply agrees_fallbacks]. Qed.
  Lemma agrees_insert_redirect f t k : agrees (insert_redirect_e H uq f t k) (insert_redirect H uq f t k).
  Proof. apply agrees_attempt; [apply agrees_prepare_redirect|]. intro c. apply agrees_seq; [apply agrees_tree|apply agrees_responses]. Qed.
  Lemma agrees_delete_redirect f t k : agrees (delete_redirect_e H uq f t k) (delete_redirect H uq f t k).
  Proof. apply agrees_attempt; [apply agrees_prepare_redirect|]. intro c. apply agrees_seq; [apply agrees_tree|apply agrees_responses]. Qed.
  Lemma agrees_certify_asset a c enc : agrees (certify_asset_e cs H uq a c enc) (certify_asset cs H uq a c enc).
  Proof.
    unfold certify_asset_e, certify_asset. destruct c as [[]|]; try apply agrees_insert_static. apply agrees_seq; [apply agrees_insert_static|].
    apply agrees_seq; apply agrees_each; intro; [apply agrees_insert_fallback|apply agrees_insert_static].
  Qed.
  Lemma agrees_delete_asset a c enc : agrees (delete_asset_e cs H uq a c enc) (delete_asset cs H uq a c enc).
  Proof.
    unfold delete_asset_e, delete_asset. destruct c as [[]|]; try apply agrees_delete_static. apply agrees_seq; [apply agrees_delete_static|].
    apply agrees_seq; apply agrees_each; intro; [apply agrees_delete_fallback|apply agrees_delete_static].
  Qed.
  Lemma agrees_normalize l : forget (normalize_all_e glob l) = of_opt (normalize_all glob l).
  Proof.
    induction l as [|c l IH]; [reflexivity|]. cbn [normalize_all_e normalize_all]. rewrite forget_bind.
    assert (E : forget (normalize_e glob c) = of_opt (normalize glob c)) by (destruct c; cbn [normalize_e normalize]; try reflexivity; destruct (glob pattern); reflexivity).
    rewrite E. destruct (normalize glob c) as [n|]; [|reflexivity]. cbn [of_opt out_bind]. rewrite forget_bind, IH. destruct (normalize_all glob l); reflexivity.
  Qed.
  Lemma agrees_asset_acts f g m cfgs a : (forall a c enc, agrees (f a c enc) (g a c enc)) -> agrees (asset_acts_e f m cfgs a) (asset_acts g m cfgs a).
  Proof.
    intro F. unfold asset_acts_e, asset_acts. cbv zeta. apply agrees_seq; [|apply F]. apply agrees_each. intros [e s]. cbn [fst snd].
    destruct (m_get bytes_eqb (as_path a ++ s) m); [apply F|apply agrees_done].
  Qed.
  Lemma agrees_certify order assets configs : agrees (certify_assets_e cs H uq glob order assets configs) (certify_assets cs H uq glob order assets configs).
  Proof.
    unfold certify_assets_e, certify_assets. apply agrees_attempt; [apply agrees_normalize|]. intro cfgs. cbv zeta. apply agrees_seq.
    - apply agrees_each. intro a. apply agrees_asset_acts. apply agrees_certify_asset.
    - apply agrees_each. intros []; try apply agrees_done. apply agrees_insert_redirect.
  Qed.
  Lemma agrees_delete order assets configs : agrees (delete_assets_e cs H uq glob order assets configs) (delete_assets cs H uq glob order assets configs).
  Proof.
    unfold delete_assets_e, delete_assets. apply agrees_attempt; [apply agrees_normalize|]. intro cfgs. cbv zeta. apply agrees_seq.
    - apply agrees_each. intro a. apply agrees_asset_acts. apply agrees_delete_asset.
    - apply agrees_each. intros []; try apply agrees_done. apply agrees_delete_redirect.
  Qed.
End Agree.
(** The functions with errors are the functions of the other models, with the error named. *)
Theorem C145_errors_forgotten :
  forall (H : bytes -> bytes) uri_query qc rc rq rs body_hash (t : ntree) (en : entry) (url : bytes),
  forget (certify_response_only_e H rc rs body_hash) = of_opt (certify_response_only H rc rs body_hash) /\
  forget (certify_full_e H uri_query qc rc rq rs body_hash) = of_opt (certify_full H uri_query qc rc rq rs body_hash) /\
  forget (http_witness_e H t en url) = http_witness H t en url.
Proof. intros. split; [apply forget_response_only|]. split; [apply forget_full|apply forget_witness]. Qed.
Print Assumptions C145_errors_forgotten.
Theorem C146_errors_forgotten :
  forall (cs : N) (H : bytes -> bytes) uri_path uri_query glob (umod : N) sort (st : router) (data_certificate : bytes) (rq : request) order (assets : list asset) (configs : list asset_config),
  forget (serve_asset_e cs H uri_path umod sort st data_certificate rq) = serve_asset cs H uri_path umod sort st data_certificate rq /\
  (let r := certify_assets_e cs H uri_query glob order assets configs st in (fst r, forget (snd r)) = certify_assets cs H uri_query glob order assets configs st) /\
  (let r := delete_assets_e cs H uri_query glob order assets configs st in (fst r, forget (snd r)) = delete_assets cs H uri_query glob order assets configs st).
Proof. intros. split; [apply forget_serve|]. split; [apply agrees_certify|apply agrees_delete]. Qed.
Print Assumptions C146_errors_forgotten.

(** ** C145: certifications and witnesses *)
Lemma expressions_fun hs : exists vs, expressions hs vs /\ forall ws, expressions hs ws -> ws = vs.
Proof.
  induction hs as [|[n v] hs (vs & E & U)]; [exists []; split; [constructor|intros ws X; inversion X; reflexivity]|].
  destruct (eq_nocase n (bs "IC-CertificateExpression")) eqn:Q; [apply eq_nocase_spec in Q|apply eq_nocase_false in Q].
  - exists (v :: vs). split; [constructor; assumption|]. intros ws X. inversion X; subst; [f_equal; auto|contradiction].
  - exists vs. split; [constructor; assumption|]. intros ws X. inversion X; subst; [contradiction|auto].
Qed.
Lemma validate_true hs expr vs : expressions hs vs ->
  validate_headers_e hs expr true = match vs with [] => ROk tt | v :: _ => RErr (if bytes_eqb v expr then MultipleCertificateExpressionHeaders expr else CertificateExpressionHeaderMismatch expr v) end.
Proof.
  induction 1 as [|n v hs vs S E IH|n v hs vs S E IH]; cbn [validate_headers_e]; [reflexivity|..];
    change (bytes_eqb (lower n) (lower cert_expr_header_name)) with (eq_nocase n (bs "IC-CertificateExpression")).
  - apply eq_nocase_spec in S. rewrite S. destruct (bytes_eqb v expr); reflexivity.
  - apply eq_nocase_false in S. rewrite S. exact IH.
Qed.
Lemma validate_false hs expr vs : expressions hs vs ->
  validate_headers_e hs expr false = match vs with
    | [] => RErr (CertificateExpressionHeaderMissing expr)
    | v :: r => if bytes_eqb v expr then match r with [] => ROk tt | w :: _ => RErr (if bytes_eqb w expr then MultipleCertificateExpressionHeaders expr else CertificateExpressionHeaderMismatch expr w) end
                else RErr (CertificateExpressionHeaderMismatch expr v)
    end.
Proof.
  induction 1 as [|n v hs vs S E IH|n v hs vs S E IH]; cbn [validate_headers_e]; [reflexivity|..];
    change (bytes_eqb (lower n) (lower cert_expr_header_name)) with (eq_nocase n (bs "IC-CertificateExpression")).
  - apply eq_nocase_spec in S. rewrite S. destruct (bytes_eqb v expr); [|reflexivity]. rewrite (validate_true hs expr vs E). destruct vs; reflexivity.
  - apply eq_nocase_false in S. rewrite S. exact IH.
Qed.
Lemma validate_fault hs expr vs e : expressions hs vs -> (validate_headers_e hs expr false = RErr e <-> expression_fault expr vs e).
Proof.
  intro E. rewrite (validate_false hs expr vs E). destruct vs as [|v [|w r]].
  - split; [intro X; injection X as <-; split; reflexivity|]. destruct e; cbn [expression_fault]; try contradiction.
    + intros (_ & _ & r & [X|X]); discriminate X.
    + intros [-> _]. reflexivity.
    + intros (_ & r & X); discriminate X.
  - destruct (bytes_eqb_spec v expr) as [->|N].
    + split; [discriminate|]. destruct e; cbn [expression_fault]; try contradiction.
      * intros (_ & N & r & [X|X]); [injection X as -> _; congruence|discriminate X].
      * intros [_ X]; discriminate X.
      * intros (_ & r & X); discriminate X.
    + split; [intro X; injection X as <-; split; [reflexivity|]; split; [exact N|]; exists []; left; reflexivity|]. destruct e; cbn [expression_fault]; try contradiction.
      * intros (-> & _ & r & [X|X]); [injection X as -> _; reflexivity|discriminate X].
      * intros [_ X]; discriminate X.
      * intros (_ & r & X); discriminate X.
  - destruct (bytes_eqb_spec v expr) as [->|N].
    + destruct (bytes_eqb_spec w expr) as [->|N].
      * split; [intro X; injection X as <-; split; [reflexivity|]; exists r; reflexivity|]. destruct e; cbn [expression_fault]; try contradiction.
        -- intros (_ & N & s & [X|X]); [injection X as -> _; congruence|injection X as -> _; congruence].
        -- intros [_ X]; discriminate X.
        -- intros (-> & _). reflexivity.
      * split; [intro X; injection X as <-; split; [reflexivity|]; split; [exact N|]; exists r; right; reflexivity|]. destruct e; cbn [expression_fault]; try contradiction.
        -- intros (-> & M & s & [X|X]); [injection X as -> _; congruence|injection X as -> _; reflexivity].
        -- intros [_ X]; discriminate X.
        -- intros (_ & s & X). injection X as -> _. congruence.
    + split; [intro X; injection X as <-; split; [reflexivity|]; split; [exact N|]; exists (w :: r); left; reflexivity|]. destruct e; cbn [expression_fault]; try contradiction.
      * intros (-> & M & s & [X|X]); [injection X as -> _; reflexivity|injection X as -> _ _; congruence].
      * intros [_ X]; discriminate X.
      * intros (_ & s & X). injection X as -> _. congruence.
Qed.
(** Which error: exactly. *)
Theorem C145_certification_error_iff :
  forall (H : bytes -> bytes) uri_query (qc : request_cert) (rc : response_cert) (rq : request) (rs : response) (body_hash : option bytes) (values : list bytes) (e : canister_error),
  expressions (rs_headers rs) values ->
  (certify_response_only_e H rc rs body_hash = RErr e <-> expression_fault (print_cel (CelResponseOnly rc)) values e) /\
  (certify_full_e H uri_query qc rc rq rs body_hash = RErr e <->
     expression_fault (print_cel (CelFull qc rc)) values e \/
     (* the header is as it should be *)
     values = [print_cel (CelFull qc rc)] /\ uri_query (rq_url rq) = None /\ e = UrlError (MalformedUrl (rq_url rq))).
Proof.
  intros H uq qc rc rq rs bh vs e X. split.
  - unfold certify_response_only_e, validate_response_e. cbv zeta. rewrite <- (validate_fault _ _ _ _ X).
    destruct (validate_headers_e (rs_headers rs) (print_cel (CelResponseOnly rc)) false) as [[]| | |]; cbn [rbind]; split; congruence.
  - unfold certify_full_e, validate_response_e. cbv zeta. rewrite <- (validate_fault _ _ _ _ X). set (expr := print_cel (CelFull qc rc)).
    assert (S : validate_headers_e (rs_headers rs) expr false = ROk tt <-> vs = [expr]).
    { rewrite (validate_false _ _ _ X). destruct vs as [|v [|w r]]; [split; discriminate|..]; destruct (bytes_eqb_spec v expr) as [->|N]; split; intro Z; try discriminate Z; try reflexivity; try (injection Z as Z; congruence). }
    destruct (validate_headers_e (rs_headers rs) expr false) as [[]|e'| |]; cbn [rbind].
    + unfold request_hash_e, request_hash. destruct (uq (rq_url rq)) as [q|]; cbn [of_opt with_err rbind].
      * split; [discriminate|]. intros [Z|(_ & Z & _)]; discriminate Z.
      * split; [intro Z; injection Z as <-; right; split; [apply S; reflexivity|auto]|]. intros [Z|(_ & _ & ->)]; [discriminate Z|reflexivity].
    + split; [intro Z; injection Z as <-; left; reflexivity|]. intros [Z|(Z & _)]; [injection Z as <-; reflexivity|]. apply S in Z. discriminate Z.
    + split; [discriminate|]. intros [Z|(Z & _)]; [discriminate Z|]. apply S in Z. discriminate Z.
    + split; [discriminate|]. intros [Z|(Z & _)]; [discriminate Z|]. apply S in Z. discriminate Z.
Qed.
Print Assumptions C145_certification_error_iff.
(** A response has such values, so one of the errors of [expression_fault] is reported whenever the
    header is not exactly right: no values at all, a first wrong one, or the right one twice. *)
Theorem C145_every_fault_is_reported :
  forall (expr : bytes) (rs : response), exists values, expressions (rs_headers rs) values /\
  (values = [expr] \/ exists e, expression_fault expr values e).
Proof.
  intros expr rs. destruct (expressions_fun (rs_headers rs)) as (vs & X & _). exists vs. split; [exact X|].
  destruct vs as [|v [|w r]]; [right; exists (CertificateExpressionHeaderMissing expr); split; reflexivity|..]; destruct (bytes_eqb_spec v expr) as [->|N].
  - left. reflexivity.
  - right. exists (CertificateExpressionHeaderMismatch expr v). split; [reflexivity|]. split; [exact N|]. eexists. left. reflexivity.
  - right. destruct (bytes_eqb_spec w expr) as [->|N].
    + exists (MultipleCertificateExpressionHeaders expr). split; [reflexivity|]. eexists. reflexivity.
    + exists (CertificateExpressionHeaderMismatch expr w). split; [reflexivity|]. split; [exact N|]. eexists. right. reflexivity.
  - right. exists (CertificateExpressionHeaderMismatch expr v). split; [reflexivity|]. split; [exact N|]. eexists. left. reflexivity.
Qed.
Print Assumptions C145_every_fault_is_reported.
Lemma witness_too_specific H t en url p : en_path en = PWildcard p -> (length (request_parts url) < length (request_parts p))%nat -> http_witness H t en url = OErr.
Proof.
  intros EP L. unfold http_witness. rewrite EP. cbv zeta. unfold path_tree_path. rewrite !path_to_segments_parts, !app_length. cbn [length].
  replace (length (request_parts url) + 1 <? length (request_parts p) + 1)%nat with true; [reflexivity|]. symmetry. apply Nat.ltb_lt. lia.
Qed.
(** Witnesses: the only error is for a wildcard with more segments than the request path. *)
Theorem C145_witness_error_iff :
  forall (H : bytes -> bytes) (ops : list http_op) (t : ntree) (en : entry) (url : bytes) (e : canister_error),
  http_run H ops = Some t ->
  (http_witness_e H t en url = RErr e <->
   exists p, en_path en = PWildcard p /\ (length (request_parts url) < length (request_parts p))%nat /\ e = WildcardPathNotValidForRequestPath p url).
Proof.
  intros H ops t en url e OP. destruct (C52_witness_never_panics H ops) as (t0 & OP0 & D). assert (t0 = t) by congruence. subst t0. clear OP0.
  unfold http_witness_e. destruct (D en url) as [(w & Ew & L)|(Ew & p & EP & L)]; rewrite Ew; cbn [with_err].
  - split; [discriminate|]. intros (p & EP & LT & _). assert (Z := witness_too_specific H t en url p EP LT). congruence.
  - split.
    + intro Z. injection Z as <-. exists p. rewrite EP. auto.
    + intros (q & EQ & _ & ->). rewrite EQ. reflexivity.
Qed.
Print Assumptions C145_witness_error_iff.

(** ** C146: serving *)
Lemma digit_iff b : (exists d, digit b = Some d /\ d = b2n b - 48) /\ 48 <= b2n b <= 57 \/ digit b = None /\ ~ 48 <= b2n b <= 57.
Proof.
  unfold digit. destruct ((48 <=? b2n b) && (b2n b <=? 57)) eqn:D.
  - apply andb_prop in D. destruct D as [D1 D2]. apply N.leb_le in D1, D2. left. split; [eauto|lia].
  - right. split; [reflexivity|]. intros [A B]. apply N.leb_le in A, B. rewrite A, B in D. discriminate D.
Qed.
Definition value_from (a : N) (ds : bytes) : N := fold_left (fun a d => a * 10 + (b2n d - 48)) ds a.
Lemma digits_fault umod s : forall a, a < umod ->
  digits_below_e umod s a <> RErr IntEmpty /\
  (digits_below_e umod s a = RErr IntInvalidDigit <-> exists ds c rest, s = ds ++ c :: rest /\ digits ds /\ ~ digits [c] /\ value_from a ds < umod) /\
  (digits_below_e umod s a = RErr IntPosOverflow <-> exists ds rest, s = ds ++ rest /\ digits ds /\ umod <= value_from a ds).
Proof.
  induction s as [|b s IH]; intros a L; cbn [digits_below_e].
  - split; [discriminate|]. split; (split; [discriminate|]).
    + intros (ds & c & rest & E & _). destruct ds; discriminate E.
    + intros (ds & rest & E & _ & V). symmetry in E. apply app_eq_nil in E. destruct E as [-> _]. cbn in V. lia.
  - destruct (digit_iff b) as [((d & -> & ->) & R)|[-> R]].
    + destruct (a * 10 + (b2n b - 48) <? umod) eqn:B; [apply N.ltb_lt in B|apply N.ltb_ge in B].
      * destruct (IH _ B) as (A1 & A2 & A3). split; [exact A1|]. split.
        -- rewrite A2. split.
           ++ intros (ds & c & rest & -> & D & C & V). exists (b :: ds), c, rest. split; [reflexivity|]. split; [constructor; assumption|]. split; [exact C|exact V].
           ++ intros (ds & c & rest & E & D & C & V). destruct ds as [|x ds]; [injection E as -> ->; exfalso; apply C; constructor; [exact R|constructor]|].
              injection E as <- ->. exists ds, c, rest. split; [reflexivity|]. split; [inversion D; assumption|]. split; [exact C|exact V].
        -- rewrite A3. split.
           ++ intros (ds & rest & -> & D & V). exists (b :: ds), rest. split; [reflexivity|]. split; [constructor; assumption|exact V].
           ++ intros (ds & rest & E & D & V). destruct ds as [|x ds]; [cbn in V; lia|]. injection E as <- ->. exists ds, rest. split; [reflexivity|]. split; [inversion D; assumption|exact V].
      * split; [discriminate|]. split; (split; [discriminate|]) || idtac.
        -- intros (ds & c & rest & E & D & C & V). exfalso. destruct ds as [|x ds]; [injection E as -> ->; apply C; constructor; [exact R|constructor]|].
           injection E as <- ->. cbn [value_from fold_left] in V. change (value_from (a * 10 + (b2n b - 48)) ds < umod) in V.
           assert (G := fold_ge ds (a * 10 + (b2n b - 48))). unfold value_from in V. lia.
        -- split; [|reflexivity]. intros _. exists [b], s. split; [reflexivity|]. split; [constructor; [exact R|constructor]|exact B].
    + split; [discriminate|]. split; (split; [|try reflexivity]) || idtac.
      * intros _. exists [], b, s. split; [reflexivity|]. split; [constructor|]. split; [intro X; inversion X; auto|exact L].
      * discriminate.
      * intros (ds & rest & E & D & V). destruct ds as [|x ds]; [cbn in V; lia|]. injection E as <- _. inversion D; subst. contradiction.
Qed.
Lemma unsigned_drop s : unsigned s (drop_opt "+" s).
Proof.
  destruct s as [|x s]; [right; split; [reflexivity|intros u E; discriminate E]|]. simpl. destruct (byte_eqb_spec x "+") as [->|N]; [left; reflexivity|].
  right. split; [reflexivity|]. intros u E. injection E as E _. congruence.
Qed.
Lemma unsigned_fun s r : unsigned s r -> r = drop_opt "+" s.
Proof.
  intros [->|[-> N]]; [reflexivity|]. destruct r as [|x r]; [reflexivity|]. simpl. destruct (byte_eqb_spec x "+") as [->|]; [|reflexivity]. exfalso. exact (N r eq_refl).
Qed.
Lemma usize_fault umod s f : 0 < umod -> (parse_usize_e umod s = RErr f <-> int_fault umod s f).
Proof.
  intro U. unfold parse_usize_e.
  destruct s as [|x s].
  - split; [intro Z; injection Z as <-; reflexivity|]. destruct f; cbn [int_fault]; [reflexivity|intros [Z _]; congruence|].
    intros (ds & rest & n & Un & (NE & _) & _). apply unsigned_fun in Un. cbn in Un. apply app_eq_nil in Un. destruct Un as [-> _]. congruence.
  - assert (UD := unsigned_drop (x :: s)). set (r := drop_opt "+" (x :: s)) in *.
    destruct r as [|y r'] eqn:R.
    + split.
      * intro Z. injection Z as <-. cbn [int_fault]. split; [discriminate|]. exists []. split; [exact UD|left; reflexivity].
      * destruct f; cbn [int_fault]; [discriminate|reflexivity|]. intros (ds & rest & n & Un & (NE & _) & _). apply unsigned_fun in Un. fold r in Un. rewrite R in Un. apply app_eq_nil in Un. destruct Un as [-> _]. congruence.
    + assert (NR : r <> []) by (rewrite R; discriminate). rewrite <- R in *. clear R y r'. destruct (digits_fault umod r 0 U) as (A1 & A2 & A3). destruct f; cbn [int_fault].
      * split; [intro Z; contradiction|discriminate].
      * rewrite A2. split.
        -- intros (ds & c & rest & E & D & C & V). split; [discriminate|]. exists r. split; [exact UD|]. right. exists ds, c, rest. split; [exact E|]. split; [exact D|]. split; [exact C|].
           intros n (_ & _ & ->). exact V.
        -- intros (_ & r1 & Un & X). apply unsigned_fun in Un. fold r in Un. subst r1. destruct X as [X|(ds & c & rest & E & D & C & V)].
           ++ contradiction.
           ++ exists ds, c, rest. split; [exact E|]. split; [exact D|]. split; [exact C|]. destruct ds as [|z ds]; [exact U|]. apply V. split; [discriminate|]. split; [exact D|reflexivity].
      * rewrite A3. split.
        -- intros (ds & rest & E & D & V). exists ds, rest, (value_from 0 ds). split; [rewrite <- E; exact UD|]. split; [|exact V]. split; [|split; [exact D|reflexivity]].
           intros ->. cbn in V. lia.
        -- intros (ds & rest & n & Un & (NE & D & ->) & V). apply unsigned_fun in Un. fold r in Un. exists ds, rest. auto.
Qed.
Lemma blank_trim v : blank v <-> trim v = [].
Proof.
  split.
  - intros (l & -> & F). unfold trim. assert (N : strip_any ws_chars [] = None).
    { apply strip_any_none. intros w t I E. assert (X := proj1 ws_code). rewrite Forall_forall in X. specialize (X w I). destruct w; [congruence|discriminate]. }
    assert (T : trim_with ws_chars (length (concat l)) (concat l) = []).
    { rewrite <- (app_nil_r (concat l)) at 2. apply (trim_with_code ws_chars ws_code l [] _ F N). apply (concat_length_ge ws_chars l (proj1 ws_code) F). }
    rewrite T. reflexivity.
  - intro E. unfold trim in E. destruct (trim_with_split ws_chars ws_code (length v) v (le_n _)) as (la & Fa & Ea & Na).
    set (s1 := trim_with ws_chars (length v) v) in *.
    destruct (trim_with_split _ rev_ws_code (length s1) (rev s1) ltac:(rewrite rev_length; lia)) as (lb & Fb & Eb & Nb).
    set (s2 := trim_with (map (@rev byte) ws_chars) (length s1) (rev s1)) in *.
    assert (E2 : s2 = []) by (rewrite <- (rev_involutive s2), E; reflexivity). rewrite E2, app_nil_r in Eb.
    assert (Es : s1 = concat (map (@rev byte) (rev lb))) by (rewrite <- concat_rev_map, <- Eb, rev_involutive; reflexivity).
    exists (la ++ map (@rev byte) (rev lb)). split; [rewrite concat_app, <- Es; exact Ea|]. apply Forall_app. split; [exact Fa|].
    apply Forall_forall. intros w I. apply in_map_iff in I. destruct I as (u & <- & I). apply in_rev in I. rewrite Forall_forall in Fb. specialize (Fb u I).
    apply in_map_iff in Fb. destruct Fb as (x & <- & Fb). rewrite rev_involutive. exact Fb.
Qed.
Lemma stripped_trim v t : stripped v t <-> trim v = t.
Proof.
  unfold stripped, padded. destruct t as [|b t].
  - rewrite <- blank_trim. split.
    + intros [(a & c & (la & -> & Fa) & (lc & -> & Fc) & ->) _]. exists (la ++ lc). split; [rewrite concat_app; reflexivity|apply Forall_app; auto].
    + intro B. assert (N := proj1 ws_code). rewrite Forall_forall in N. split.
      * exists v, []. split; [exact B|]. split; [exists []; split; [reflexivity|constructor]|rewrite app_nil_r; reflexivity].
      * split; intros w s I E; specialize (N w I); [destruct w; [congruence|discriminate]|destruct s; [cbn in E; congruence|discriminate]].
  - rewrite trim_spec by discriminate. split.
    + intros [(a & c & A & C & E) [P S]]. exists a, c. auto.
    + intros (a & c & A & C & E & P & S). split; [exists a, c; auto|auto].
Qed.
Lemma prefix_split s : exists k, s = concat (repeat (bs "bytes=") k) ++ trim_with [bs "bytes="] (length s) s /\ (forall w, trim_with [bs "bytes="] (length s) s <> bs "bytes=" ++ w) /\
  (k = 0%nat <-> strip_prefix (bs "bytes=") s = None).
Proof.
  destruct (trim_with_split _ prefix_code (length s) s (le_n _)) as (l & F & E & NP). apply all_prefix in F. set (k := length l) in F. rewrite F in E. exists k.
  assert (NP' : forall w, trim_with [bs "bytes="] (length s) s <> bs "bytes=" ++ w) by (intros w X; rewrite strip_any_none in NP; exact (NP (bs "bytes=") w (or_introl eq_refl) X)).
  split; [exact E|]. split; [exact NP'|]. split.
  - intros K. rewrite K in E. cbn [repeat concat app] in E. destruct (strip_prefix (bs "bytes=") s) as [u|] eqn:SP; [|reflexivity]. exfalso. apply strip_prefix_spec in SP. apply (NP' u). rewrite <- E. exact SP.
  - intro SP. destruct k as [|k]; [reflexivity|]. exfalso. assert (X : strip_prefix (bs "bytes=") s = Some (concat (repeat (bs "bytes=") k) ++ trim_with [bs "bytes="] (length s) s)).
    { apply strip_prefix_spec. rewrite E at 1. cbn [repeat concat]. rewrite <- app_assoc. reflexivity. } congruence.
Qed.
Lemma prefix_cut k u : (forall w, u <> bs "bytes=" ++ w) -> let s := concat (repeat (bs "bytes=") (S k)) ++ u in
  (exists x, strip_prefix (bs "bytes=") s = Some x) /\ trim_with [bs "bytes="] (length s) s = u.
Proof.
  intros N s. split.
  - eexists. apply strip_prefix_spec. unfold s. cbn [repeat concat]. rewrite <- app_assoc. reflexivity.
  - unfold s. apply (trim_with_code _ prefix_code _ _ _ (repeat_prefix (S k))).
    + apply strip_any_none. intros w t [<-|[]] E. exact (N t E).
    + rewrite app_length, repeat_length. assert (Z := concat_length_ge [bs "bytes="] _ ltac:(repeat constructor; discriminate) (repeat_prefix (S k))). rewrite repeat_length in Z. lia.
Qed.
Lemma two_parts u b e : split_on "-" u = [b; e] <-> u = b ++ bs "-" ++ e /\ ~ In "-"%byte b /\ ~ In "-"%byte e.
Proof.
  split.
  - intro E. assert (JS := join_split "-" u). assert (PC := split_on_pieces "-" u). rewrite E in JS, PC. cbn [join] in JS. inversion PC as [|? ? P1 PC2]; subst. inversion PC2; subst. split; [reflexivity|auto].
  - intros (-> & B & E). change (bs "-" ++ e) with ("-"%byte :: e). rewrite split_on_app by exact B. rewrite split_on_free by exact E. reflexivity.
Qed.
Lemma dashed_not_prefix b e : (forall w, b <> bs "bytes=" ++ w) -> forall w, b ++ bs "-" ++ e <> bs "bytes=" ++ w.
Proof.
  intros N w E. destruct (app_comparable _ _ _ _ E) as [(x & X)|(x & X)]; [exact (N x X)|].
  (* bytes= = b ++ x *)
  destruct x as [|y x]; [rewrite app_nil_r in X; apply (N []); rewrite app_nil_r; congruence|].
  rewrite X, <- app_assoc in E. apply app_inv_head in E. injection E as E _. subst y.
  assert (I : In "-"%byte (bs "bytes=")) by (rewrite X; apply in_or_app; right; left; reflexivity). vm_compute in I. intuition discriminate.
Qed.
Lemma number_not_prefix s n : number s n -> forall w, s <> bs "bytes=" ++ w.
Proof.
  intros X w E. destruct (number_chars _ _ X) as [_ F]. rewrite E in F. inversion F as [|? ? B]; subst. destruct B as [B|B]; [discriminate|]. vm_compute in B. destruct B as [_ B]. congruence.
Qed.
Lemma usize_ok umod s n : 0 < umod -> (parse_usize_e umod s = ROk n <-> number s n /\ n < umod).
Proof.
  intro U. rewrite <- parse_usize_spec by exact U. assert (F := forget_usize umod s). destruct (parse_usize_e umod s), (parse_usize umod s); cbn in F; try discriminate F; split; congruence.
Qed.
Lemma usize_cases umod s : (exists n, parse_usize_e umod s = ROk n) \/ (exists f, parse_usize_e umod s = RErr f).
Proof. assert (F := forget_usize umod s). destruct (parse_usize_e umod s); eauto; exfalso; destruct (parse_usize umod s); discriminate F. Qed.

Lemma not_two {A} (l : list bytes) (f : bytes -> bytes -> A) (d : A) : (forall b e, l <> [b; e]) -> match l with [b; e] => f b e | _ => d end = d.
Proof. intro N. destruct l as [|b [|e [|? ?]]]; try reflexivity. exfalso. exact (N b e eq_refl). Qed.
Lemma two_or_not (l : list bytes) : (exists b e, l = [b; e]) \/ (forall b e, l <> [b; e]).
Proof. destruct l as [|b [|e [|? ?]]]; try (right; intros; discriminate). left. eauto. Qed.
Lemma quoted (a v c : bytes) : a ++ (bs "'" ++ v ++ bs "'") ++ c = (a ++ bs "'") ++ v ++ bs "'" ++ c.
Proof. rewrite <- !app_assoc. reflexivity. Qed.
Lemma err_eq {E A} (x y : E) : @RErr E A x = RErr y -> x = y.
Proof. intro Z. injection Z as Z. exact Z. Qed.
Lemma range_fault_iff umod v text : 0 < umod -> (parse_range_e umod v = RErr text <-> range_fault umod v text).
Proof.
  intro U. unfold parse_range_e. cbv zeta. split.
  - set (t := trim v). assert (ST : stripped v t) by (apply stripped_trim; reflexivity).
    destruct (prefix_split t) as (k & E & NP & K0). set (u := trim_with [bs "bytes="] (length t) t) in *.
    destruct (strip_prefix (bs "bytes=") t) as [x|] eqn:SP.
    2:{ intro Z. injection Z as <-. apply (not_bytes umod v t ST). intros w X. apply strip_prefix_spec in X. congruence. }
    destruct k as [|k]; [exfalso; assert (Z := proj1 K0 eq_refl); discriminate Z|]. clear K0 SP x. rewrite E in ST. clear E.
    destruct (two_or_not (split_on "-" u)) as [(b & e & S2)|S2].
    2:{ rewrite not_two by exact S2. intro Z. injection Z as <-. apply (not_two_parts umod v k u ST NP). intros b e X.
        destruct (in_dec Byte.byte_eq_dec "-"%byte b) as [I|I]; [left; exact I|]. destruct (in_dec Byte.byte_eq_dec "-"%byte e) as [J|J]; [right; exact J|].
        exfalso. apply (S2 b e). apply two_parts. auto. }
    rewrite S2. apply two_parts in S2. destruct S2 as (X & B & Ed). rewrite X in ST.
    destruct (usize_cases umod b) as [(n & Pb)|(f & Pb)]; rewrite Pb; cbn [rmap_err rbind].
    2:{ intro Z. apply err_eq in Z. rewrite <- Z. apply usize_fault in Pb; [|exact U]. rewrite quoted. apply (bad_begin umod v k b e f ST); auto.
        intros w Y. apply (NP (w ++ bs "-" ++ e)). rewrite X, Y, <- app_assoc. reflexivity. }
    apply usize_ok in Pb; [|exact U]. destruct Pb as [NB LB].
    destruct e as [|c e].
    + cbn [rbind]. destruct (umod - 1 <? n) eqn:L; [apply N.ltb_lt in L; lia|discriminate].
    + set (e1 := c :: e) in *. destruct (usize_cases umod e1) as [(m & Pe)|(f & Pe)]; rewrite Pe; cbn [rmap_err rbind].
      * apply usize_ok in Pe; [|exact U]. destruct Pe as [NE LE]. destruct (m <? n) eqn:L; [apply N.ltb_lt in L|discriminate].
        intro Z. injection Z as <-. apply (bad_order umod v k b e1 n m ST NB NE). lia.
      * intro Z. apply err_eq in Z. rewrite <- Z. apply usize_fault in Pe; [|exact U]. rewrite quoted. apply (bad_end umod v k b e1 n f ST); auto. discriminate.
  - intros [t ST NP|k u ST NP N2|k b e f ST NP B Ed F|k b e n f ST Ed NB LB NE F|k b e n m ST NB NE L]; apply stripped_trim in ST; rewrite ST.
    + destruct (strip_prefix (bs "bytes=") t) as [x|] eqn:SP; [|reflexivity]. exfalso. apply strip_prefix_spec in SP. exact (NP x SP).
    + destruct (prefix_cut k u NP) as ((x & ->) & ->). rewrite not_two; [reflexivity|]. intros b e X. apply two_parts in X. destruct X as (X & B & Ed). destruct (N2 b e X); contradiction.
    + destruct (prefix_cut k (b ++ bs "-" ++ e) (dashed_not_prefix b e NP)) as ((x & ->) & ->). rewrite (proj2 (two_parts _ b e)) by auto.
      apply usize_fault in F; [|exact U]. rewrite F. cbn [rmap_err rbind]. rewrite quoted. reflexivity.
    + destruct (prefix_cut k (b ++ bs "-" ++ e) (dashed_not_prefix b e (number_not_prefix _ _ NB))) as ((x & ->) & ->). rewrite (proj2 (two_parts _ b e)) by (split; [reflexivity|split; [exact (number_no_dash _ _ NB)|exact Ed]]).
      rewrite (proj2 (usize_ok umod b n U)) by auto. cbn [rmap_err rbind]. apply usize_fault in F; [|exact U]. destruct e as [|c e]; [congruence|]. rewrite F. cbn [rmap_err rbind]. rewrite quoted. reflexivity.
    + destruct (prefix_cut k (b ++ bs "-" ++ e) (dashed_not_prefix b e (number_not_prefix _ _ NB))) as ((x & ->) & ->). rewrite (proj2 (two_parts _ b e)) by (split; [reflexivity|split; [exact (number_no_dash _ _ NB)|exact (number_no_dash _ _ NE)]]).
      rewrite (proj2 (usize_ok umod b n U)) by (split; [exact NB|lia]). cbn [rmap_err rbind]. destruct (number_chars _ _ NE) as [Z _]. destruct e as [|c e]; [congruence|].
      rewrite (proj2 (usize_ok umod (c :: e) m U)) by (split; [exact NE|lia]). cbn [rmap_err rbind]. replace (m <? n) with true by (symmetry; apply N.ltb_lt; lia). reflexivity.
Qed.

(** What each error of serve_asset says: exactly. *)
Theorem C146_serve_error_iff :
  forall (cs : N) (H : bytes -> bytes) uri_path uri_query glob (umod : N) sort (st : router) (data_certificate : bytes) (rq : request) (e : asset_error),
  0 < cs -> 0 < umod -> reachable cs H uri_query glob st ->
  (serve_asset_e cs H uri_path umod sort st data_certificate rq = RErr e <->
   (* the url does not parse *)
   uri_path (rq_url rq) = None /\ e = CertificationError (UrlError (MalformedUrl (rq_url rq))) \/
   (* its path is not text *)
   path_not_text uri_path rq /\ e = CertificationError (UrlError Utf8ConversionError) \/
   (exists path, path_of uri_path rq path /\
     ((* the first Range header is wrong *)
      (exists v text, first_value (bs "range") (rq_headers rq) v /\ range_fault umod v text /\ e = RequestError text) \/
      (* nothing is stored for the request *)
      (exists range, wants_range umod (rq_headers rq) range /\
         get_asset_for_request cs st path (get_preferred_encodings sort rq) range = None /\ e = NoAssetMatchingRequestUrl path)))).
Proof.
  intros cs H up uq glob umod sort st dc rq e CS U R. unfold serve_asset_e. cbv zeta.
  assert (FP := forget_path up rq).
  unfold get_path_e in *. destruct (up (rq_url rq)) as [p|] eqn:UP; cbv zeta in *.
  2:{ cbn [rmap_err rbind]. split; [intro Z; apply err_eq in Z; left; split; [reflexivity|congruence]|].
      intros [(_ & ->)|[((q & X & _) & _)|(path & (q & X & _) & _)]]; [reflexivity|congruence|congruence]. }
  destruct (utf8_valid (pct_decode p)) eqn:UV; cbn [rmap_err rbind].
  2:{ assert (NP : forall path, ~ path_of up rq path) by (intros path X; apply C63_request_path_exact in X; cbn [forget] in FP; congruence).
      split; [intro Z; apply err_eq in Z; right; left; split; [exists p; auto|congruence]|].
      intros [(X & _)|[(_ & ->)|(path & X & _)]]; [congruence|reflexivity|destruct (NP path X)]. }
  set (path := pct_decode p) in *. assert (PO : path_of up rq path) by (apply C63_request_path_exact; symmetry; exact FP). clear FP.
  assert (PU : forall q, path_of up rq q -> q = path) by (intros q X; apply C63_request_path_exact in X; apply C63_request_path_exact in PO; congruence).
  assert (NX : ~ path_not_text up rq) by (intros (q & _ & X); exact (X path PO)).
  transitivity ((exists v text, first_value (bs "range") (rq_headers rq) v /\ range_fault umod v text /\ e = RequestError text) \/
      (exists range, wants_range umod (rq_headers rq) range /\ get_asset_for_request cs st path (get_preferred_encodings sort rq) range = None /\ e = NoAssetMatchingRequestUrl path)).
  2:{ split; [intro X; right; right; exists path; auto|]. intros [(X & _)|[(X & _)|(q & Q & X)]]; [congruence|contradiction|]. apply PU in Q. subst q. exact X. }
  assert (FR := forget_range_begin umod rq). assert (RB := range_begin_spec umod rq U).
  assert (NW : forall range f c, wants_range umod (rq_headers rq) range -> get_asset_for_request cs st path (get_preferred_encodings sort rq) range = Some (f, c) ->
             exists w, http_witness H (r_tree st) (ca_entry c) path = OOk w).
  { intros range f c W G. destruct (C66_serve_asset_result cs H up uq glob umod sort st dc rq CS U R) as [(q & rg & f' & c' & w & Q & W' & G' & Ew & _)|(_ & [X|[X|(q & rg & Q & W' & G')]])].
    - apply PU in Q. subst q. assert (rg = range). { destruct (maybe_get_range_begin umod rq) as [r| | |]; try contradiction; [apply RB in W, W'; congruence|destruct (RB _ W)]. }
      subst rg. rewrite G in G'. injection G' as <- <-. eauto.
    - destruct (X path PO).
    - destruct (X range W).
    - apply PU in Q. subst q. assert (rg = range). { destruct (maybe_get_range_begin umod rq) as [r| | |]; try contradiction; [apply RB in W, W'; congruence|destruct (RB _ W)]. }
      congruence. }
  rewrite <- FR in RB. clear FR.
  assert (FH := first_header_spec (bs "range") (rq_headers rq) eq_refl). unfold maybe_get_range_begin_e in *.
  assert (LAST : forall range, wants_range umod (rq_headers rq) range -> (forall r', wants_range umod (rq_headers rq) r' <-> r' = range) ->
      (forall w text, first_value (bs "range") (rq_headers rq) w -> ~ range_fault umod w text) ->
      (match get_asset_for_request cs st path (get_preferred_encodings sort rq) range with
       | Some (_, c) => rok w <- rmap_err CertificationError (http_witness_e H (r_tree st) (ca_entry c) path); ROk (add_v2_certificate_header dc (ca_response c) w (expr_path (en_path (ca_entry c))))
       | None => RErr (NoAssetMatchingRequestUrl path) end = RErr e <->
      (exists v text, first_value (bs "range") (rq_headers rq) v /\ range_fault umod v text /\ e = RequestError text) \/
      (exists range, wants_range umod (rq_headers rq) range /\ get_asset_for_request cs st path (get_preferred_encodings sort rq) range = None /\ e = NoAssetMatchingRequestUrl path))).
  { intros range W RU NF. destruct (get_asset_for_request cs st path (get_preferred_encodings sort rq) range) as [[f c]|] eqn:GA.
    - destruct (NW range f c W GA) as (w & Ew). unfold http_witness_e. rewrite Ew. cbn [with_err rmap_err rbind]. split; [discriminate|].
      intros [(w' & text & F & G & _)|(rg & W' & G & _)]; [destruct (NF w' text F G)|]. apply RU in W'. congruence.
    - split; [intro Z; apply err_eq in Z; right; exists range; auto|]. intros [(w & text & F & G & _)|(rg & W' & G & ->)]; [destruct (NF w text F G)|reflexivity]. }
  destruct (first_header (bs "range") (rq_headers rq)) as [v|].
  - assert (RF := fun text => range_fault_iff umod v text U). destruct (parse_range_e umod v) as [[b en]|text| |] eqn:PR; cbn [rmap_err rbind fst forget] in *; try contradiction.
    + apply LAST; [apply RB; reflexivity|exact RB|]. intros w text F G. rewrite (first_value_fun _ _ _ _ F FH) in G. apply RF in G. discriminate G.
    + split.
      * intro Z. apply err_eq in Z. left. exists v, text. split; [exact FH|]. split; [apply RF; reflexivity|congruence].
      * intros [(w & text' & F & G & ->)|(rg & W & _)]; [|destruct (RB rg W)]. rewrite (first_value_fun _ _ _ _ F FH) in G. apply RF in G. congruence.
  - cbn [rbind forget] in *. apply LAST; [apply RB; reflexivity|exact RB|]. intros w text F. exfalso. exact (first_value_no_header _ _ _ F FH).
Qed.
Print Assumptions C146_serve_error_iff.

(** ** C146: certifying and deleting *)
Definition errs (a : eact) (P : asset_error -> Prop) : Prop := forall st e, snd (a st) = RErr e -> P e.
Lemma errs_done P : errs edone P. Proof. intros st e E. discriminate E. Qed.
Lemma errs_silent a P : errs (silent a) P.
Proof. intros st e E. unfold silent in E. cbn [snd] in E. destruct (snd (a st)); discriminate E. Qed.
Lemma errs_seq a b P : errs a P -> errs b P -> errs (eseq a b) P.
Proof.
  intros A B st e E. unfold eseq in E. assert (X := A st). destruct (a st) as [st1 [u|e'| |]]; cbn [snd] in *; [exact (B st1 e E)|auto|discriminate E|discriminate E].
Qed.
Lemma errs_each {A} (f : A -> eact) l (P : asset_error -> Prop) : (forall x, In x l -> errs (f x) P) -> errs (eeach f l) P.
Proof. induction l as [|x l IH]; intro F; [apply errs_done|]. apply (errs_seq (f x) (eeach f l)); [apply F; left; reflexivity|apply IH; intros y I; apply F; right; exact I]. Qed.
Lemma errs_attempt {A} (r : res asset_error A) (f : A -> eact) (P : asset_error -> Prop) : (forall e, r = RErr e -> P e) -> (forall x, errs (f x) P) -> errs (eattempt r f) P.
Proof. intros R F. destruct r; [apply F|intros st e' E; cbn in E; apply err_eq in E; subst; auto|intros st e' E; discriminate E|intros st e' E; discriminate E]. Qed.

Section Calls.
  Variables (cs : N) (H : bytes -> bytes) (uq : bytes -> option (option bytes)) (glob : bytes -> option (bytes -> bool)).
  (** what can be wrong when responses for [url] with configured headers [hs] are prepared *)
  Definition prepare_fault (url : bytes) (hs : list (bytes * bytes)) (e : asset_error) : Prop :=
    match e with
    | CertificationError (UrlError (MalformedUrl u)) => uq u = None /\ u = url
    | CertificationError (CertificateExpressionHeaderMismatch expected actual) => router_expression expected /\ actual <> expected /\ exists n, In (n, actual) hs /\ same_name n (bs "IC-CertificateExpression")
    | CertificationError (MultipleCertificateExpressionHeaders expected) => router_expression expected /\ exists n, In (n, expected) hs /\ same_name n (bs "IC-CertificateExpression")
    | _ => False
    end.
  Lemma expressions_in hs vs : expressions hs vs -> forall v, In v vs -> exists n, In (n, v) hs /\ same_name n (bs "IC-CertificateExpression").
  Proof.
    induction 1 as [|n v hs vs S E IH|n v hs vs S E IH]; intros w I; [destruct I|..].
    - destruct I as [<-|I]; [exists n; split; [left; reflexivity|exact S]|]. destruct (IH w I) as (m & J & T). exists m. split; [right; exact J|exact T].
    - destruct (IH w I) as (m & J & T). exists m. split; [right; exact J|exact T].
  Qed.
  Lemma expressions_app hs vs : expressions hs vs -> forall n v, same_name n (bs "IC-CertificateExpression") -> expressions (hs ++ [(n, v)]) (vs ++ [v]).
  Proof. induction 1; intros m w S; cbn [app]; constructor; auto. constructor. Qed.
  Lemma same_name_refl_expr : same_name cert_expr_header_name (bs "IC-CertificateExpression").
  Proof. apply same_name_lower. reflexivity. Qed.
  Lemma prepare_err url status body hs names e : names = [] \/ names = [bs "range"] -> prepare_response_e H uq url status body hs names = RErr e -> prepare_fault url hs e.
  Proof.
    intros NM E. unfold prepare_response_e in E. cbv zeta in E. change (CelFull (mk_request_cert names []) (HeaderExclusions [])) with (get_expression names) in E.
    set (expr := print_cel (get_expression names)) in *.
    assert (RE : router_expression expr) by (destruct NM as [-> | ->]; [left|right]; reflexivity). clear NM.
    set (rs := mk_response status _ body) in E. destruct (certify_full_e H uq (mk_request_cert names []) (HeaderExclusions []) (mk_request (bs "GET") url [] []) rs None) as [c|x| |] eqn:C; cbn [rmap_err rbind] in E; try discriminate E.
    apply err_eq in E. subst e. destruct (expressions_fun hs) as (vs & X & _).
    assert (Y : expressions (rs_headers rs) (vs ++ [expr])).
    { cbn [rs rs_headers]. apply ex_skip; [intro S; inversion S; discriminate|]. apply expressions_app; [exact X|exact same_name_refl_expr]. }
    apply (proj2 (C145_certification_error_iff H uq _ _ _ _ _ _ _ Y)) in C. cbn [rq_url] in C. change (CelFull (mk_request_cert names []) (HeaderExclusions [])) with (get_expression names) in C. fold expr in C.
    destruct C as [C|(_ & Q & ->)]; [|cbn [prepare_fault]; auto].
    destruct x as [[u|]|w r|ex ac|ex|ex]; cbn [expression_fault prepare_fault] in *; try contradiction.
    - destruct C as (-> & N & r & C). split; [exact RE|]. split; [exact N|]. apply (expressions_in hs vs X).
      destruct C as [C|C]; destruct vs as [|v [|w vs]]; cbn [app] in C; try discriminate C; injection C as C; subst; try congruence; cbn; auto.
    - destruct C as (_ & C). destruct vs; discriminate C.
    - destruct C as (-> & r & C). split; [exact RE|]. apply (expressions_in hs vs X). destruct vs as [|v vs]; [discriminate C|]. injection C as -> _. left. reflexivity.
  Qed.
  Lemma prepare_fault_sub url hs hs' e : (forall n v, In (n, v) hs -> same_name n (bs "IC-CertificateExpression") -> In (n, v) hs') -> prepare_fault url hs e -> prepare_fault url hs' e.
  Proof.
    intro S. destruct e as [u|x|p|t]; cbn [prepare_fault]; auto. destruct x as [[u|]|w r|ex ac|ex|ex]; cbn [prepare_fault]; auto.
    - intros (A & B & n & I & E). split; [exact A|]. split; [exact B|]. exists n. auto.
    - intros (A & n & I & E). split; [exact A|]. exists n. auto.
  Qed.
  Lemma prepare_asset_err a hs ct enc rg stt e : prepare_asset_response_e cs H uq a hs ct enc rg stt = RErr e -> prepare_fault (as_url a) hs e.
  Proof.
    unfold prepare_asset_response_e. cbv zeta. intro E.
    assert (Z : forall n v, In (n, v) (match ct with Some t => [(bs "content-type", t)] | None => [] end ++ match enc with Some e => [(bs "content-encoding", encoding_name e)] | None => [] end) ->
              same_name n (bs "IC-CertificateExpression") -> False).
    { intros n v I S. apply in_app_or in I. destruct I as [I|I]; [destruct ct as [t|]; [|destruct I]|destruct enc as [c|]; [|destruct I]]; destruct I as [I|[]]; injection I as <- <-; apply same_name_lower in S; revert S; vm_compute; discriminate. }
    destruct rg as [b|].
    - apply prepare_err in E; [|right; reflexivity]. revert E. apply prepare_fault_sub. intros n v I S. apply in_app_or in I. destruct I as [I|[I|[]]].
      + apply in_app_or in I. destruct I as [I|I]; [exact I|destruct (Z n v I S)].
      + exfalso. injection I as <- _. apply same_name_lower in S. revert S. vm_compute. discriminate.
    - apply prepare_err in E; [|left; reflexivity]. revert E. apply prepare_fault_sub. intros n v I S. apply in_app_or in I. destruct I as [I|I]; [exact I|destruct (Z n v I S)].
  Qed.
  Lemma prepare_static_err a ct hs enc rg e : prepare_static_e cs H uq a ct hs enc rg = RErr e -> prepare_fault (as_url a) hs e.
  Proof. unfold prepare_static_e. intro E. apply (prepare_asset_err a hs ct enc rg None). destruct (prepare_asset_response_e cs H uq a hs ct enc rg None); try discriminate E. cbn [rbind] in E. congruence. Qed.
  Lemma prepare_fallback_err a hs ct fb enc e : prepare_fallback_e cs H uq a hs ct fb enc = RErr e -> prepare_fault (as_url a) hs e.
  Proof. unfold prepare_fallback_e. intro E. apply (prepare_asset_err a hs ct enc None (fb_status fb)). destruct (prepare_asset_response_e cs H uq a hs ct enc None (fb_status fb)); try discriminate E. cbn [rbind] in E. congruence. Qed.
  Lemma prepare_redirect_err f t k e : prepare_redirect_e H uq f t k = RErr e -> prepare_fault f [] e.
  Proof.
    unfold prepare_redirect_e. set (s := match k with Permanent => 301 | Temporary => 307 end). intro E.
    assert (X : prepare_response_e H uq f s [] [(bs "location", t)] [] = RErr e) by (destruct (prepare_response_e H uq f s [] [(bs "location", t)] []); try discriminate E; cbn [rbind] in E; congruence).
    apply prepare_err in X; [|left; reflexivity]. revert X. apply prepare_fault_sub. intros n v [I|[]] S. injection I as <- _. apply same_name_lower in S. revert S. vm_compute. discriminate.
  Qed.

  (** the configurations the normalized ones come from *)
  Definition from_config (configs : list asset_config) (c : config) : Prop :=
    match c with
    | NFile p ct hs fbs als encs => In (ConfigFile p ct hs fbs als encs) configs
    | NPattern m ct hs encs => exists p, In (ConfigPattern p ct hs encs) configs
    | NRedirect f t k => In (ConfigRedirect f t k) configs
    end.
  Lemma normalize_from l : forall cfgs, normalize_all_e glob l = ROk cfgs -> Forall (from_config l) cfgs.
  Proof.
    induction l as [|c l IH]; intros cfgs E; cbn [normalize_all_e] in E; [injection E as <-; constructor|].
    destruct (normalize_e glob c) as [n| | |] eqn:N; try discriminate E. cbn [rbind] in E. destruct (normalize_all_e glob l) as [ns| | |]; try discriminate E. cbn [rbind] in E. injection E as <-.
    constructor.
    - destruct c; cbn [normalize_e] in N; [injection N as <-; left; reflexivity|destruct (glob pattern); [|discriminate N]; injection N as <-; exists pattern; left; reflexivity|injection N as <-; left; reflexivity].
    - eapply Forall_impl; [|exact (IH ns eq_refl)]. intros []; cbn [from_config]; [intro I; right; exact I|intros (p & I); exists p; right; exact I|intro I; right; exact I].
  Qed.
  Lemma normalize_err l e : normalize_all_e glob l = RErr e <-> exists p, e = GlobsetError p /\ first_bad_pattern glob l p.
  Proof.
    induction l as [|c l IH]; cbn [normalize_all_e].
    - split; [discriminate|]. intros (p & _ & before & ct & hs & encs & after & E & _). destruct before; discriminate E.
    - assert (D : (exists n, normalize_e glob c = ROk n /\ forall p ct hs encs, c = ConfigPattern p ct hs encs -> glob p <> None) \/
                  exists p ct hs encs, c = ConfigPattern p ct hs encs /\ glob p = None /\ normalize_e glob c = RErr (GlobsetError p)).
      { destruct c; cbn [normalize_e]; [left; eexists; split; [reflexivity|discriminate]| |left; eexists; split; [reflexivity|discriminate]].
        destruct (glob pattern) eqn:G; [left; eexists; split; [reflexivity|]; intros p ct hs encs E; injection E as <- _ _ _; congruence|right; do 4 eexists; split; [reflexivity|auto]]. }
      destruct D as [(n & -> & G)|(p & ct & hs & encs & -> & G & ->)]; cbn [rbind].
      + transitivity (normalize_all_e glob l = RErr e); [destruct (normalize_all_e glob l); cbn [rbind]; split; congruence|]. rewrite IH. split.
        * intros (p & -> & before & ct & hs & encs & after & -> & B & F). exists p. split; [reflexivity|]. exists (c :: before), ct, hs, encs, after. split; [reflexivity|]. split; [exact B|].
          intros p' ct' hs' encs' [I|I]; [exact (G _ _ _ _ I)|exact (F _ _ _ _ I)].
        * intros (p & -> & before & ct & hs & encs & after & E & B & F). exists p. split; [reflexivity|]. destruct before as [|c' before].
          -- injection E as E _. destruct (G _ _ _ _ E B).
          -- injection E as <- ->. exists before, ct, hs, encs, after. split; [reflexivity|]. split; [exact B|]. intros p' ct' hs' encs' I. apply (F p' ct' hs' encs'). right. exact I.
      + split.
        * intro Z. apply err_eq in Z. subst e. exists p. split; [reflexivity|]. exists [], ct, hs, encs, l. split; [reflexivity|]. split; [exact G|]. intros ? ? ? ? [].
        * intros (q & -> & before & ct' & hs' & encs' & after & E & B & F). destruct before as [|c' before]; [injection E as <- _ _ _ _; reflexivity|].
          injection E as <- _. destruct (F p ct hs encs (or_introl eq_refl) G).
  Qed.

  Section OneCall.
    Variables (assets : list asset) (configs : list asset_config).
    Definition fault (e : asset_error) : Prop := input_fault uq glob assets configs e.
    Lemma fault_of url hs e : urls_named assets configs url -> (forall n v, In (n, v) hs -> same_name n (bs "IC-CertificateExpression") -> configured_expression configs v) -> prepare_fault url hs e -> fault e.
    Proof.
      intros UN HS. unfold fault. destruct e as [u|x|p|t]; cbn [prepare_fault input_fault]; auto; try contradiction. destruct x as [[u|]|w r|ex ac|ex|ex]; cbn [prepare_fault input_fault]; auto.
      - intros [Q ->]. auto.
      - intros (A & B & n & I & S). eauto.
      - intros (A & n & I & S). eauto.
    Qed.
    (** what is known of an asset and its configuration *)
    Definition named_url (u : bytes) : Prop := urls_named assets configs u.
    Definition good_config (c : option config) : Prop := match c with Some c => from_config configs c | None => True end.
    Lemma expr_of c hs : (exists c0, In c0 configs /\ config_headers c0 = hs) \/ hs = [] -> c = hs -> forall n v, In (n, v) c -> same_name n (bs "IC-CertificateExpression") -> configured_expression configs v.
    Proof. intros [(c0 & I & <-)| ->] -> n v J S; [exists c0, n; auto|destruct J]. Qed.
    Lemma static_errs a ct hs enc : named_url (as_url a) -> ((exists c0, In c0 configs /\ config_headers c0 = hs) \/ hs = []) -> errs (insert_static_e cs H uq a ct hs enc) fault /\ errs (delete_static_e cs H uq a ct hs enc) fault.
    Proof.
      intros UN HS. assert (P : forall rg e, prepare_static_e cs H uq a ct hs enc rg = RErr e -> fault e).
      { intros rg e E. apply prepare_static_err in E. revert E. apply fault_of; [exact UN|]. exact (expr_of hs hs HS eq_refl). }
      split.
      - assert (O : forall rg, errs (eattempt (prepare_static_e cs H uq a ct hs enc rg) (fun c => eseq (silent (tree_act H (HInsert (ca_entry c)))) (silent (on_responses (m_insert key_eqb (mk_key (as_url a) (encoding_str enc) rg) c))))) fault).
        { intro rg. apply errs_attempt; [apply P|]. intro c. apply errs_seq; apply errs_silent. }
        unfold insert_static_e. cbv zeta. apply errs_seq; [|apply O]. destruct (cs <? _); [|apply errs_done]. apply errs_each. intros b _. apply O.
      - unfold delete_static_e. apply errs_attempt; [apply P|]. intro c. apply errs_seq; [apply errs_silent|]. apply errs_seq; [apply errs_silent|]. cbv zeta.
        destruct (cs <? _); [|apply errs_done]. apply errs_each. intros b _. apply errs_silent.
    Qed.
    Lemma fallback_errs a ct hs fb enc : named_url (as_url a) -> ((exists c0, In c0 configs /\ config_headers c0 = hs) \/ hs = []) -> errs (insert_fallback_e cs H uq a ct hs fb enc) fault /\ errs (delete_fallback_e cs H uq a ct hs fb enc) fault.
    Proof.
      intros UN HS. assert (P : forall e, prepare_fallback_e cs H uq a hs ct fb enc = RErr e -> fault e).
      { intros e E. apply prepare_fallback_err in E. revert E. apply fault_of; [exact UN|]. exact (expr_of hs hs HS eq_refl). }
      split; (apply errs_attempt; [apply P|]; intro c; apply errs_seq; apply errs_silent).
    Qed.
    Lemma asset_errs a c enc : named_url (as_url a) -> good_config c -> errs (certify_asset_e cs H uq a c enc) fault /\ errs (delete_asset_e cs H uq a c enc) fault.
    Proof.
      intros UN G. unfold certify_asset_e, delete_asset_e. destruct c as [[p ct hs fbs als encs|m ct hs encs|f t k]|]; cbn [good_config from_config] in G.
      - assert (HS : (exists c0, In c0 configs /\ config_headers c0 = hs) \/ hs = []) by (left; exists (ConfigFile p ct hs fbs als encs); auto).
        assert (AL : forall u, In u als -> named_url (as_url (aliased a u))) by (intros u I; right; left; exists p, ct, hs, fbs, als, encs; auto).
        split; (apply errs_seq; [apply static_errs; assumption|]; apply errs_seq; apply errs_each; intros x I; [apply fallback_errs; assumption|apply static_errs; auto]).
      - destruct G as (p & G). assert (HS : (exists c0, In c0 configs /\ config_headers c0 = hs) \/ hs = []) by (left; exists (ConfigPattern p ct hs encs); auto). apply static_errs; assumption.
      - apply static_errs; auto.
      - apply static_errs; auto.
    Qed.
    Lemma redirect_errs f t k : In (ConfigRedirect f t k) configs -> errs (insert_redirect_e H uq f t k) fault /\ errs (delete_redirect_e H uq f t k) fault.
    Proof.
      intro I. assert (P : forall e, prepare_redirect_e H uq f t k = RErr e -> fault e).
      { intros e E. apply prepare_redirect_err in E. revert E. apply fault_of; [right; right; eauto|intros n v []]. }
      split; (apply errs_attempt; [apply P|]; intro c; apply errs_seq; apply errs_silent).
    Qed.
    Lemma acts_errs (f : asset -> option config -> option encoding -> eact) cfgs a : Forall (from_config configs) cfgs -> In a assets ->
      (forall a c enc, named_url (as_url a) -> good_config c -> errs (f a c enc) fault) -> errs (asset_acts_e f (asset_map assets) cfgs a) fault.
    Proof.
      intros FC I F. unfold asset_acts_e. cbv zeta.
      assert (UN : named_url (as_url a)) by (left; exists a; auto).
      assert (G : good_config (find (fun x => matches_asset x a) cfgs)).
      { destruct (find (fun x => matches_asset x a) cfgs) as [c|] eqn:E; [|exact Logic.I]. apply find_some in E. rewrite Forall_forall in FC. apply FC, E. }
      apply errs_seq; [|apply F; assumption]. apply errs_each. intros [e s] _. cbn [fst snd]. destruct (m_get bytes_eqb (as_path a ++ s) (asset_map assets)); [|apply errs_done].
      apply F; [exact UN|exact G].
    Qed.
    Lemma call_errs order : (forall l, Permutation (order l) l) ->
      errs (certify_assets_e cs H uq glob order assets configs) fault /\ errs (delete_assets_e cs H uq glob order assets configs) fault.
    Proof.
      intro O. assert (IO : forall a, In a (order (map snd (asset_map assets))) -> In a assets).
      { intros a I. apply (Permutation_in _ (O _)) in I. apply asset_map_values in I. destruct I as (l & r & -> & _). apply in_or_app. right. left. reflexivity. }
      assert (NE : forall e, normalize_all_e glob configs = RErr e -> fault e) by (intros e E; apply normalize_err in E; destruct E as (p & -> & E); exact E).
      split; (unfold certify_assets_e, delete_assets_e; destruct (normalize_all_e glob configs) as [cfgs|e'| |] eqn:N;
        [apply normalize_from in N; cbn [eattempt]; cbv zeta; apply errs_seq; apply errs_each;
           [intros a I; apply acts_errs; [exact N|exact (IO a I)|]; intros; apply asset_errs; assumption
           |intros c I; rewrite Forall_forall in N; specialize (N c I); destruct c; try apply errs_done; apply redirect_errs; exact N]
        |intros st e E; cbn in E; apply err_eq in E; subst; apply NE; reflexivity|intros st e E; discriminate E|intros st e E; discriminate E]).
    Qed.
  End OneCall.
End Calls.
(** An error of certify_assets or delete_assets names something that is wrong with the call. *)
Theorem C146_call_error_sound :
  forall (cs : N) (H : bytes -> bytes) uri_query glob (st : router) order (assets : list asset) (configs : list asset_config) (e : asset_error),
  (forall l, Permutation (order l) l) ->
  snd (certify_assets_e cs H uri_query glob order assets configs st) = RErr e \/ snd (delete_assets_e cs H uri_query glob order assets configs st) = RErr e ->
  input_fault uri_query glob assets configs e.
Proof.
  intros cs H uq glob st order assets configs e O [E|E]; destruct (call_errs cs H uq glob assets configs order O) as [A B]; [exact (A st e E)|exact (B st e E)].
Qed.
Print Assumptions C146_call_error_sound.
(** A refused pattern is always reported, the first one, and nothing has been done then. *)
Theorem C146_bad_pattern_iff :
  forall (cs : N) (H : bytes -> bytes) uri_query glob (st : router) order (assets : list asset) (configs : list asset_config) (p : bytes),
  (forall l, Permutation (order l) l) ->
  (first_bad_pattern glob configs p <-> certify_assets_e cs H uri_query glob order assets configs st = (st, RErr (GlobsetError p))) /\
  (first_bad_pattern glob configs p <-> delete_assets_e cs H uri_query glob order assets configs st = (st, RErr (GlobsetError p))).
Proof.
  intros cs H uq glob st order assets configs p O. split; split.
  - intro F. unfold certify_assets_e. assert (E : normalize_all_e glob configs = RErr (GlobsetError p)) by (apply normalize_err; exists p; auto). rewrite E. reflexivity.
  - intro E. apply (C146_call_error_sound cs H uq glob st order assets configs (GlobsetError p) O). left. rewrite E. reflexivity.
  - intro F. unfold delete_assets_e. assert (E : normalize_all_e glob configs = RErr (GlobsetError p)) by (apply normalize_err; exists p; auto). rewrite E. reflexivity.
  - intro E. apply (C146_call_error_sound cs H uq glob st order assets configs (GlobsetError p) O). right. rewrite E. reflexivity.
Qed.
Print Assumptions C146_bad_pattern_iff.

Definition ex_rs (hs : list (bytes * bytes)) : response := mk_response 200 hs (bs "hi").
Definition ex_rc : response_cert := HeaderExclusions [].
Definition ex_expr : bytes := print_cel (CelResponseOnly ex_rc).
Example C145_ex :
  certify_response_only_e (fun m => m) ex_rc (ex_rs [(bs "ETag", bs "1")]) None = RErr (CertificateExpressionHeaderMissing ex_expr) /\
  certify_response_only_e (fun m => m) ex_rc (ex_rs [(bs "ic-certificateEXPRESSION", ex_expr); (bs "IC-CertificateExpression", bs "other")]) None =
    RErr (CertificateExpressionHeaderMismatch ex_expr (bs "other")) /\
  certify_response_only_e (fun m => m) ex_rc (ex_rs [(bs "ic-certificateEXPRESSION", ex_expr); (bs "ETag", bs "1"); (bs "IC-CertificateExpression", ex_expr)]) None =
    RErr (MultipleCertificateExpressionHeaders ex_expr) /\
  certify_full_e (fun m => m) (fun _ => None) (mk_request_cert [] []) ex_rc (mk_request (bs "GET") (bs "/ /") [] []) (ex_rs [(bs "IC-CertificateExpression", print_cel (CelFull (mk_request_cert [] []) ex_rc))]) None =
    RErr (UrlError (MalformedUrl (bs "/ /"))) /\
  http_run (fun m => m) [] = Some ndefault /\
  http_witness_e (fun m => m) ndefault (mk_entry (PWildcard (bs "/a/b")) (CSkip [])) (bs "/a") = RErr (WildcardPathNotValidForRequestPath (bs "/a/b") (bs "/a")).
Proof. vm_compute. repeat split. Qed.
Definition ex_request (hs : list (bytes * bytes)) : request := mk_request (bs "GET") (bs "/no%20thing") hs [].
Definition ex_serve (hs : list (bytes * bytes)) : res asset_error response :=
  serve_asset_e asset_chunk_size (fun m => m) (fun u => Some u) (2 ^ 32) (fun l => l) router_new [] (ex_request hs).
Example C146_ex_serve :
  reachable asset_chunk_size (fun m => m) (fun _ => Some None) (fun _ => None) router_new /\
  ex_serve [] = RErr (NoAssetMatchingRequestUrl (bs "/no thing")) /\
  ex_serve [(bs "range", bs " bytes=5-3")] = RErr (RequestError (bs "Invalid values in Range header ' bytes=5-3'")) /\
  ex_serve [(bs "Range", bs "bites=1-2")] = RErr (RequestError (bs "Invalid Range header 'bites=1-2'")) /\
  ex_serve [(bs "Range", bs "bytes=1-2-")] = RErr (RequestError (bs "Invalid Range header 'bytes=1-2-'")) /\
  ex_serve [(bs "Range", bs "bytes=-2")] = RErr (RequestError (bs "Malformed range_begin in Range header 'bytes=-2': cannot parse integer from empty string")) /\
  ex_serve [(bs "Range", bs "bytes=1-4294967296")] = RErr (RequestError (bs "Malformed range_end in Range header 'bytes=1-4294967296': number too large to fit in target type")) /\
  ex_serve [(bs "Range", bs "bytes=1-2x")] = RErr (RequestError (bs "Malformed range_end in Range header 'bytes=1-2x': invalid digit found in string")).
Proof. split; [exact (ReachStart _ _ _ _ [] ndefault eq_refl)|]. vm_compute. repeat split. Qed.
Definition ex_glob (p : bytes) : option (bytes -> bool) := match p with "["%byte :: _ => None | _ => Some (fun _ => true) end.
Definition ex_query (u : bytes) : option (option bytes) := match u with "/"%byte :: _ => Some None | _ => None end.
Definition ex_certify (configs : list asset_config) : res asset_error unit :=
  snd (certify_assets_e asset_chunk_size (fun m => m) ex_query ex_glob (fun l => l) [asset_new (bs "a.txt") (bs "hi")] configs router_new).
Example C146_ex_certify :
  ex_certify [ConfigPattern (bs "a*") None [] []; ConfigPattern (bs "[1") None [] []; ConfigPattern (bs "[2") None [] []] = RErr (GlobsetError (bs "[1")) /\
  ex_certify [ConfigPattern (bs "a*") None [(bs "ic-certificateexpression", bs "x")] []] =
    RErr (CertificationError (CertificateExpressionHeaderMismatch (print_cel (get_expression [])) (bs "x"))) /\
  ex_certify [ConfigFile (bs "a.txt") None [] [] [bs "b.txt"] []] = RErr (CertificationError (UrlError (MalformedUrl (bs "b.txt")))) /\
  ex_certify [] = ROk tt.
Proof. vm_compute. repeat split. Qed.
