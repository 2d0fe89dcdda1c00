(** What the prepared responses look like, and when preparing fails. *)
From Coq Require Import List Arith NArith Lia Bool Permutation.
From Verif Require Import Bytes Text HashTree RbTree Nested NestedSpec NestedProofs Cbor HttpTypes HttpHash HttpSpec Cel V2 Verify VerifySpec HttpTree HttpTreeSpec
  Props_Hash Props_HttpTree AssetRouter AssetSpec AssetProofs.
Import ListNotations.
Local Open Scope N_scope.

Lemma prepare_response_spec H uq url status body hs ct enc range names rs c :
  prepare_response H uq url status body (hs ++ match ct with Some t => [(bs "content-type", t)] | None => [] end ++
     match enc with Some e => [(bs "content-encoding", e)] | None => [] end ++ match range with Some r => [(bs "content-range", r)] | None => [] end) names = Some (rs, c) ->
  rs = mk_response status (content_headers body hs ct enc range (print_cel (get_expression names))) body /\
  made H uq (get_expression names) (mk_request (bs "GET") url [] []) rs c.
Proof.
  unfold prepare_response, get_expression. remember (print_cel (CelFull (mk_request_cert names []) (HeaderExclusions []))) as e eqn:Ee.
  destruct (certify_full _ _ _ _ _ _ _) as [c'|] eqn:E; [|discriminate]. intro X. injection X as <- <-. split.
  - clear. unfold content_headers. generalize (bs "content-length"). intro cl.
    destruct ct, enc, range; cbn [app]; rewrite <- ?app_assoc; reflexivity.
  - apply (MadeFull H uq _ _ _ _ None); [left; reflexivity|exact E].
Qed.
Lemma prepare_static_whole cs H uq a ct hs enc x : prepare_static cs H uq a ct hs enc None = Some x ->
  prepared H uq x (PExact (as_url a)) (as_url a) 200 (as_content a) hs ct (encoding_str enc) None [].
Proof.
  unfold prepare_static, prepare_asset_response.
  destruct (prepare_response H uq (as_url a) 200 (as_content a) _ []) as [[rs c]|] eqn:E; [|discriminate]. intro X. injection X as <-.
  assert (Z := prepare_response_spec H uq (as_url a) 200 (as_content a) hs ct (encoding_str enc) None [] rs c). unfold prepared. cbn [ca_response ca_entry en_path en_certification].
  destruct Z as [Z1 Z2]; [|auto]. rewrite <- E. f_equal. rewrite app_nil_r. destruct enc; reflexivity.
Qed.
Definition chunk_end (cs : N) (content : bytes) (b : N) : N := N.min (b + cs) (N.of_nat (length content)).
Lemma prepare_static_chunk cs H uq a ct hs enc b x : 0 < cs -> b < N.of_nat (length (as_content a)) -> prepare_static cs H uq a ct hs enc (Some b) = Some x ->
  prepared H uq x (PExact (as_url a)) (as_url a) 206 (slice b (chunk_end cs (as_content a) b) (as_content a)) hs ct (encoding_str enc)
    (Some (range_header b (chunk_end cs (as_content a) b) (N.of_nat (length (as_content a))))) [bs "range"].
Proof.
  intros CS L. unfold prepare_static, prepare_asset_response. fold (chunk_end cs (as_content a) b).
  assert (G : chunk_end cs (as_content a) b - 1 + 1 = chunk_end cs (as_content a) b) by (unfold chunk_end; lia). cbv zeta. rewrite G.
  destruct (prepare_response H uq (as_url a) 206 (slice b (chunk_end cs (as_content a) b) (as_content a)) _ [bs "range"]) as [[rs c]|] eqn:E; [|discriminate]. intro X. injection X as <-.
  assert (Z := prepare_response_spec H uq (as_url a) 206 (slice b (chunk_end cs (as_content a) b) (as_content a)) hs ct (encoding_str enc)
    (Some (range_header b (chunk_end cs (as_content a) b) (N.of_nat (length (as_content a))))) [bs "range"] rs c). unfold prepared. cbn [ca_response ca_entry en_path en_certification].
  destruct Z as [Z1 Z2]; [|auto]. rewrite <- E. f_equal. rewrite <- !app_assoc. destruct enc; reflexivity.
Qed.
Lemma prepare_fallback_spec cs H uq a hs ct fb enc x : prepare_fallback cs H uq a hs ct fb enc = Some x ->
  prepared H uq x (PWildcard (fb_scope fb)) (as_url a) (match fb_status fb with Some s => s | None => 200 end) (as_content a) hs ct (encoding_str enc) None [].
Proof.
  unfold prepare_fallback, prepare_asset_response.
  destruct (prepare_response H uq (as_url a) (match fb_status fb with Some s => s | None => 200 end) (as_content a) _ []) as [[rs c]|] eqn:E; [|discriminate]. intro X. injection X as <-.
  assert (Z := prepare_response_spec H uq (as_url a) (match fb_status fb with Some s => s | None => 200 end) (as_content a) hs ct (encoding_str enc) None [] rs c). unfold prepared. cbn [ca_response ca_entry en_path en_certification].
  destruct Z as [Z1 Z2]; [|auto]. rewrite <- E. f_equal. rewrite app_nil_r. destruct enc; reflexivity.
Qed.
Lemma prepare_redirect_spec H uq from to kind x : prepare_redirect H uq from to kind = Some x ->
  prepared H uq x (PExact from) from (match kind with Permanent => 301 | Temporary => 307 end) [] [(bs "location", to)] None None None [].
Proof.
  unfold prepare_redirect.
  destruct (prepare_response H uq from (match kind with Permanent => 301 | Temporary => 307 end) [] _ []) as [[rs c]|] eqn:E; [|discriminate]. intro X. injection X as <-.
  assert (Z := prepare_response_spec H uq from (match kind with Permanent => 301 | Temporary => 307 end) [] [(bs "location", to)] None None None [] rs c). unfold prepared. cbn [ca_response ca_entry en_path en_certification].
  destruct Z as [Z1 Z2]; [|auto]. exact E.
Qed.
(** the certification of a prepared response *)
Lemma prepared_cert H uq x p url status body hs ct enc range names : prepared H uq x p url status body hs ct enc range names ->
  exists q, request_hash H uq (mk_request (bs "GET") url [] []) (mk_request_cert names []) = Some q /\
  en_certification (ca_entry x) = CFull (H (print_cel (get_expression names))) q (response_hash H (ca_response x) (HeaderExclusions []) None).
Proof.
  intros (_ & _ & M). unfold get_expression in M. inversion M as [|?|qc rc rq rs bh c BH E]; subst. unfold certify_full in E.
  destruct (validate_response _ _); [|discriminate]. destruct (request_hash _ _ _ _) as [q|]; [|discriminate]. injection E as E. exists q. split; [reflexivity|]. rewrite <- E.
  f_equal. destruct BH as [->| ->]; reflexivity.
Qed.
Lemma prepared_path H uq x p url status body hs ct enc range names : prepared H uq x p url status body hs ct enc range names ->
  exists q, entry_tree_path (ca_entry x) = path_tree_path p ++ [H (print_cel (get_expression names)); q; response_hash H (ca_response x) (HeaderExclusions []) None] /\
   request_hash H uq (mk_request (bs "GET") url [] []) (mk_request_cert names []) = Some q.
Proof.
  intro P. destruct (prepared_cert _ _ _ _ _ _ _ _ _ _ _ _ P) as (q & Q & E). exists q. split; [|exact Q]. unfold entry_tree_path. rewrite E. destruct P as (_ & -> & _). reflexivity.
Qed.

(** ** When preparing succeeds *)
Definition no_expression (hs : list (bytes * bytes)) : Prop := no_header (bs "IC-CertificateExpression") hs.
Lemma prepare_response_ok H uq url status body hs names q : no_expression hs -> uq url = Some q ->
  exists r, prepare_response H uq url status body hs names = Some r.
Proof.
  intros N U. unfold prepare_response, certify_full.
  match goal with |- context [validate_response ?r ?e] => assert (V : validate_response r e = true) end.
  { apply validate_response_spec. exists ((bs "content-length", dec (N.of_nat (length body))) :: hs), cert_expr_header_name, []. split; [reflexivity|].
    split; [apply same_name_refl|]. split; [|constructor]. constructor; [|exact N]. cbn [fst]. rewrite <- eq_nocase_spec. vm_compute. intro Z; discriminate Z. }
  rewrite V. unfold request_hash. cbn [rq_url]. rewrite U. eexists. reflexivity.
Qed.
Lemma no_expression_app a b : no_expression a -> no_expression b -> no_expression (a ++ b).
Proof. unfold no_expression, no_header. intros A B. apply Forall_app. auto. Qed.
Lemma no_expression_one n v : eq_nocase n (bs "IC-CertificateExpression") = false -> no_expression [(n, v)].
Proof. intro E. constructor; [|constructor]. cbn [fst]. intro X. apply eq_nocase_spec in X. congruence. Qed.
Lemma asset_response_ok cs H uq a hs ct enc range status q : no_expression hs -> uq (as_url a) = Some q ->
  exists r, prepare_asset_response cs H uq a hs ct enc range status = Some r.
Proof.
  intros N U. unfold prepare_asset_response.
  assert (X : no_expression (hs ++ match ct with Some t => [(bs "content-type", t)] | None => [] end ++ match enc with Some e => [(bs "content-encoding", encoding_name e)] | None => [] end)).
  { apply no_expression_app; [exact N|]. apply no_expression_app; [destruct ct|destruct enc]; try constructor; try constructor; cbn [fst]; rewrite <- eq_nocase_spec; vm_compute; intro Z; discriminate Z. }
  destruct range as [b|]; eapply prepare_response_ok; eauto. apply no_expression_app; [exact X|]. apply no_expression_one. reflexivity.
Qed.
Lemma prepare_static_ok cs H uq a ct hs enc range q : no_expression hs -> uq (as_url a) = Some q -> exists x, prepare_static cs H uq a ct hs enc range = Some x.
Proof. intros N U. unfold prepare_static. destruct (asset_response_ok cs H uq a hs ct enc range None q N U) as ([rs c] & ->). eexists. reflexivity. Qed.
Lemma prepare_fallback_ok cs H uq a hs ct fb enc q : no_expression hs -> uq (as_url a) = Some q -> exists x, prepare_fallback cs H uq a hs ct fb enc = Some x.
Proof. intros N U. unfold prepare_fallback. destruct (asset_response_ok cs H uq a hs ct enc None (fb_status fb) q N U) as ([rs c] & ->). eexists. reflexivity. Qed.
Lemma prepare_redirect_ok H uq from to kind q : uq from = Some q -> exists x, prepare_redirect H uq from to kind = Some x.
Proof.
  intros U. unfold prepare_redirect. destruct (prepare_response_ok H uq from (match kind with Permanent => 301 | Temporary => 307 end) [] [(bs "location", to)] [] q) as ([rs c] & ->); [apply no_expression_one; reflexivity|exact U|]. eexists. reflexivity.
Qed.
