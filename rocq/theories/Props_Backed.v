(** C56: what the router stores is what its tree certifies. *)
(** Concrete data that meets the hypotheses of these theorems: Props_RouterEx.v. *)
From Coq Require Import List Arith NArith Lia Bool Permutation.
From Verif Require Import Bytes Toy Text HashTree HashTreeSpec RbTree Nested NestedSpec NestedProofs Cbor HttpTypes HttpHash HttpSpec Cel V2 Wildcard Verify VerifySpec HeaderSpec HttpTree HttpTreeSpec
  Props_Hash Props_Verify Props_HttpTree AssetRouter RangeSpec Props_Range AssetSpec AssetProofs AssetEffect PreparedProofs Props_Router.
Import ListNotations.
Local Open Scope N_scope.

(** ** The general statement *)
Theorem C56_stored_is_certified_or_overlapped :
  forall (cs : N) (H : bytes -> bytes) uri_query glob (calls : list call),
  0 < cs -> Forall any_order calls ->
  let st := run_calls cs H uri_query glob calls router_new in
  forall f k x, stored st f k x ->
  (exists c, In c calls /\ call_puts cs H uri_query glob c f k x) /\
  (certifies st (ca_entry x) \/
   exists f' k' x', history_written cs H uri_query glob calls f' k' x' /\ (f', k') <> (f, k) /\
     overlapping (entry_tree_path (ca_entry x)) (entry_tree_path (ca_entry x'))).
Proof.
  intros cs H uq glob calls CS O st f k x X. assert (S := run_calls_steps cs H uq glob CS calls O router_new (new_tok H)). fold st in S.
  assert (E : forall f k x, ~ stored router_new f k x) by (intros [|] k' x' Z; discriminate Z). split.
  - destruct (steps_stored H _ _ _ _ _ _ _ _ _ S X) as [w|Z]; [exact w|]. exfalso. exact (E _ _ _ Z).
  - destruct (steps_backed H _ _ _ _ _ _ S (new_tok H) ltac:(intros f' k' x' Z; exfalso; exact (E _ _ _ Z)) f k x X) as [Y|(f' & k' & x' & w & NE & OV)]; [left; exact Y|].
    right. exists f', k', x'. split; [|auto]. destruct w as [(c & I & w)|(c & I & w)]; exists c; auto.
Qed.
Print Assumptions C56_stored_is_certified_or_overlapped.

(** ** When entries overlap *)
Lemma cut_at (T : bytes -> Prop) (u u' r r' : list bytes) t t' : (forall s, In s u -> ~ T s) -> (forall s, In s u' -> ~ T s) -> T t -> T t' ->
  overlapping (u ++ t :: r) (u' ++ t' :: r') -> u = u' /\ t = t' /\ overlapping r r'.
Proof.
  revert u'. induction u as [|x u IH]; intros [|y u'] A B Tt Tt' OV; cbn [app] in OV.
  - split; [reflexivity|]. destruct OV as [(z & E)|(z & E)]; injection E as -> E; (split; [reflexivity|]); [left|right]; exists z; exact E.
  - exfalso. apply (B y); [left; reflexivity|]. destruct OV as [(z & E)|(z & E)]; injection E as -> _; exact Tt.
  - exfalso. apply (A x); [left; reflexivity|]. destruct OV as [(z & E)|(z & E)]; injection E as -> _; exact Tt'.
  - assert (Q : x = y /\ overlapping (u ++ t :: r) (u' ++ t' :: r')) by (destruct OV as [(z & E)|(z & E)]; injection E as -> E; (split; [reflexivity|]); [left|right]; exists z; exact E).
    destruct Q as [-> Q]. destruct (IH u' ltac:(intros; apply A; right; assumption) ltac:(intros; apply B; right; assumption) Tt Tt' Q) as (-> & -> & R). auto.
Qed.
Lemma overlap_prepared H uq x p url st body hs ct enc rg names x' p' url' st' body' hs' ct' enc' rg' names' :
  prepared H uq x p url st body hs ct enc rg names -> prepared H uq x' p' url' st' body' hs' ct' enc' rg' names' ->
  clean_url (path_text p) -> clean_url (path_text p') -> overlapping (entry_tree_path (ca_entry x)) (entry_tree_path (ca_entry x')) ->
  path_tree_path p = path_tree_path p' /\ response_hash H (ca_response x) (HeaderExclusions []) None = response_hash H (ca_response x') (HeaderExclusions []) None.
Proof.
  intros P P' C C' OV. destruct (prepared_path _ _ _ _ _ _ _ _ _ _ _ _ P) as (q & Q & _). destruct (prepared_path _ _ _ _ _ _ _ _ _ _ _ _ P') as (q' & Q' & _).
  rewrite Q, Q' in OV.
  assert (S : forall p, exists t, path_tree_path p = request_parts (path_text p) ++ [t] /\ (t = bs "<$>" \/ t = bs "<*>")).
  { intros [u|u]; eexists; (split; [apply path_to_segments_parts|]); auto. }
  destruct (S p) as (t & E & T). destruct (S p') as (t' & E' & T'). rewrite E, E', <- !app_assoc in OV. cbn [app] in OV.
  apply (cut_at (fun s => s = bs "<$>" \/ s = bs "<*>")) in OV; [| | |exact T|exact T'].
  - destruct OV as (U & <- & OV). split; [rewrite E, E', U; reflexivity|]. apply C69_unrelated_unless_equal in OV; [|reflexivity]. injection OV as _ _ OV. exact OV.
  - intros s I [->| ->]; [apply (proj1 C), I|apply (proj2 C), I].
  - intros s I [->| ->]; [apply (proj1 C'), I|apply (proj2 C'), I].
Qed.

(** ** The headers of a prepared response *)
Lemma picks_in P hs o n v : picks P hs o -> (In (n, v) o <-> exists m, In (m, v) hs /\ lower m = n /\ P m).
Proof.
  induction 1 as [|m w hs o Pm X IH|m w hs o Pm X IH]; cbn [In].
  - split; [intros []|intros (m & [] & _)].
  - rewrite IH. split.
    + intros [E|(m' & I & L & Q)]; [injection E as <- <-; exists m; auto|exists m'; auto].
    + intros (m' & [E|I] & L & Q); [injection E as -> ->; left; rewrite L; reflexivity|right; exists m'; auto].
  - rewrite IH. split.
    + intros (m' & I & L & Q). exists m'. auto.
    + intros (m' & [E|I] & L & Q); [injection E as -> ->; contradiction|exists m'; auto].
Qed.
Lemma lower_not n m hs v : no_header n hs -> lower m = lower n -> ~ In (m, v) hs.
Proof.
  intros N L I. unfold no_header in N. rewrite Forall_forall in N. apply (N _ I). cbn [fst]. apply same_name_lower. exact L.
Qed.
Lemma neq_by_eqb a b : bytes_eqb a b = false -> a <> b.
Proof. intros E ->. rewrite bytes_eqb_refl in E. discriminate. Qed.
Lemma content_header_in body hs ct enc rg expr n v : In (n, v) (content_headers body hs ct enc rg expr) ->
  In (n, v) hs \/ (n = bs "content-length" \/ (n = bs "content-type" /\ ct = Some v) \/ (n = bs "content-encoding" /\ enc = Some v) \/ (n = bs "content-range" /\ rg = Some v) \/ n = bs "IC-CertificateExpression").
Proof.
  unfold content_headers. rewrite !in_app_iff. intros [X|[X|[X|[X|[X|X]]]]].
  - destruct X as [X|[]]. injection X as <- <-. auto.
  - auto.
  - destruct ct as [t|]; [|destruct X]. destruct X as [X|[]]. injection X as <- <-. auto 6.
  - destruct enc as [t|]; [|destruct X]. destruct X as [X|[]]. injection X as <- <-. auto 7.
  - destruct rg as [t|]; [|destruct X]. destruct X as [X|[]]. injection X as <- <-. auto 8.
  - destruct X as [X|[]]. injection X as <- <-. auto 8.
Qed.
Lemma covered_all n : eq_nocase n (bs "IC-Certificate") = false -> covered (HeaderExclusions []) n.
Proof. intro E. split; [intro X; apply eq_nocase_spec in X; congruence|]. right. intros (y & [] & _). Qed.
Lemma encoding_seen body hs ct enc rg expr o v : no_header (bs "content-encoding") hs -> picks (covered (HeaderExclusions [])) (content_headers body hs ct enc rg expr) o ->
  (In (bs "content-encoding", v) o <-> enc = Some v).
Proof.
  intros N K. rewrite (picks_in _ _ _ _ _ K). split.
  - intros (m & I & L & _). apply content_header_in in I. destruct I as [I|I].
    + exfalso. exact (lower_not (bs "content-encoding") m hs v N L I).
    + destruct I as [->|[[-> _]|[[_ E]|[[-> _]| ->]]]]; try (exfalso; revert L; apply neq_by_eqb; vm_compute; reflexivity). exact E.
  - intros ->. exists (bs "content-encoding"). split; [|split; [reflexivity|apply covered_all; reflexivity]]. unfold content_headers. rewrite !in_app_iff. right. right. right. left. left. reflexivity.
Qed.
Lemma range_seen body hs ct enc rg expr o v : no_header (bs "content-range") hs -> picks (covered (HeaderExclusions [])) (content_headers body hs ct enc rg expr) o ->
  (In (bs "content-range", v) o <-> rg = Some v).
Proof.
  intros N K. rewrite (picks_in _ _ _ _ _ K). split.
  - intros (m & I & L & _). apply content_header_in in I. destruct I as [I|I].
    + exfalso. exact (lower_not (bs "content-range") m hs v N L I).
    + destruct I as [->|[[-> _]|[[-> _]|[[_ E]| ->]]]]; try (exfalso; revert L; apply neq_by_eqb; vm_compute; reflexivity). exact E.
  - intros ->. exists (bs "content-range"). split; [|split; [reflexivity|apply covered_all; reflexivity]]. unfold content_headers. rewrite !in_app_iff. right. right. right. right. left. left. reflexivity.
Qed.
Lemma content_no_pseudo body hs ct enc rg expr : no_pseudo hs -> no_pseudo (content_headers body hs ct enc rg expr).
Proof.
  intro N. unfold content_headers, no_pseudo in *. apply Forall_app. split; [constructor; [|constructor]; cbn [fst]; intro Z; discriminate Z|].
  apply Forall_app. split; [exact N|]. destruct ct, enc, rg; repeat constructor; cbn [fst]; intro Z; discriminate Z.
Qed.
Lemma app_no_dash a b s t : ~ In "-"%byte a -> ~ In "-"%byte b -> a ++ "-"%byte :: s = b ++ "-"%byte :: t -> a = b.
Proof.
  revert b. induction a as [|x a IH]; intros [|y b] A B E; cbn [app] in E; [reflexivity| | |].
  - injection E as <- _. exfalso. apply B. left. reflexivity.
  - injection E as -> _. exfalso. apply A. left. reflexivity.
  - injection E as -> E. f_equal. apply IH; [intro; apply A; right; assumption|intro; apply B; right; assumption|exact E].
Qed.
Lemma dec_no_dash n : ~ In "-"%byte (dec n).
Proof. apply (number_no_dash (dec n) n). exists (dec n). split; [left; reflexivity|apply dec_decimal]. Qed.
Lemma range_header_inj b e t b' e' t' : range_header b e t = range_header b' e' t' -> b = b'.
Proof.
  unfold range_header. intro E. apply app_inv_head in E. apply app_no_dash in E; [|apply dec_no_dash|apply dec_no_dash]. apply dec_inj. exact E.
Qed.

(** ** The shape of what a call writes *)
Definition place_path (f : bool) (u : bytes) : cert_path := if f then PWildcard u else PExact u.
Lemma plain_normalize glob configs cfgs : Forall plain_config configs -> normalize_all glob configs = Some cfgs -> Forall (fun c => plain_headers (headers_of (Some c))) cfgs.
Proof.
  intro F. revert cfgs. induction F as [|c configs P F IH]; intros cfgs; cbn [normalize_all]; [intro E; injection E as <-; constructor|].
  destruct (normalize glob c) as [n|] eqn:N; [|discriminate]. destruct (normalize_all glob configs) as [ns|]; [|discriminate]. intro E; injection E as <-.
  constructor; [|apply IH; reflexivity]. destruct c as [p ct hs fbs als encs|p ct hs encs|from to kind]; cbn [normalize] in N.
  - injection N as <-. exact P.
  - destruct (glob p); [injection N as <-; exact P|discriminate].
  - injection N as <-. split; [constructor|]. split; constructor.
Qed.
Lemma variant_plain glob assets configs cfgs a c enc : Forall plain_config configs -> normalize_all glob configs = Some cfgs -> variant assets cfgs a c enc -> plain_headers (headers_of c).
Proof.
  intros P N V. apply (plain_normalize glob configs cfgs P) in N.
  assert (X : forall b, first_config cfgs b c -> plain_headers (headers_of c)).
  { intros b FC. destruct c as [x|]; [|split; [constructor|]; split; constructor]. destruct FC as (l & r & -> & _). rewrite Forall_forall in N. apply N. apply in_or_app. right. left. reflexivity. }
  inversion V; subst; eapply X; eassumption.
Qed.
Lemma written_shape cs H uq glob assets configs f k x : 0 < cs -> Forall plain_config configs -> written cs H uq glob assets configs f k x ->
  exists url status body hs ct rg names,
  prepared H uq x (place_path f (k_path k)) url status body hs ct (k_encoding k) rg names /\ plain_headers hs /\
  match k_range k with
  | None => rg = None
  | Some b => exists e t, rg = Some (range_header b e t)
  end.
Proof.
  intros CS P w. apply C67_written_is_configured in w; [|exact CS].
  destruct w as [cfgs a c enc u x N Va U Q|cfgs a c enc u j before body after x N Va U D LB LS LL Q|cfgs a c enc fb x N Va I Q|from to kind x I Q]; cbn [k_path k_encoding k_range place_path].
  - eexists _, _, _, _, _, _, _. split; [exact Q|]. split; [eapply variant_plain; eassumption|reflexivity].
  - eexists _, _, _, _, _, _, _. split; [exact Q|]. split; [eapply variant_plain; eassumption|eexists _, _; reflexivity].
  - eexists _, _, _, _, _, _, _. split; [exact Q|]. split; [eapply variant_plain; eassumption|reflexivity].
  - eexists _, _, _, _, _, _, _. split; [exact Q|]. split; [|reflexivity].
    split; [|split]; constructor; [|constructor| |constructor| |constructor]; cbn [fst].
    + intro X. apply eq_nocase_spec in X. vm_compute in X. discriminate X.
    + intro X. apply eq_nocase_spec in X. vm_compute in X. discriminate X.
    + intro X; discriminate X.
Qed.
Definition response_collision (H : bytes -> bytes) (x x' : certified) : Prop :=
  exists hs hs', picks (covered (HeaderExclusions [])) (rs_headers (ca_response x)) hs /\ picks (covered (HeaderExclusions [])) (rs_headers (ca_response x')) hs' /\
    collision H (response_messages H (ca_response x) hs) (response_messages H (ca_response x') hs').
Lemma Some_eq {A} (a b : A) : Some a = Some b -> a = b. Proof. congruence. Qed.
Lemma overlap_same_place cs H uq glob A C A' C' f k x f' k' x' : (forall x, length (H x) = 32%nat) -> 0 < cs -> Forall plain_config C -> Forall plain_config C' ->
  written cs H uq glob A C f k x -> written cs H uq glob A' C' f' k' x' -> clean_url (k_path k) -> clean_url (k_path k') ->
  overlapping (entry_tree_path (ca_entry x)) (entry_tree_path (ca_entry x')) ->
  (f = f' /\ request_parts (k_path k) = request_parts (k_path k') /\ k_encoding k = k_encoding k' /\ k_range k = k_range k') \/
  response_collision H x x'.
Proof.
  intros HL CS PC PC' w w' U U' OV.
  destruct (written_shape cs H uq glob A C f k x CS PC w) as (url & st & body & hs & ct & rg & names & P & PH & Rg).
  destruct (written_shape cs H uq glob A' C' f' k' x' CS PC' w') as (url' & st' & body' & hs' & ct' & rg' & names' & P' & PH' & Rg').
  destruct (overlap_prepared _ _ _ _ _ _ _ _ _ _ _ _ _ _ _ _ _ _ _ _ _ _ P P') as [TP RH]; [destruct f; exact U|destruct f'; exact U'|exact OV|].
  assert (FP : f = f' /\ request_parts (k_path k) = request_parts (k_path k')).
  { destruct f, f'; cbn [place_path path_tree_path] in TP; rewrite !path_to_segments_parts in TP; apply app_inj_tail in TP; destruct TP as [TP TT]; auto; exfalso; revert TT; apply neq_by_eqb; reflexivity. }
  destruct P as (Rx & _). destruct P' as (Rx' & _). destruct PH as (E1 & E2 & E3). destruct PH' as (E1' & E2' & E3').
  set (o := fst (filter_response_headers (ca_response x) (HeaderExclusions []))). set (o' := fst (filter_response_headers (ca_response x') (HeaderExclusions []))).
  assert (K : picks (covered (HeaderExclusions [])) (rs_headers (ca_response x)) o) by apply filter_loop_spec.
  assert (K' : picks (covered (HeaderExclusions [])) (rs_headers (ca_response x')) o') by apply filter_loop_spec.
  destruct (C27_response_hash_covers H (HeaderExclusions []) (ca_response x) (ca_response x') o o' HL) as [(_ & _ & PM)|Co];
    [rewrite Rx; apply content_no_pseudo, E3|rewrite Rx'; apply content_no_pseudo, E3'|exact K|exact K'|exact RH| |right; exists o, o'; auto].
  left. split; [apply FP|]. split; [apply FP|]. rewrite Rx in K. rewrite Rx' in K'. cbn [rs_headers] in K, K'. split.
  - assert (S : forall v, k_encoding k = Some v <-> k_encoding k' = Some v).
    { intro v. rewrite <- (encoding_seen _ _ _ _ _ _ _ v E1 K), <- (encoding_seen _ _ _ _ _ _ _ v E1' K'). split; apply Permutation_in; [exact PM|apply Permutation_sym, PM]. }
    destruct (k_encoding k) as [e|]; [symmetry; apply S; reflexivity|]. destruct (k_encoding k') as [e|]; [|reflexivity]. discriminate (proj2 (S e) eq_refl).
  - assert (S : forall v, rg = Some v <-> rg' = Some v).
    { intro v. rewrite <- (range_seen _ _ _ _ _ _ _ v E2 K), <- (range_seen _ _ _ _ _ _ _ v E2' K'). split; apply Permutation_in; [exact PM|apply Permutation_sym, PM]. }
    destruct (k_range k) as [b|], (k_range k') as [b'|].
    + destruct Rg as (e & t & ->). destruct Rg' as (e' & t' & ->). assert (Y : Some (range_header b' e' t') = Some (range_header b e t)) by exact (proj1 (S _) eq_refl). apply Some_eq in Y. apply range_header_inj in Y. rewrite Y. reflexivity.
    + destruct Rg as (e & t & ->). subst rg'. discriminate (proj1 (S _) eq_refl).
    + destruct Rg' as (e & t & ->). subst rg. discriminate (proj2 (S _) eq_refl).
    + reflexivity.
Qed.

(** ** C56 *)
(** If no configured header is one the router adds itself, urls and scopes avoid the reserved
    segments, and different urls differ in more than repeated slashes, then everything stored is
    certified (or two responses the calls are about exhibit a collision of [H]). *)
Theorem C56_stored_is_certified_partial :
  forall (cs : N) (H : bytes -> bytes) uri_query glob (calls : list call),
  (forall x, length (H x) = 32%nat) -> 0 < cs -> Forall any_order calls -> Forall plain_call calls ->
  (forall f k x, history_written cs H uri_query glob calls f k x -> clean_url (k_path k)) ->
  (forall f k x k' x', history_written cs H uri_query glob calls f k x -> history_written cs H uri_query glob calls f k' x' ->
     request_parts (k_path k) = request_parts (k_path k') -> k_path k = k_path k') ->
  let st := run_calls cs H uri_query glob calls router_new in
  forall f k x, stored st f k x ->
  (exists c, In c calls /\ call_puts cs H uri_query glob c f k x) /\
  (certifies st (ca_entry x) \/
   exists f' k' x', history_written cs H uri_query glob calls f' k' x' /\ response_collision H x x').
Proof.
  intros cs H uq glob calls HL CS O PL CL DU st f k x X.
  destruct (C56_stored_is_certified_or_overlapped cs H uq glob calls CS O f k x X) as [(c & I & w) [Y|(f' & k' & x' & w' & NE & OV)]]; (split; [exists c; auto|]); [left; exact Y|right].
  assert (W : forall f k x, history_written cs H uq glob calls f k x -> exists A C, Forall plain_config C /\ written cs H uq glob A C f k x).
  { clear - PL. intros f k x (c & I & w). rewrite Forall_forall in PL. specialize (PL c I).
    destruct c as [o a cf|o a cf|]; destruct w as [w|w]; try contradiction; exists a, cf; (split; [exact PL|]); [exact w|left; exact w]. }
  assert (w0 : history_written cs H uq glob calls f k x) by (exists c; auto).
  destruct (W _ _ _ w0) as (A & C & PC & w1). destruct (W _ _ _ w') as (A' & C' & PC' & w1').
  destruct (overlap_same_place cs H uq glob A C A' C' f k x f' k' x' HL CS PC PC' w1 w1' (CL _ _ _ w0) (CL _ _ _ w') OV) as [(<- & P & E & R)|Co]; [|exists f', k', x'; auto].
  exfalso. apply NE. assert (Q : k_path k = k_path k') by (eapply DU; eassumption). destruct k, k'. cbn in *. congruence.
Qed.
Print Assumptions C56_stored_is_certified_partial.

(** Without the condition on urls it fails: with the same content at "/a/b" and "/a//b", deleting the
    latter takes away the certification of the former, which stays stored. *)
Definition slash_assets : list asset := [asset_new (bs "a/b") (bs "x"); asset_new (bs "a//b") (bs "x")].
Definition slash_calls : list call := [CallCertify (fun l => l) slash_assets []; CallDelete (fun l => l) [asset_new (bs "a//b") (bs "x")] []].
Definition slash_state : router := run_calls asset_chunk_size toy ex_query no_glob slash_calls router_new.
Theorem C56_deleting_another_url_refuted :
  Forall any_order slash_calls /\
  exists x, stored slash_state false (mk_key (bs "/a/b") None None) x /\ ~ certifies slash_state (ca_entry x).
Proof.
  split; [apply Forall_cons; [exact (fun l => Permutation_refl l)|apply Forall_cons; [exact (fun l => Permutation_refl l)|apply Forall_nil]]|].
  destruct (m_get key_eqb (mk_key (bs "/a/b") None None) (r_responses slash_state)) as [x|] eqn:E.
  - exists x. split; [exact E|]. unfold certifies.
    cut (match Some x with Some x => nget (entry_tree_path (ca_entry x)) (r_tree slash_state) | None => Some [] end = None); [intros -> Z; discriminate Z|]. rewrite <- E. vm_compute. reflexivity.
  - exfalso. revert E. vm_compute. intro Z; discriminate Z.
Qed.
Print Assumptions C56_deleting_another_url_refuted.
