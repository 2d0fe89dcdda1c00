(** C65: content encoding negotiation. *)
From Coq Require Import List Arith NArith Lia Bool Permutation.
From Verif Require Import Bytes Toy Text Nested HttpTypes HttpHash HttpSpec Cel Header HeaderSpec HeaderProofs Verify VerifySpec HttpTree HttpTreeSpec
  Props_Hash Props_Wildcard Props_Verify Props_HttpTree AssetRouter RangeSpec AssetSpec AssetProofs AssetEffect PreparedProofs Props_Router ServeSpec Props_Serve.
Import ListNotations.
Local Open Scope N_scope.

Lemma split_app_sep c s t : split_on c (s ++ c :: t) = split_on c s ++ split_on c t.
Proof.
  induction s as [|b s IH].
  - cbn. destruct (byte_eqb_spec c c) as [_|N]; [reflexivity|congruence].
  - cbn [app split_on]. rewrite IH. destruct (byte_eqb b c); [reflexivity|]. assert (N := split_on_ne c s). destruct (split_on c s) as [|p ps]; [congruence|reflexivity].
Qed.
Lemma join_mid c l it r : exists a b, join [c] (l ++ it :: r) = a ++ it ++ b /\ (a = [] \/ exists a', a = a' ++ [c]) /\ (b = [] \/ exists b', b = c :: b').
Proof.
  induction l as [|p l (a & b & E & A & B)].
  - destruct r as [|q r]; [exists [], []; cbn; rewrite app_nil_r; auto|]. exists [], (c :: join [c] (q :: r)). split; [reflexivity|]. split; [auto|right; eauto].
  - assert (J : join [c] ((p :: l) ++ it :: r) = p ++ [c] ++ join [c] (l ++ it :: r)) by (destruct l; reflexivity).
    exists (p ++ [c] ++ a), b. split; [rewrite J, E, <- !app_assoc; reflexivity|]. split; [|exact B]. right. destruct A as [->|(a' & ->)]; [exists p; rewrite app_nil_r; reflexivity|].
    exists (p ++ [c] ++ a'). rewrite <- !app_assoc. reflexivity.
Qed.
Lemma item_split c s it : In it (split_on c s) <-> item_of c s it.
Proof.
  split.
  - intro I. split; [exact (proj1 (Forall_forall _ _) (split_on_pieces c s) it I)|]. apply in_split in I. destruct I as (l & r & E).
    destruct (join_mid c l it r) as (a & b & J & A & B). exists a, b. split; [|auto]. rewrite <- (join_split c s), E. exact J.
  - intros (F & a & b & -> & A & B).
    assert (X : In it (split_on c (it ++ b))).
    { destruct B as [->|(b' & ->)]; [rewrite app_nil_r, (split_on_free c it F); left; reflexivity|rewrite (split_on_app c it b' F); left; reflexivity]. }
    destruct A as [->|(a' & ->)]; [exact X|]. rewrite <- app_assoc. cbn [app]. rewrite split_app_sep. apply in_or_app. right. exact X.
Qed.
Lemma split_first c s : exists p ps, split_on c s = p :: ps /\ ~ In c p /\ exists t, s = p ++ t /\ (t = [] \/ exists u, t = c :: u).
Proof.
  assert (N := split_on_ne c s). assert (J := join_split c s). assert (F := split_on_pieces c s). destruct (split_on c s) as [|p ps]; [congruence|]. exists p, ps. split; [reflexivity|].
  inversion F; subst. split; [assumption|]. destruct ps as [|q ps]; [exists []; split; [cbn; rewrite app_nil_r; reflexivity|auto]|exists (c :: join [c] (q :: ps)); split; [reflexivity|eauto]].
Qed.
Lemma first_piece c n params : ~ In c n -> (params = [] \/ exists p, params = c :: p) -> exists ps, split_on c (n ++ params) = n :: ps.
Proof. intros F [->|(p & ->)]; [exists []; rewrite app_nil_r; apply split_on_free, F|exists (split_on c p); apply split_on_app, F]. Qed.
Definition item_name (e : bytes) : bytes := trim (match split_on ";" e with x :: _ => x | [] => [] end).
Lemma prioritized_in sort s n : sorts sort -> (In n (prioritized_encodings sort s) <-> exists it, item_of "," s it /\ n = item_name it).
Proof.
  intro S. unfold prioritized_encodings. rewrite in_map_iff. split.
  - intros ([m q] & <- & I). apply (Permutation_in _ (proj1 (S _))) in I. apply in_map_iff in I. destruct I as (it & E & I). cbv zeta in E. injection E as <- _. exists it. split; [apply item_split, I|reflexivity].
  - intros (it & I & ->). exists (item_name it, encoding_quality (item_name it)). split; [reflexivity|]. apply (Permutation_in _ (Permutation_sym (proj1 (S _)))). apply in_map_iff. exists it. split; [reflexivity|apply item_split, I].
Qed.
Lemma item_name_names s it : item_of "," s it -> item_name it <> [] -> names_encoding s (item_name it).
Proof.
  intros I N. destruct (split_first ";" it) as (p & ps & E & F & t & Et & T). exists it, p, t. split; [exact I|]. split; [exact Et|]. split; [exact F|]. split; [exact T|].
  unfold item_name in *. rewrite E in *. destruct (proj1 (trim_spec p (trim p) N) eq_refl) as (a & b & A & B & Ep & _). exists a, b. auto.
Qed.
(** no white space at either end *)
Definition tight (e : bytes) : Prop := e <> [] /\ (forall w s, In w ws_chars -> e <> w ++ s) /\ (forall w s, In w ws_chars -> e <> s ++ w).
Lemma encoding_tight e : tight (encoding_name e).
Proof.
  split; [destruct e; intro Z; discriminate Z|]. split.
  - intros w s I E. apply (f_equal (fun x => bprefix w x)) in E. assert (P : bprefix w (w ++ s) = true) by (clear; induction w as [|b w IH]; cbn; [reflexivity|]; destruct (byte_eqb_spec b b); [exact IH|congruence]).
    rewrite P in E. revert w I P E. clear. intros w I _. unfold ws_chars in I. repeat (destruct I as [<-|I]; [destruct e; vm_compute; discriminate|]). destruct I.
  - intros w s I E. apply (f_equal (fun x => bprefix (rev w) (rev x))) in E. rewrite rev_app_distr in E.
    assert (P : bprefix (rev w) (rev w ++ rev s) = true) by (clear; induction (rev w) as [|b v IH]; cbn; [reflexivity|]; destruct (byte_eqb_spec b b); [exact IH|congruence]).
    rewrite P in E. revert w I P E. clear. intros w I _. unfold ws_chars in I. repeat (destruct I as [<-|I]; [destruct e; vm_compute; discriminate|]). destruct I.
Qed.
Lemma names_item s e : tight e -> names_encoding s e -> exists it, item_of "," s it /\ e = item_name it.
Proof.
  intros (N & L & R) (it & n & params & I & -> & F & P & (a & b & A & B & E)). exists (n ++ params). split; [exact I|]. unfold item_name. destruct (first_piece ";" n params F P) as (ps & ->).
  symmetry. apply trim_spec; [exact N|]. exists a, b. auto.
Qed.
Lemma preferred_accepts sort rq n : sorts sort -> n <> [] -> In n (get_preferred_encodings sort rq) -> accepts_encoding (rq_headers rq) n.
Proof.
  intros S N I. unfold get_preferred_encodings in I. assert (F := first_header_spec (bs "accept-encoding") (rq_headers rq) eq_refl).
  destruct (first_header (bs "accept-encoding") (rq_headers rq)) as [v|]; [|destruct I]. exists v. split; [exact F|].
  apply (prioritized_in sort v n S) in I. destruct I as (it & I & ->). apply item_name_names; assumption.
Qed.
Lemma accepts_preferred sort rq e : sorts sort -> accepts_encoding (rq_headers rq) (encoding_name e) -> In (encoding_name e) (get_preferred_encodings sort rq).
Proof.
  intros S (v & F & A). unfold get_preferred_encodings. assert (F' := first_header_spec (bs "accept-encoding") (rq_headers rq) eq_refl).
  destruct (first_header (bs "accept-encoding") (rq_headers rq)) as [v'|]; [|exfalso; exact (first_value_no_header _ _ _ F F')].
  assert (v' = v) by (eapply first_value_fun; eassumption). subst v'. apply prioritized_in; [exact S|]. apply names_item; [apply encoding_tight|exact A].
Qed.
Definition enc_rank (e : encoding) : N := match e with Brotli => 5 | Zstd => 4 | Gzip => 3 | Deflate => 2 | Identity => 0 end.
Lemma sorted_before sort rq l n r m : sorts sort -> get_preferred_encodings sort rq = l ++ n :: r -> In m r -> encoding_quality m <= encoding_quality n.
Proof.
  intros S E I. unfold get_preferred_encodings in E. destruct (first_header (bs "accept-encoding") (rq_headers rq)) as [v|]; [|destruct l; discriminate].
  unfold prioritized_encodings in E. remember (map (fun e => let n := trim (match split_on ";" e with x :: _ => x | [] => [] end) in (n, encoding_quality n)) (split_on "," v)) as M eqn:EM.
  assert (SM := S M). remember (sort M) as L eqn:EL. destruct SM as [PM SD].
  assert (Q : forall x, In x L -> snd x = encoding_quality (fst x)).
  { intros x X. apply (Permutation_in _ PM) in X. rewrite EM in X. apply in_map_iff in X. destruct X as (it & <- & _). reflexivity. }
  clear PM EM EL M. apply in_split in I. destruct I as (r1 & r2 & ->). 
  assert (X : exists a x b y c, L = a ++ x :: b ++ y :: c /\ fst x = n /\ fst y = m).
  { symmetry in E. clear SD Q. assert (E' : map fst L = l ++ n :: r1 ++ m :: r2) by congruence. clear E. revert l E'. induction L as [|z L IH]; intros l E'; [destruct l; discriminate|]. cbn [map] in E'. destruct l as [|q l]; injection E' as E1 E2.
    - apply map_eq_app in E2. destruct E2 as (b & c & -> & _ & Ec). destruct c as [|y c]; [discriminate|]. injection Ec as Ey _. exists [], z, b, y, c. auto.
    - destruct (IH l E2) as (a & x & b & y & c & -> & X). exists (z :: a), x, b, y, c. auto. }
  destruct X as (a & x & b & y & c & -> & <- & <-). rewrite <- (Q x), <- (Q y).
  - exact (SD a x b y c eq_refl).
  - apply in_or_app; right; right; apply in_or_app; right; left; reflexivity.
  - apply in_or_app; right; left; reflexivity.
Qed.

Lemma rank_quality n n' r r' : rank n r -> rank n' r' -> encoding_quality n' <= encoding_quality n -> r' <= r.
Proof.
  assert (F : forall a b, lower a = lower b -> eq_nocase a b = true) by (intros a b; apply eq_nocase_eq).
  assert (Q : forall m q, rank m q -> encoding_quality m = match q with 5 => 10 | 4 => 9 | 3 => 8 | 2 => 7 | 0 => 5 | _ => 6 end).
  { intros m q [[S ->]|[[S ->]|[[S ->]|[[S ->]|[[S ->]|[S ->]]]]]]; unfold encoding_quality, eq_nocase; try (apply same_name_lower in S; rewrite S; reflexivity).
    assert (X : forall x, In x [bs "br"; bs "zstd"; bs "gzip"; bs "deflate"; bs "identity"] -> bytes_eqb (lower m) (lower x) = false).
    { intros x I. destruct (bytes_eqb (lower m) (lower x)) eqn:E; [|reflexivity]. exfalso. apply bytes_eqb_eq in E. apply (S x I). apply same_name_lower. exact E. }
    rewrite !X by (simpl; auto 10). reflexivity. }
  assert (D : forall m q, rank m q -> q = 5 \/ q = 4 \/ q = 3 \/ q = 2 \/ q = 0 \/ q = 1) by (intros m q; unfold rank; tauto).
  intros A B L. rewrite (Q _ _ A), (Q _ _ B) in L. destruct (D _ _ A) as [->|[->|[->|[->|[->| ->]]]]], (D _ _ B) as [->|[->|[->|[->|[->| ->]]]]]; lia.
Qed.
Lemma written_encoding cs H uq glob A C f k x : 0 < cs -> written cs H uq glob A C f k x -> exists enc, k_encoding k = encoding_str enc.
Proof.
  intros CS w. apply C67_written_is_configured in w; [|exact CS].
  destruct w as [cfgs a c enc u x N V U P|cfgs a c enc u i before body after x N V U E L D B P|cfgs a c enc fb x N V I P|from to kind x I P]; cbn [k_encoding]; [exists enc|exists enc|exists enc|exists None]; reflexivity.
Qed.
Lemma first_choice_best cs H uq glob st sort rq f u range e x : 0 < cs -> reachable cs H uq glob st -> sorts sort ->
  first_choice st f u (get_preferred_encodings sort rq) range e x ->
  match e with
  | Some n => accepts_encoding (rq_headers rq) n /\
      forall n' y r r', accepts_encoding (rq_headers rq) n' -> stored st f (mk_key u (Some n') range) y -> rank n r -> rank n' r' -> r' <= r
  | None => forall n' y, accepts_encoding (rq_headers rq) n' -> ~ stored st f (mk_key u (Some n') range) y
  end.
Proof.
  intros CS R S (b & a & E & X & N).
  assert (K : forall n y, stored st f (mk_key u (Some n) range) y -> exists c, n = encoding_name c).
  { intros n y Y. destruct (reachable_written cs H uq glob CS st _ _ _ R Y) as (A & C & w). destruct (written_encoding _ _ _ _ _ _ _ _ _ CS w) as ([c|] & Q); cbn in Q; [injection Q as ->; eauto|discriminate Q]. }
  destruct e as [n|].
  - assert (NN : n <> []) by (destruct (K n x X) as (c & ->); destruct c; intro Z; discriminate Z).
    destruct (exists_last (l := a)) as (a' & z & Ea). { intro Z. subst a. apply app_inj_tail in E. destruct E as [_ E]. discriminate E. }
    subst a. change (b ++ Some n :: a' ++ [z]) with (b ++ (Some n :: a') ++ [z]) in E. rewrite app_assoc in E. apply app_inj_tail in E. destruct E as [E _].
    apply map_eq_app in E. destruct E as (l & l2 & EP & Eb & E2). destruct l2 as [|n0 r]; [discriminate|]. injection E2 as -> Er.
    split; [apply (preferred_accepts sort); [exact S|exact NN|rewrite EP; apply in_or_app; right; left; reflexivity]|].
    intros n' y q q' AC Y Q Q'. destruct (K n' y Y) as (c & ->). assert (I := accepts_preferred sort rq c S AC). rewrite EP in I. apply in_app_or in I. destruct I as [I|[Z|I]].
    + exfalso. apply (N (Some (encoding_name c)) y); [rewrite <- Eb; apply in_map, I|exact Y].
    + rewrite Z in Q. eapply rank_quality; [exact Q|exact Q'|lia].
    + eapply rank_quality; [exact Q|exact Q'|]. eapply sorted_before; [exact S|exact EP|exact I].
  - intros n' y AC Y. destruct (K n' y Y) as (c & ->). assert (I := accepts_preferred sort rq c S AC). apply (in_map Some) in I.
    destruct a as [|z a]; [|].
    + apply app_inj_tail in E. destruct E as [E _]. rewrite E in I. exact (N _ y I Y).
    + exfalso. destruct (exists_last (l := z :: a)) as (a' & w & Ea); [discriminate|]. rewrite Ea in E. change (b ++ None :: a' ++ [w]) with (b ++ (None :: a') ++ [w]) in E. rewrite app_assoc in E. apply app_inj_tail in E. destruct E as [E _].
      apply map_eq_app in E. destruct E as (l & l2 & _ & _ & E2). destruct l2; discriminate.
Qed.
(** The response picked is in an encoding that the request's Accept-Encoding header names, or in none; and of the
    encodings named and stored for the same place it is one with the highest rank in the router's own order. *)
Theorem C65_served_encoding_is_accepted :
  forall (cs : N) (H : bytes -> bytes) uri_query glob (st : router) sort (rq : request) (path : bytes) (range : option N) (f : bool) (c : certified),
  0 < cs -> reachable cs H uri_query glob st -> sorts sort ->
  get_asset_for_request cs st path (get_preferred_encodings sort rq) range = Some (f, c) ->
  exists k, stored st f k c /\
  let range' := if f then None else range in
  match k_encoding k with
  | Some n =>
      In (bs "content-encoding", n) (rs_headers (ca_response c)) /\ accepts_encoding (rq_headers rq) n /\
      forall n' y r r', accepts_encoding (rq_headers rq) n' -> stored st f (mk_key (k_path k) (Some n') range') y -> rank n r -> rank n' r' -> r' <= r
  | None => forall n' y, accepts_encoding (rq_headers rq) n' -> ~ stored st f (mk_key (k_path k) (Some n') range') y
  end.
Proof.
  intros cs H uq glob st sort rq path range f c CS R S E. destruct (C62_which_response cs H uq glob st path (get_preferred_encodings sort rq) range CS R) as (A & B & _).
  assert (HD : forall k n, stored st f k c -> k_encoding k = Some n -> In (bs "content-encoding", n) (rs_headers (ca_response c))).
  { intros k n X Q. destruct (reachable_written cs H uq glob CS st _ _ _ R X) as (A' & C' & w). destruct (stored_place _ _ _ _ _ _ _ _ _ CS w) as (url & status & body & hs & ct & enc & rg & names & (P & _) & EN & _).
    rewrite P. cbn [rs_headers]. unfold content_headers. rewrite EN, Q. apply in_or_app; right. apply in_or_app; right. apply in_or_app; right. left. reflexivity. }
  destruct f.
  - apply B in E. destruct E as [(sc & e & _ & F & _) _]. assert (X : stored st true (mk_key sc e None) c) by (destruct F as (b & a & _ & X & _); exact X).
    exists (mk_key sc e None). split; [exact X|]. cbn [k_encoding k_path]. assert (Y := first_choice_best cs H uq glob st sort rq _ _ _ _ _ CS R S F). destruct e as [n|]; [split; [exact (HD _ _ X eq_refl)|exact Y]|exact Y].
  - apply A in E. destruct E as (e & x & F & D). assert (Y := first_choice_best cs H uq glob st sort rq _ _ _ _ _ CS R S F).
    destruct D as [[_ ->]|[_ X0]].
    + assert (X : stored st false (mk_key path e range) x) by (destruct F as (b & a & _ & X & _); exact X).
      exists (mk_key path e range). split; [exact X|]. cbn [k_encoding k_path]. destruct e as [n|]; [split; [exact (HD _ _ X eq_refl)|exact Y]|exact Y].
    + exists (mk_key path e (Some 0)). split; [exact X0|]. cbn [k_encoding k_path]. destruct e as [n|]; [split; [exact (HD _ _ X0 eq_refl)|exact Y]|exact Y].
Qed.
Print Assumptions C65_served_encoding_is_accepted.

(** Quality values are ignored: whoever refuses br ("q=0") and asks for gzip gets br when it is stored. *)
Definition picky_request : request := mk_request (bs "GET") (bs "/a") [(bs "Accept-Encoding", bs "gzip;q=1.0, br;q=0")] [].
Definition picky_items : list (bytes * N) := [(bs "gzip", 8); (bs "br", 10)].
Lemma picky_preferred sort : sorts sort -> get_preferred_encodings sort picky_request = [bs "br"; bs "gzip"].
Proof.
  intro S. transitivity (map fst (sort picky_items)).
  { unfold get_preferred_encodings. assert (F : first_header (bs "accept-encoding") (rq_headers picky_request) = Some (bs "gzip;q=1.0, br;q=0")) by reflexivity. rewrite F.
    unfold prioritized_encodings. apply (f_equal (fun l => map fst (sort l))). vm_compute. reflexivity. }
  destruct (S picky_items) as [P D]. apply Permutation_sym, Permutation_length_2_inv in P. destruct P as [P|P]; rewrite P; [|reflexivity].
  exfalso. assert (X := D [] (bs "gzip", 8) [] (bs "br", 10) [] P). cbn in X. lia.
Qed.
Theorem C65_quality_values_ignored_refuted :
  forall (cs : N) (H : bytes -> bytes) uri_query glob (st : router) sort (x : certified),
  0 < cs -> reachable cs H uri_query glob st -> sorts sort ->
  stored st false (mk_key (bs "/a") (Some (bs "br")) None) x -> N.of_nat (length (rs_body (ca_response x))) <= cs ->
  get_asset_for_request cs st (bs "/a") (get_preferred_encodings sort picky_request) None = Some (false, x).
Proof.
  intros cs H uq glob st sort x CS R S X L. rewrite (picky_preferred sort S). apply (C62_which_response cs H uq glob st _ _ None CS R).
  exists (Some (bs "br")), x. split; [|left; split; [exact L|reflexivity]]. exists [], [Some (bs "gzip"); None]. split; [reflexivity|]. split; [exact X|]. intros e' y [].
Qed.
Print Assumptions C65_quality_values_ignored_refuted.

(** A router to which all this applies: three encodings of "/a" and a fallback for "/". *)
Definition enc_assets : list asset := [asset_new (bs "a") (bs "plain"); asset_new (bs "a.gz") (bs "zipped"); asset_new (bs "a.br") (bs "br")].
Definition enc_configs : list asset_config :=
  [ConfigFile (bs "a") (Some (bs "text/plain")) [(bs "cache-control", bs "no-store")] [mk_fallback (bs "/") (Some 404)] [bs "/b"] [(Gzip, bs ".gz"); (Brotli, bs ".br")]].
Definition enc_call : call := CallCertify (fun l => l) enc_assets enc_configs.
Definition enc_state : router := fst (run_call 8 toy ex_query no_glob enc_call router_new).
Lemma enc_reachable : reachable 8 toy ex_query no_glob enc_state.
Proof. apply ReachCall; [|exact (fun l => Permutation_refl l)]. exact (ReachStart 8 toy ex_query no_glob [] ndefault eq_refl). Qed.
(** insertion sort *)
Fixpoint ins (x : bytes * N) (l : list (bytes * N)) : list (bytes * N) :=
  match l with [] => [x] | y :: r => if snd y <=? snd x then x :: l else y :: ins x r end.
Definition isort (l : list (bytes * N)) : list (bytes * N) := fold_right ins [] l.
Lemma ins_perm x l : Permutation (ins x l) (x :: l).
Proof. induction l as [|y r IH]; cbn [ins]; [apply Permutation_refl|]. destruct (snd y <=? snd x); [apply Permutation_refl|]. eapply Permutation_trans; [apply perm_skip, IH|apply perm_swap]. Qed.
Inductive desc : list (bytes * N) -> Prop := DNil : desc [] | DCons x l : Forall (fun y => snd y <= snd x) l -> desc l -> desc (x :: l).
Lemma ins_desc x l : desc l -> desc (ins x l).
Proof.
  induction 1 as [|y l F D IH]; cbn [ins]; [repeat constructor|]. destruct (snd y <=? snd x) eqn:E.
  - apply N.leb_le in E. constructor; [|constructor; assumption]. constructor; [exact E|]. eapply Forall_impl; [|exact F]. cbn. intros; lia.
  - apply N.leb_gt in E. constructor; [|exact IH]. apply (Permutation_Forall (Permutation_sym (ins_perm x l))). constructor; [lia|exact F].
Qed.
Lemma isort_sorts : sorts isort.
Proof.
  intro l. split.
  - induction l as [|x l IH]; [apply Permutation_refl|]. cbn [isort fold_right]. eapply Permutation_trans; [apply ins_perm|apply perm_skip, IH].
  - assert (D : desc (isort l)) by (induction l as [|x l IH]; [constructor|apply ins_desc, IH]). intros a x b y c E. rewrite E in D. clear E. induction a as [|z a IH]; [|inversion D; auto].
    inversion D as [|? ? F _]; subst. rewrite Forall_forall in F. apply F. apply in_or_app. right; left; reflexivity.
Qed.
Definition picked_body (st : router) (path accept : bytes) : option (bool * bytes) :=
  option_map (fun fc => (fst fc, rs_body (ca_response (snd fc)))) (get_asset_for_request 8 st path (get_preferred_encodings isort (mk_request (bs "GET") path [(bs "accept-encoding", accept)] [])) None).
Example C65_ex :
  reachable 8 toy ex_query no_glob enc_state /\ sorts isort /\
  picked_body enc_state (bs "/a") (bs "gzip, br") = Some (false, bs "br") /\
  picked_body enc_state (bs "/b") (bs "identity,gzip ; q=0.1") = Some (false, bs "zipped") /\
  picked_body enc_state (bs "/a") (bs "deflate") = Some (false, bs "plain") /\
  picked_body enc_state (bs "/x/y") (bs "gzip") = Some (true, bs "zipped") /\
  picked_body enc_state (bs "/a") (bs "gzip;q=1.0, br;q=0") = Some (false, bs "br") /\
  picked_body enc_state (bs "x") (bs "gzip") = None.
Proof. split; [exact enc_reachable|]. split; [exact isort_sorts|]. vm_compute. repeat split. Qed.
