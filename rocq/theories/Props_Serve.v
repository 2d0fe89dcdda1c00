(** C62, C66: which response serve_asset picks, and when it fails. *)
(** Concrete data that meets the hypotheses of these theorems: Props_RouterEx.v. *)
From Coq Require Import List Arith NArith Lia Bool Permutation.
From Verif Require Import Bytes Sha256 Utf8 Text HashTree HashTreeSpec RbTree Nested NestedSpec NestedProofs Cbor HttpTypes HttpHash HttpSpec Cel V2 Wildcard Verify VerifySpec HeaderSpec HttpTree HttpTreeSpec
  Props_Hash Props_Wildcard Props_Verify Props_HttpTree AssetRouter RangeSpec Props_Range AssetSpec AssetProofs AssetEffect PreparedProofs Props_Router ServeSpec.
Import ListNotations.
Local Open Scope N_scope.

(** ** First of the preferred encodings *)
Section First.
  Context {A B : Type} (f : A -> option B).
  Fixpoint first_hit (l : list A) : option B :=
    match l with [] => None | a :: r => match f a with Some b => Some b | None => first_hit r end end.
  Lemma first_hit_some l b : first_hit l = Some b <-> exists u a v, l = u ++ a :: v /\ f a = Some b /\ forall x, In x u -> f x = None.
  Proof.
    induction l as [|x l IH]; cbn [first_hit].
    - split; [discriminate|]. intros (u & a & v & E & _). destruct u; discriminate.
    - destruct (f x) as [y|] eqn:F; split.
      + intro E; injection E as <-. exists [], x, l. split; [reflexivity|]. split; [exact F|intros z []].
      + intros (u & a & v & E & G & N). destruct u as [|z u]; injection E as -> ->; [congruence|]. rewrite (N z) in F by (left; reflexivity). discriminate F.
      + intro E. apply IH in E. destruct E as (u & a & v & -> & G & N). exists (x :: u), a, v. split; [reflexivity|]. split; [exact G|]. intros z [<-|I]; auto.
      + intros (u & a & v & E & G & N). destruct u as [|z u]; injection E as -> ->; [congruence|]. apply IH. exists u, a, v. split; [reflexivity|]. split; [exact G|]. intros y I. apply N. right. exact I.
  Qed.
  Lemma first_hit_none l : first_hit l = None <-> forall x, In x l -> f x = None.
  Proof.
    induction l as [|x l IH]; cbn [first_hit]; [split; [intros _ y []|reflexivity]|]. destruct (f x) as [y|] eqn:F; split.
    - discriminate.
    - intro X. rewrite (X x) in F by (left; reflexivity). discriminate F.
    - intros E y [<-|I]; [exact F|]. apply IH; assumption.
    - intro X. apply IH. intros y I. apply X. right. exact I.
  Qed.
End First.
Lemma encoded_fallback_hit m pref sc : fallback_at m pref sc = first_hit (fun e => m_get key_eqb (mk_key sc e None) m) (map Some pref ++ [None]).
Proof.
  unfold fallback_at. induction pref as [|e pref IH]; cbn [get_encoded_fallback map app first_hit].
  - destruct (m_get key_eqb (mk_key sc None None) m); reflexivity.
  - destruct (m_get key_eqb (mk_key sc (Some e) None) m); [reflexivity|exact IH].
Qed.
Lemma first_choice_hit st f u pref range x :
  (exists e, first_choice st f u pref range e x) <-> first_hit (fun e => at_place st f (mk_key u e range)) (map Some pref ++ [None]) = Some x.
Proof.
  rewrite first_hit_some. split.
  - intros (e & b & a & E & S & N). exists b, e, a. split; [exact E|]. split; [exact S|]. intros e' I. destruct (at_place st f (mk_key u e' range)) as [y|] eqn:G; [|reflexivity]. exfalso. exact (N e' y I G).
  - intros (b & e & a & E & S & N). exists e, b, a. split; [exact E|]. split; [exact S|]. intros e' y I G. apply N in I. unfold stored in G. unfold at_place in I. congruence.
Qed.

(** ** Scopes *)
Lemma join_snoc l x : l <> [] -> join [("/"%byte)] (l ++ [x]) = join [("/"%byte)] l ++ bs "/" ++ x.
Proof.
  induction l as [|a [|b l] IH]; intro N; [congruence|reflexivity|]. change (join ["/"%byte] ((a :: b :: l) ++ [x])) with (a ++ ["/"%byte] ++ join ["/"%byte] ((b :: l) ++ [x])).
  rewrite IH by discriminate. change (join ["/"%byte] (a :: b :: l)) with (a ++ ["/"%byte] ++ join ["/"%byte] (b :: l)). rewrite <- !app_assoc. reflexivity.
Qed.
Fixpoint cands (rv : list bytes) : list bytes :=
  match rv with [] => [] | _ :: r => (join (bs "/") (rev rv) ++ bs "/") :: join (bs "/") (rev rv) :: cands r end.
Lemma loop_hit m pref rv : fallback_loop m pref rv = first_hit (fallback_at m pref) (cands rv).
Proof.
  induction rv as [|x r IH]; [reflexivity|]. cbn [fallback_loop cands first_hit]. destruct (fallback_at m pref (join (bs "/") (rev (x :: r)) ++ bs "/")); [reflexivity|].
  destruct (fallback_at m pref (join (bs "/") (rev (x :: r)))); [reflexivity|exact IH].
Qed.
Lemma cands_sorted rv : (forall u a v, cands rv = u ++ a :: v -> forall b, In b v -> (length b <= length a)%nat) /\
  (forall a, In a (cands rv) -> (length a <= length (join (bs "/") (rev rv)) + 1)%nat).
Proof.
  induction rv as [|x r [S M]]; [split; [intros u a v E; destruct u; discriminate|intros a []]|].
  set (j := join (bs "/") (rev (x :: r))).
  assert (M' : forall a, In a (cands r) -> (length a <= length j)%nat).
  { intros a I. specialize (M a I). destruct r as [|y r]; [destruct I|]. unfold j. cbn [rev] in *. change (bs "/") with ["/"%byte] in *. rewrite join_snoc; [|intro Z; apply app_eq_nil in Z; destruct Z; discriminate].
    rewrite !app_length. change (length (bs "/")) with 1%nat. lia. }
  cbn [cands]. fold j. split.
  - intros u a v E b I. destruct u as [|z [|z' u]]; injection E.
    + intros <- <-. rewrite app_length. destruct I as [<-|I]; [lia|]. specialize (M' b I). lia.
    + intros <- <- _. apply M', I.
    + intros E' _ _. exact (S u a v E' b I).
  - intros a [<-|[<-|I]]; [rewrite app_length; simpl; lia|lia|specialize (M' a I); lia].
Qed.
Lemma cands_in rv a : In a (cands rv) <-> exists u v, rv = u ++ v /\ v <> [] /\ (a = join (bs "/") (rev v) ++ bs "/" \/ a = join (bs "/") (rev v)).
Proof.
  induction rv as [|x r IH].
  - split; [intros []|]. intros (u & v & E & N & _). destruct u; [|discriminate]. destruct v; [congruence|discriminate].
  - cbn [cands]. split.
    + intros [<-|[<-|I]]; [exists [], (x :: r); split; [reflexivity|]; split; [discriminate|auto]..|]. apply IH in I. destruct I as (u & v & -> & N & D). exists (x :: u), v. split; [reflexivity|]. auto.
    + intros (u & v & E & N & D). destruct u as [|y u]; cbn [app] in E.
      * subst v. destruct D as [-> | ->]; [left; reflexivity|right; left; reflexivity].
      * injection E as -> ->. right; right. apply IH. exists u, v. auto.
Qed.
Lemma cands_scope path a : In a (cands (tl (rev (split_on "/" path)))) <-> scope_of path a.
Proof.
  rewrite cands_in. change (bs "/") with ["/"%byte]. split.
  - intros (u & v & E & N & D). destruct (rev (split_on "/" path)) as [|x r] eqn:R; [destruct u; [destruct v; [congruence|discriminate]|discriminate]|]. cbn [tl] in E.
    assert (SP : split_on "/" path = rev v ++ rev (x :: u)). { rewrite <- (rev_involutive (split_on "/" path)), R, E. rewrite <- rev_app_distr. reflexivity. }
    exists (join ["/"%byte] (rev v)), (join ["/"%byte] (rev (x :: u))). split; [|exact D].
    rewrite <- (join_split "/" path), SP.
    assert (NV : rev v <> []) by (intro Z; apply N; rewrite <- (rev_involutive v), Z; reflexivity).
    assert (NU : rev (x :: u) <> []) by (cbn [rev]; intro Z; apply app_eq_nil in Z; destruct Z; discriminate).
    clear - NV NU. revert NV. generalize (rev v) as a. generalize dependent (rev (x :: u)). intros b NB. induction a as [|y [|z a] IH]; intro NA; [congruence| |].
    + destruct b as [|z b]; [congruence|reflexivity].
    + change (join ["/"%byte] ((y :: z :: a) ++ b)) with (y ++ ["/"%byte] ++ join ["/"%byte] ((z :: a) ++ b)). rewrite IH by discriminate.
      change (join ["/"%byte] (y :: z :: a)) with (y ++ ["/"%byte] ++ join ["/"%byte] (z :: a)). rewrite <- !app_assoc. reflexivity.
  - intros (s & rest & E & D). subst path. change (s ++ bs "/" ++ rest) with (s ++ "/"%byte :: rest). rewrite split_app_slash, rev_app_distr.
    assert (NR := split_on_ne "/" rest). destruct (rev (split_on "/" rest)) as [|x r] eqn:R; [exfalso; apply NR; rewrite <- (rev_involutive (split_on "/" rest)), R; reflexivity|].
    cbn [app tl]. exists r, (rev (split_on "/" s)). split; [reflexivity|]. split.
    + intro Z. apply (split_on_ne "/" s). rewrite <- (rev_involutive (split_on "/" s)), Z. reflexivity.
    + rewrite rev_involutive, join_split. exact D.
Qed.
Lemma scope_prefix path sc : scope_of path sc -> exists r, path = sc ++ r.
Proof. intros (s & r & -> & [-> | ->]); [exists r; rewrite <- app_assoc; reflexivity|eexists; reflexivity]. Qed.
Lemma scope_length path a b : scope_of path a -> scope_of path b -> length a = length b -> a = b.
Proof. intros A B L. destruct (scope_prefix _ _ A) as (r & E). destruct (scope_prefix _ _ B) as (r' & E'). rewrite E in E'. apply app_inj_len in E'; [apply E'|exact L]. Qed.
Lemma pref_in pref e : In e (map Some pref ++ [None]) <-> e = None \/ exists n : bytes, e = Some n /\ In n pref.
Proof.
  rewrite in_app_iff, in_map_iff. split.
  - intros [(n & <- & I)|[<-|[]]]; [right; eauto|auto].
  - intros [->|(n & -> & I)]; [right; left; reflexivity|left; eauto].
Qed.
Lemma fallback_at_hit st pref sc : fallback_at (r_fallbacks st) pref sc = first_hit (fun e => at_place st true (mk_key sc e None)) (map Some pref ++ [None]).
Proof. apply encoded_fallback_hit. Qed.
Lemma fallback_loop_choice st path pref c : fallback_loop (r_fallbacks st) pref (tl (rev (split_on "/" path))) = Some c <-> fallback_choice st path pref c.
Proof.
  rewrite loop_hit, first_hit_some. set (rv := tl (rev (split_on "/" path))). assert (IS : forall a, In a (cands rv) <-> scope_of path a) by (intro a; apply cands_scope).
  destruct (cands_sorted rv) as [SO _]. split.
  - intros (u & sc & v & E & F & N). rewrite fallback_at_hit in F. apply first_choice_hit in F. destruct F as (e & F).
    exists sc, e. split; [apply IS; rewrite E; apply in_or_app; right; left; reflexivity|]. split; [exact F|].
    intros sc' e' y S' L I X. apply IS in S'. rewrite E in S'. apply in_app_or in S'. destruct S' as [I'|[<-|I']].
    + apply N in I'. rewrite fallback_at_hit in I'. apply (proj1 (first_hit_none _ _)) with (x := e') in I'; [|apply pref_in; exact I]. unfold at_place in I'. unfold stored in X. congruence.
    + lia.
    + assert (Y := SO u sc v E sc' I'). lia.
  - intros (sc & e & S & F & N). apply IS in S. apply in_split in S. destruct S as (u & v & E).
    assert (FA : fallback_at (r_fallbacks st) pref sc = Some c) by (rewrite fallback_at_hit; apply first_choice_hit; exists e; exact F).
    destruct (first_hit (fallback_at (r_fallbacks st) pref) (cands rv)) as [c'|] eqn:FH.
    + apply first_hit_some in FH. destruct FH as (u' & sc' & v' & E' & F' & N').
      destruct (Nat.eq_dec (length sc') (length sc)) as [L|L].
      * assert (sc' = sc). { apply (scope_length path); [apply IS; rewrite E'; apply in_or_app; right; left; reflexivity|apply IS; rewrite E; apply in_or_app; right; left; reflexivity|exact L]. }
        subst sc'. exists u', sc, v'. auto.
      * exfalso. assert (I : In sc (u' ++ sc' :: v')) by (rewrite <- E', E; apply in_or_app; right; left; reflexivity). apply in_app_or in I. destruct I as [I|[<-|I]].
        -- rewrite (N' _ I) in FA. discriminate FA.
        -- congruence.
        -- assert (Y := SO u' sc' v' E' sc I). rewrite fallback_at_hit in F'. apply first_choice_hit in F'. destruct F' as (e' & b & a & EE & X & _).
           apply (N sc' e' c'); [apply IS; rewrite E'; apply in_or_app; right; left; reflexivity|lia|apply pref_in; rewrite EE; apply in_or_app; right; left; reflexivity|exact X].
    + exfalso. rewrite (proj1 (first_hit_none _ _) FH sc) in FA by (rewrite E; apply in_or_app; right; left; reflexivity). discriminate FA.
Qed.

(** ** A whole asset larger than the chunk size has its first chunk stored *)
Section FirstChunk.
  Variables (cs : N) (H : bytes -> bytes) (uri_query : bytes -> option (option bytes)) (glob : bytes -> option (bytes -> bool)).
  Definition big (x : certified) : Prop := cs < N.of_nat (length (rs_body (ca_response x))).
  Definition chunked (st : router) : Prop := forall u e x, stored st false (mk_key u e None) x -> big x -> exists y, stored st false (mk_key u e (Some 0)) y.
  Definition kept (A : act) : Prop := forall st, chunked st -> chunked (fst (A st)).
  Lemma kept_done : kept done. Proof. intros st X. exact X. Qed.
  Lemma kept_seq A B : kept A -> kept B -> kept (seq A B).
  Proof. intros KA KB st X. unfold seq. assert (Y := KA st X). destruct (A st) as [s o]. cbn [fst] in Y. destruct o; cbn [fst]; auto. Qed.
  Lemma kept_each {A} (f : A -> act) l : (forall x, kept (f x)) -> kept (each f l).
  Proof. intro F. induction l as [|x l IH]; [apply kept_done|]. apply kept_seq; auto. Qed.
  Lemma kept_attempt {A} (o : option A) f : (forall a, o = Some a -> kept (f a)) -> kept (attempt o f).
  Proof. intro F. destruct o as [a|]; [apply F; reflexivity|]. intros st X. exact X. Qed.
  Lemma tree_act_stores o st : r_responses (fst (tree_act H o st)) = r_responses st.
  Proof. unfold tree_act. destruct (nstep H (r_tree st) (http_nop o)); reflexivity. Qed.
  Lemma kept_same A : (forall st, r_responses (fst (A st)) = r_responses st) -> kept A.
  Proof. intros E st X u e x. unfold stored. rewrite E. apply X. Qed.
  Lemma kept_insert_chunk u e b c : kept (on_responses (m_insert key_eqb (mk_key u e (Some b)) c)).
  Proof.
    intros st X u' e' x. unfold stored, on_responses. cbn [fst r_responses]. rewrite !(m_get_insert key_eqb key_eqb_eq). 
    destruct (key_eqb (mk_key u' e' None) (mk_key u e (Some b))) eqn:Q; [apply key_eqb_eq in Q; discriminate Q|]. intros S B.
    destruct (key_eqb (mk_key u' e' (Some 0)) (mk_key u e (Some b))); [eauto|]. exact (X u' e' x S B).
  Qed.
  Lemma kept_insert_small u e c : ~ big c -> kept (on_responses (m_insert key_eqb (mk_key u e None) c)).
  Proof.
    intros NB st X u' e' x. unfold stored, on_responses. cbn [fst r_responses]. rewrite !(m_get_insert key_eqb key_eqb_eq).
    destruct (key_eqb (mk_key u' e' None) (mk_key u e None)) eqn:Q.
    - intros S B. injection S as <-. contradiction.
    - intros S B. destruct (key_eqb (mk_key u' e' (Some 0)) (mk_key u e None)) eqn:Q'; [apply key_eqb_eq in Q'; discriminate Q'|]. exact (X u' e' x S B).
  Qed.
  Lemma key_neq a b : a <> b -> key_eqb a b = false.
  Proof. intro N. destruct (key_eqb a b) eqn:E; [|reflexivity]. apply key_eqb_eq in E. contradiction. Qed.
  Lemma chunked_insert_whole st u e c y : chunked st -> stored st false (mk_key u e (Some 0)) y -> chunked (fst (on_responses (m_insert key_eqb (mk_key u e None) c) st)).
  Proof.
    intros X S u' e' x. unfold stored, on_responses in *. cbn [fst r_responses]. rewrite !(m_get_insert key_eqb key_eqb_eq). rewrite (key_neq (mk_key u' e' (Some 0))) by (intro Z; discriminate Z).
    destruct (key_eqb (mk_key u' e' None) (mk_key u e None)) eqn:Q; [|intros S' B; exact (X u' e' x S' B)].
    apply key_eqb_eq in Q. injection Q as -> ->. intros _ _. exists y. exact S.
  Qed.
  Lemma insert_one_stored a c enc u range st st' : insert_one cs H uri_query a c enc u range st = (st', OOk tt) -> exists y, stored st' false (mk_key u (encoding_str enc) range) y.
  Proof.
    unfold insert_one. intro E. apply attempt_ok in E. destruct E as (x & _ & E). unfold put_act, seq in E.
    destruct (tree_act H (HInsert (ca_entry x)) st) as [s o]. destruct o as [[]| | |]; try discriminate. unfold on_responses in E. injection E as <-.
    exists x. unfold stored. cbn [r_responses]. rewrite (m_get_insert key_eqb key_eqb_eq), (proj2 (key_eqb_eq _ _) eq_refl). reflexivity.
  Qed.
  Lemma insert_one_keeps a c enc u range b st y : stored st false b y -> exists y, stored (fst (insert_one cs H uri_query a c enc u range st)) false b y.
  Proof.
    intro S. unfold insert_one. destruct (prepare_static cs H uri_query (aliased a u) (content_type_of c) (headers_of c) enc range) as [x|]; cbn [attempt]; [|exists y; exact S].
    unfold put_act, seq. assert (T := tree_act_stores (HInsert (ca_entry x)) st). destruct (tree_act H (HInsert (ca_entry x)) st) as [s o]. cbn [fst] in T. 
    unfold stored in *. destruct o; cbn [fst on_responses r_responses]; rewrite ?T; eauto. rewrite (m_get_insert key_eqb key_eqb_eq). destruct (key_eqb b (mk_key u (encoding_str enc) range)); eauto.
  Qed.
  Lemma each_chunks_keep a c enc u l : forall b y st, stored st false b y -> exists y, stored (fst (each (fun r => insert_one cs H uri_query a c enc u (Some r)) l st)) false b y.
  Proof.
    induction l as [|r l IH]; intros b y st S; [exists y; exact S|]. cbn [each]. unfold seq. destruct (insert_one_keeps a c enc u (Some r) b st y S) as (y1 & S1).
    destruct (insert_one cs H uri_query a c enc u (Some r) st) as [s o]. cbn [fst] in S1. destruct o; cbn [fst]; eauto.
  Qed.
  Lemma each_chunks_stored a c enc u l b : In b l -> forall st st', each (fun r => insert_one cs H uri_query a c enc u (Some r)) l st = (st', OOk tt) ->
    exists y, stored st' false (mk_key u (encoding_str enc) (Some b)) y.
  Proof.
    induction l as [|r l IH]; intros I st st' E; [destruct I|]. cbn [each] in E. unfold seq in E.
    destruct (insert_one cs H uri_query a c enc u (Some r) st) as [s o] eqn:E1. destruct o as [[]| | |]; try discriminate.
    destruct I as [->|I]; [|exact (IH I _ _ E)]. destruct (insert_one_stored _ _ _ _ _ _ _ E1) as (y & S).
    assert (X := each_chunks_keep a c enc u l _ y s S). rewrite E in X. exact X.
  Qed.
  Lemma kept_insert_one a c enc u b : kept (insert_one cs H uri_query a c enc u (Some b)).
  Proof. apply kept_attempt. intros x _. apply kept_seq; [apply kept_same; intro; apply tree_act_stores|apply kept_insert_chunk]. Qed.
  Hypothesis CS : 0 < cs.
  Lemma kept_insert_static a c enc u : kept (insert_static cs H uri_query (aliased a u) (content_type_of c) (headers_of c) enc).
  Proof.
    rewrite insert_static_eq. destruct (cs <? N.of_nat (length (as_content a))) eqn:L.
    - apply N.ltb_lt in L. intros st X. unfold seq.
      assert (X1 := kept_each _ (range_begins cs (N.of_nat (length (as_content a)))) (kept_insert_one a c enc u) st X).
      destruct (each (fun b => insert_one cs H uri_query a c enc u (Some b)) (range_begins cs (N.of_nat (length (as_content a)))) st) as [s o] eqn:E. cbn [fst] in X1.
      destruct o as [[]| | |]; try exact X1.
      assert (Z : In 0 (range_begins cs (N.of_nat (length (as_content a))))) by (apply (range_begins_spec cs _ 0 CS); exists 0; split; lia).
      destruct (each_chunks_stored a c enc u _ 0 Z st s E) as (y & S).
      unfold insert_one. destruct (prepare_static cs H uri_query (aliased a u) (content_type_of c) (headers_of c) enc None) as [x|]; cbn [attempt]; [|exact X1].
      unfold put_act, seq. assert (T := tree_act_stores (HInsert (ca_entry x)) s). destruct (tree_act H (HInsert (ca_entry x)) s) as [s2 o2]. cbn [fst] in T.
      assert (X2 : chunked s2) by (intros u' e' x'; unfold stored; rewrite T; apply X1).
      destruct o2; try exact X2. apply (chunked_insert_whole s2 u (encoding_str enc) x y X2). unfold stored. rewrite T. exact S.
    - apply N.ltb_ge in L. apply kept_seq; [apply kept_done|]. apply kept_attempt. intros x E. apply kept_seq; [apply kept_same; intro; apply tree_act_stores|].
      apply kept_insert_small. unfold big. rewrite (static_body _ _ _ _ _ _ _ _ E). change (as_content (aliased a u)) with (as_content a). lia.
  Qed.
  Lemma kept_insert_static' a ct hs enc : kept (insert_static cs H uri_query a ct hs enc).
  Proof.
    rewrite <- (aliased_self a) at 1. exact (kept_insert_static a (Some (NPattern (fun _ => true) ct hs [])) enc (as_url a)).
  Qed.
  Lemma gone_each_forget u e l st : m_get key_eqb (mk_key u e None) (r_responses st) = None -> chunked st ->
    chunked (fst (each (fun b => on_responses (m_remove key_eqb (mk_key u e (Some b)))) l st)).
  Proof.
    revert st. induction l as [|b l IH]; intros st G X; [exact X|]. cbn [each]. unfold seq at 1. unfold on_responses at 1. apply IH.
    - cbn [r_responses]. rewrite (m_get_remove key_eqb key_eqb_eq), G. destruct (key_eqb _ _); reflexivity.
    - intros u' e' x. unfold stored. cbn [r_responses]. rewrite !(m_get_remove key_eqb key_eqb_eq). rewrite (key_neq (mk_key u' e' None)) by (intro Z; discriminate Z). intros S B.
      destruct (key_eqb (mk_key u' e' (Some 0)) (mk_key u e (Some b))) eqn:Q; [|exact (X u' e' x S B)]. apply key_eqb_eq in Q. injection Q as -> -> _. congruence.
  Qed.
  Lemma kept_remove_whole u e : kept (on_responses (m_remove key_eqb (mk_key u e None))).
  Proof.
    intros st X u' e' x. unfold stored, on_responses. cbn [fst r_responses]. rewrite !(m_get_remove key_eqb key_eqb_eq).
    destruct (key_eqb (mk_key u' e' None) (mk_key u e None)); [discriminate|]. rewrite (key_neq (mk_key u' e' (Some 0))) by (intro Z; discriminate Z). apply X.
  Qed.
  Lemma kept_delete_static a ct hs enc : kept (delete_static cs H uri_query a ct hs enc).
  Proof.
    apply kept_attempt. intros x _. intros st X. unfold seq at 1. assert (T := tree_act_stores (HDelete (ca_entry x)) st). destruct (tree_act H (HDelete (ca_entry x)) st) as [s o]. cbn [fst] in T.
    assert (X2 : chunked s) by (intros u' e' x'; unfold stored; rewrite T; apply X).
    destruct o; try exact X2. unfold seq. assert (X3 := kept_remove_whole (as_url a) (encoding_str enc) s X2). unfold on_responses at 1 in X3. unfold on_responses at 1. cbn [fst] in X3.
    cbv zeta. destruct (cs <? N.of_nat (length (rs_body (ca_response x)))); [|exact X3].
    apply gone_each_forget; [|exact X3]. cbn [r_responses]. rewrite (m_get_remove key_eqb key_eqb_eq), (proj2 (key_eqb_eq _ _) eq_refl). reflexivity.
  Qed.
  Lemma kept_fallbacks A f : (forall st, r_responses (fst (A st)) = r_responses st) -> kept (seq A (on_fallbacks f)).
  Proof. intro E. apply kept_seq; [apply kept_same, E|]. apply kept_same. reflexivity. Qed.
  Lemma kept_certify_asset a c enc : kept (certify_asset cs H uri_query a c enc).
  Proof.
    destruct c as [[p ct hs fbs als encs|p ct hs encs|f t k]|]; cbn [certify_asset]; try apply kept_insert_static'.
    apply kept_seq; [apply kept_insert_static'|]. apply kept_seq; apply kept_each; [intro fb|intro u; apply kept_insert_static'].
    apply kept_attempt. intros x _. apply kept_fallbacks. intro. apply tree_act_stores.
  Qed.
  Lemma kept_delete_asset a c enc : kept (delete_asset cs H uri_query a c enc).
  Proof.
    destruct c as [[p ct hs fbs als encs|p ct hs encs|f t k]|]; cbn [delete_asset]; try apply kept_delete_static.
    apply kept_seq; [apply kept_delete_static|]. apply kept_seq; apply kept_each; [intro fb|intro u; apply kept_delete_static].
    apply kept_attempt. intros x _. apply kept_fallbacks. intro. apply tree_act_stores.
  Qed.
  Lemma kept_acts f m cfgs a : (forall a c enc, kept (f a c enc)) -> kept (asset_acts f m cfgs a).
  Proof. intro F. apply kept_seq; [|apply F]. apply kept_each. intro x. destruct (m_get bytes_eqb (as_path a ++ snd x) m); [apply F|apply kept_done]. Qed.
  Lemma redirect_small from to kind x : prepare_redirect H uri_query from to kind = Some x -> ~ big x.
  Proof. intro E. apply prepare_redirect_spec in E. destruct E as (E & _). unfold big. rewrite E. cbn. lia. Qed.
  Lemma kept_call c : kept (run_call cs H uri_query glob c).
  Proof.
    destruct c as [o a cf|o a cf|]; cbn [run_call].
    - apply kept_attempt. intros cfgs _. apply kept_seq; [apply kept_each; intro; apply kept_acts, kept_certify_asset|]. apply kept_each. intros [p ct hs fbs als encs|p ct hs encs|f t k]; try apply kept_done.
      apply kept_attempt. intros x E. apply kept_seq; [apply kept_same; intro; apply tree_act_stores|]. apply kept_insert_small, (redirect_small _ _ _ _ E).
    - apply kept_attempt. intros cfgs _. apply kept_seq; [apply kept_each; intro; apply kept_acts, kept_delete_asset|]. apply kept_each. intros [p ct hs fbs als encs|p ct hs encs|f t k]; try apply kept_done.
      apply kept_attempt. intros x E. apply kept_seq; [apply kept_same; intro; apply tree_act_stores|]. apply kept_remove_whole.
    - intros st _ u e x S. discriminate S.
  Qed.
  Lemma reachable_chunked st : reachable cs H uri_query glob st -> chunked st.
  Proof.
    induction 1 as [ops t R|st c R IH O|st o t R IH E]; [intros u e x S; discriminate S|apply kept_call, IH|exact IH].
  Qed.
  (** everything stored was prepared by some call *)
  Lemma reachable_written st f k x : reachable cs H uri_query glob st -> stored st f k x -> exists A C, written cs H uri_query glob A C f k x.
  Proof.
    intro R. induction R as [ops t R|st c R IH O|st o t R IH E]; intro S.
    - destruct f; discriminate S.
    - destruct (steps_stored H _ _ _ _ _ _ f k x (proj1 (run_call_steps cs H uri_query glob CS c st O (reachable_tok _ _ _ _ _ CS R))) S) as [w|S']; [|exact (IH S')].
      destruct c as [o a cf|o a cf|]; try contradiction. exists a, cf. exact w.
    - apply IH. exact S.
  Qed.
End FirstChunk.

(** ** C62 *)
Lemma stored_place cs H uq glob A C f k x : 0 < cs -> written cs H uq glob A C f k x ->
  exists url status body hs ct enc range names,
  prepared H uq x (if f then PWildcard (k_path k) else PExact (k_path k)) url status body hs ct enc range names /\ enc = k_encoding k /\
  (f = false -> url = k_path k) /\
  match k_range k with
  | None => names = [] /\ range = None
  | Some b => names = [bs "range"] /\ f = false /\ status = 206 /\ N.of_nat (length body) <= cs
  end.
Proof.
  intros CS w. apply C67_written_is_configured in w; [|exact CS].
  destruct w as [cfgs a c enc u x N V U P|cfgs a c enc u i before body after x N V U E L D B P|cfgs a c enc fb x N V I P|from to kind x I P]; cbn [k_path k_encoding k_range];
    do 8 eexists; (split; [exact P|]); (split; [reflexivity|]); (split; [try discriminate; reflexivity|]); auto.
  split; [reflexivity|]. split; [reflexivity|]. split; [reflexivity|]. destruct D as [->|[_ D]]; lia.
Qed.
Lemma prepared_body H uq x p url status body hs ct enc range names : prepared H uq x p url status body hs ct enc range names -> rs_body (ca_response x) = body.
Proof. intros (-> & _). reflexivity. Qed.
Lemma big_has_first cs H uq glob st u e r x : 0 < cs -> reachable cs H uq glob st -> stored st false (mk_key u e r) x -> big cs x ->
  exists y, stored st false (mk_key u e (Some 0)) y.
Proof.
  intros CS R S B. destruct r as [b|]; [|exact (reachable_chunked cs H uq glob CS st R u e x S B)]. exfalso.
  destruct (reachable_written cs H uq glob CS st _ _ _ R S) as (A & C & w). destruct (stored_place _ _ _ _ _ _ _ _ _ CS w) as (url & status & body & hs & ct & enc & rg & names & P & _ & _ & D). cbn [k_range] in D.
  destruct D as (_ & _ & _ & L). apply prepared_body in P. unfold big in B. rewrite P in B. lia.
Qed.
Section Choice.
  Variables (cs : N) (H : bytes -> bytes) (uri_query : bytes -> option (option bytes)) (glob : bytes -> option (bytes -> bool)).
  Hypothesis CS : 0 < cs.
  Variables (st : router) (path : bytes) (range : option N).
  Hypothesis R : reachable cs H uri_query glob st.
  Definition pick (e : option bytes) : option certified :=
    match m_get key_eqb (mk_key path e range) (r_responses st) with
    | Some c => if cs <? N.of_nat (length (rs_body (ca_response c))) then m_get key_eqb (mk_key path e (Some 0)) (r_responses st) else Some c
    | None => None
    end.
  Lemma pick_none e : pick e = None <-> forall y, ~ stored st false (mk_key path e range) y.
  Proof.
    unfold pick, stored. destruct (m_get key_eqb (mk_key path e range) (r_responses st)) as [c|] eqn:E.
    - destruct (cs <? N.of_nat (length (rs_body (ca_response c)))) eqn:L; split.
      + apply N.ltb_lt in L. destruct (big_has_first cs H uri_query glob st path e range c CS R E L) as (y & S). intro Z. unfold stored in S. congruence.
      + intro X. exfalso. exact (X c eq_refl).
      + discriminate.
      + intro X. exfalso. exact (X c eq_refl).
    - split; [intros _ y Z; discriminate Z|reflexivity].
  Qed.
  Lemma static_pick pref : (match get_encoded_asset cs (r_responses st) pref path range with Some c => Some c | None => pick None end) = first_hit pick (map Some pref ++ [None]).
  Proof.
    induction pref as [|e pref IH]; cbn [get_encoded_asset map app first_hit].
    - destruct (pick None); reflexivity.
    - assert (PN := pick_none (Some e)). unfold pick in PN at 1. unfold pick at 2. unfold stored in PN.
      destruct (m_get key_eqb (mk_key path (Some e) range) (r_responses st)) as [c|] eqn:E; [|exact IH].
      destruct (cs <? N.of_nat (length (rs_body (ca_response c)))); [|reflexivity].
      destruct (m_get key_eqb (mk_key path (Some e) (Some 0)) (r_responses st)); [reflexivity|]. exfalso. exact (proj1 PN eq_refl c eq_refl).
  Qed.
  Lemma request_split pref : get_asset_for_request cs st path pref range =
    match first_hit pick (map Some pref ++ [None]) with
    | Some c => Some (false, c)
    | None => option_map (pair true) (fallback_loop (r_fallbacks st) pref (tl (rev (split_on "/" path))))
    end.
  Proof.
    rewrite <- static_pick. unfold get_asset_for_request, pick. destruct (get_encoded_asset cs (r_responses st) pref path range); [reflexivity|].
    destruct (m_get key_eqb (mk_key path None range) (r_responses st)) as [c|]; [|reflexivity].
    destruct (cs <? N.of_nat (length (rs_body (ca_response c)))); [|reflexivity]. destruct (m_get key_eqb (mk_key path None (Some 0)) (r_responses st)); reflexivity.
  Qed.
  Lemma static_choice_pick pref c : static_choice cs st path pref range c <-> first_hit pick (map Some pref ++ [None]) = Some c.
  Proof.
    rewrite first_hit_some. split.
    - intros (e & x & (b & a & E & S & N) & D). exists b, e, a. split; [exact E|]. split.
      + unfold pick. unfold stored in S. rewrite S. destruct D as [[L ->]|[L S0]]; [apply N.ltb_ge in L; rewrite L; reflexivity|apply N.ltb_lt in L; rewrite L; exact S0].
      + intros e' I. apply pick_none. intros y. apply N, I.
    - intros (b & e & a & E & P & N). unfold pick in P. destruct (m_get key_eqb (mk_key path e range) (r_responses st)) as [x|] eqn:S; [|discriminate].
      exists e, x. split.
      + exists b, a. split; [exact E|]. split; [exact S|]. intros e' y I. apply N in I. apply pick_none. exact I.
      + destruct (cs <? N.of_nat (length (rs_body (ca_response x)))) eqn:L; [right|left]; [apply N.ltb_lt in L; split; [exact L|exact P]|apply N.ltb_ge in L; split; [exact L|congruence]].
  Qed.
End Choice.
Theorem C62_which_response :
  forall (cs : N) (H : bytes -> bytes) uri_query glob (st : router) (path : bytes) (preferred : list bytes) (range : option N),
  0 < cs -> reachable cs H uri_query glob st ->
  (forall c, get_asset_for_request cs st path preferred range = Some (false, c) <-> static_choice cs st path preferred range c) /\
  (forall c, get_asset_for_request cs st path preferred range = Some (true, c) <->
     fallback_choice st path preferred c /\ forall e y, e = None \/ (exists n, e = Some n /\ In n preferred) -> ~ stored st false (mk_key path e range) y) /\
  (get_asset_for_request cs st path preferred range = None <->
     (forall e y, e = None \/ (exists n, e = Some n /\ In n preferred) -> ~ stored st false (mk_key path e range) y) /\
     (forall sc e y, scope_of path sc -> e = None \/ (exists n, e = Some n /\ In n preferred) -> ~ stored st true (mk_key sc e None) y)).
Proof.
  intros cs H uq glob st path pref range CS R. rewrite (request_split cs H uq glob CS st path range R pref).
  assert (SC := static_choice_pick cs H uq glob CS st path range R pref).
  assert (NO : first_hit (pick cs st path range) (map Some pref ++ [None]) = None <-> forall e y, e = None \/ (exists n, e = Some n /\ In n pref) -> ~ stored st false (mk_key path e range) y).
  { rewrite first_hit_none. split.
    - intros X e y I. apply (pick_none cs H uq glob CS st path range R). apply X, pref_in, I.
    - intros X e I. apply (pick_none cs H uq glob CS st path range R). intro y. apply X, pref_in, I. }
  destruct (first_hit (pick cs st path range) (map Some pref ++ [None])) as [c0|] eqn:E.
  - split; [intro c; rewrite SC; split; intro X; congruence|]. split.
    + intro c. split; [discriminate|]. intros [_ X]. apply NO in X. discriminate X.
    + split; [discriminate|]. intros [X _]. apply NO in X. discriminate X.
  - assert (FC := fallback_loop_choice st path pref). split; [intro c; rewrite SC; split; intro X; [destruct (fallback_loop _ _ _); discriminate X|discriminate X]|]. split.
    + intro c. rewrite <- FC. destruct (fallback_loop (r_fallbacks st) pref (tl (rev (split_on "/" path)))) as [c'|]; cbn [option_map].
      * split; [intro X; split; [congruence|apply NO; reflexivity]|intros [X _]; congruence].
      * split; [discriminate|intros [X _]; discriminate X].
    + assert (FN : fallback_loop (r_fallbacks st) pref (tl (rev (split_on "/" path))) = None <-> forall sc e y, scope_of path sc -> e = None \/ (exists n, e = Some n /\ In n pref) -> ~ stored st true (mk_key sc e None) y).
      { rewrite loop_hit, first_hit_none. split.
        - intros X sc e y S I Y. apply cands_scope in S. apply X in S. rewrite fallback_at_hit in S. apply pref_in in I. rewrite (proj1 (first_hit_none _ _) S e I) in Y || unfold stored in Y.
          assert (Z := proj1 (first_hit_none _ _) S e I). unfold at_place in Z. congruence.
        - intros X sc S. apply cands_scope in S. rewrite fallback_at_hit. apply first_hit_none. intros e I. apply pref_in in I. destruct (at_place st true (mk_key sc e None)) as [y|] eqn:Y; [|reflexivity]. exfalso. exact (X sc e y S I Y). }
      rewrite <- FN. destruct (fallback_loop (r_fallbacks st) pref (tl (rev (split_on "/" path)))) as [c'|]; cbn [option_map]; split; try discriminate.
      * intros [_ X]. discriminate X.
      * intros _. split; [apply NO; reflexivity|reflexivity].
      * reflexivity.
Qed.
Print Assumptions C62_which_response.

(** ** C66: serve_asset fails only for a bad url, a bad Range header, or nothing found *)
Definition nonempty_parts (s : bytes) : list bytes := filter (fun s => negb (is_nil s)) (split_on "/" s).
Lemma ends_slash_app s : ends_with_slash (s ++ bs "/") = true.
Proof. unfold ends_with_slash. rewrite rev_app_distr. reflexivity. Qed.
Lemma ends_app s t : t <> [] -> ends_with_slash (s ++ t) = ends_with_slash t.
Proof.
  intro N. unfold ends_with_slash. rewrite rev_app_distr. destruct (rev t) as [|b r] eqn:E; [|reflexivity]. exfalso. apply N. rewrite <- (rev_involutive t), E. reflexivity.
Qed.
Lemma nonempty_slash s t : nonempty_parts (s ++ "/"%byte :: t) = nonempty_parts s ++ nonempty_parts t.
Proof. unfold nonempty_parts. rewrite split_app_slash, filter_app. reflexivity. Qed.
Lemma parts_nonempty t : t <> [] -> ends_with_slash t = false -> nonempty_parts t <> [].
Proof.
  intros N E Z. assert (A : forall p, In p (split_on "/" t) -> p = []).
  { intros p I. destruct p as [|b p]; [reflexivity|]. exfalso. assert (X : In (b :: p) (nonempty_parts t)) by (apply filter_In; split; [exact I|reflexivity]). rewrite Z in X. destruct X. }
  clear Z. destruct (exists_last N) as (t' & b & ->). unfold ends_with_slash in E. rewrite rev_app_distr in E. cbn [rev app] in E.
  assert (L : exists l p, split_on "/" (t' ++ [b]) = l ++ [p ++ [b]]).
  { clear - E. induction t' as [|c t' (l & p & IH)].
    - exists [], []. cbn. rewrite E. reflexivity.
    - cbn [app split_on]. rewrite IH. destruct (byte_eqb c "/"); [exists ([] :: l), p; reflexivity|]. destruct l as [|q l]; [exists [], (c :: p); reflexivity|exists ((c :: q) :: l), p; reflexivity]. }
  destruct L as (l & p & L). specialize (A (p ++ [b])). rewrite L in A. assert (X := A ltac:(apply in_or_app; right; left; reflexivity)). destruct p; discriminate X.
Qed.
Lemma scope_matches path sc : scope_of path sc -> WildcardSpec.matches (request_parts sc) (request_parts path).
Proof.
  intros (s & rest & E & D). change (s ++ bs "/" ++ rest) with (s ++ "/"%byte :: rest) in E.
  assert (PP : exists x l, request_parts path = nonempty_parts s ++ x :: l).
  { subst path. unfold request_parts. fold (nonempty_parts (s ++ "/"%byte :: rest)). rewrite nonempty_slash, <- app_assoc. destruct rest as [|b r].
    - rewrite ends_slash_app. exists [], []. reflexivity.
    - rewrite (ends_app s ("/"%byte :: b :: r)) by discriminate. replace (ends_with_slash ("/"%byte :: b :: r)) with (ends_with_slash (b :: r)) by (symmetry; apply (ends_app ["/"%byte]); discriminate).
      destruct (ends_with_slash (b :: r)) eqn:ES.
      + destruct (nonempty_parts (b :: r)) as [|x l]; [exists [], []; reflexivity|exists x, (l ++ [[]]); reflexivity].
      + assert (N := parts_nonempty (b :: r) ltac:(discriminate) ES). destruct (nonempty_parts (b :: r)) as [|x l]; [congruence|]. exists x, (l ++ []). reflexivity. }
  destruct PP as (x & l & ->). assert (SS : request_parts (s ++ bs "/") = nonempty_parts s ++ [[]]).
  { unfold request_parts. fold (nonempty_parts (s ++ bs "/")). change (s ++ bs "/") with (s ++ "/"%byte :: []) at 1. rewrite nonempty_slash, ends_slash_app. unfold nonempty_parts at 2. cbn [split_on filter is_nil negb]. rewrite app_nil_r. reflexivity. }
  assert (M : WildcardSpec.matches (nonempty_parts s ++ [[]]) (nonempty_parts s ++ x :: l)) by (right; exists (nonempty_parts s), x, l; auto).
  destruct D as [-> | ->]; [rewrite SS; exact M|]. unfold request_parts. fold (nonempty_parts s). destruct (ends_with_slash s); [exact M|]. rewrite app_nil_r. left. exists (x :: l). reflexivity.
Qed.
(** The tree comes from a history of tree operations, the entries inserted are those of the calls. *)
Lemma steps_history H (Q : entry -> Prop) (P D : write) F C a b : (forall f k x, P f k x -> Q (ca_entry x)) -> steps H P D F C a b ->
  (exists ops, http_run H ops = Some (r_tree a) /\ Forall (fun o => match o with HInsert e => Q e | _ => True end) ops) ->
  exists ops, http_run H ops = Some (r_tree b) /\ Forall (fun o => match o with HInsert e => Q e | _ => True end) ops.
Proof.
  intros PQ S. induction S as [s|a b c S Ss IH]; [auto|]. intros (ops & E & A). apply IH. clear IH Ss. unfold http_run in *.
  inversion S as [f k x s t w I|f k x s t w I|k s w|s w]; subst.
  - exists (ops ++ [HInsert (ca_entry x)]). rewrite map_app, nrun_app, E. cbn [map nrun http_nop nstep obind]. rewrite I, tree_put. cbn [obind]. split; [reflexivity|]. apply Forall_app. split; [exact A|]. constructor; [exact (PQ f k x w)|constructor].
  - exists (ops ++ [HDelete (ca_entry x)]). rewrite map_app, nrun_app, E. cbn [map nrun http_nop nstep obind]. rewrite I, tree_drop. cbn [obind]. split; [reflexivity|]. apply Forall_app. split; [exact A|]. constructor; [exact Logic.I|constructor].
  - exists ops. split; [exact E|exact A].
  - exists []. split; [reflexivity|constructor].
Qed.
Lemma reachable_history cs H uq glob st : 0 < cs -> reachable cs H uq glob st -> exists ops, http_run H ops = Some (r_tree st).
Proof.
  intros CS. induction 1 as [ops t R|st c R IH O|st o t R IH E].
  - exists ops. exact R.
  - destruct IH as (ops & E). assert (S := proj1 (run_call_steps cs H uq glob CS c st O (reachable_tok _ _ _ _ _ CS R))).
    destruct (steps_history H (fun _ => True) _ _ _ _ _ _ (fun _ _ _ _ => I) S) as (ops' & E' & _); [|exists ops'; exact E'].
    exists ops. split; [exact E|]. apply Forall_forall. intros [ | | ] _; exact I.
  - destruct IH as (ops & X). exists (ops ++ [o]). unfold http_run in *. rewrite map_app, nrun_app, X. cbn [map nrun r_tree obind]. rewrite E. reflexivity.
Qed.
Lemma first_header_spec name hs : lower name = name ->
  match first_header name hs with Some v => first_value name hs v | None => no_header name hs end.
Proof.
  intro L. unfold first_value, no_header. induction hs as [|[n v] hs IH]; cbn [first_header]; [constructor|].
  destruct (bytes_eqb (lower n) name) eqn:E.
  - apply bytes_eqb_eq in E. exists [], n, hs. split; [reflexivity|]. split; [apply same_name_lower; congruence|constructor].
  - assert (N : ~ same_name n name). { intro S. apply same_name_lower in S. rewrite L in S. apply bytes_eqb_eq in S. congruence. }
    destruct (first_header name hs) as [w|].
    + destruct IH as (a & m & b & -> & S & F). exists ((n, v) :: a), m, b. split; [reflexivity|]. split; [exact S|]. constructor; [exact N|exact F].
    + constructor; [exact N|exact IH].
Qed.
Lemma first_value_fun name hs v w : first_value name hs v -> first_value name hs w -> v = w.
Proof.
  intros (a & n & b & -> & S & F) (a' & n' & b' & E & S' & F'). revert a' E F'. unfold no_header in *. induction a as [|x a IH]; intros [|y a'] E F'; cbn [app] in E.
  - congruence.
  - injection E as <- E. inversion F'; subst. contradiction.
  - injection E as -> E. inversion F; subst. contradiction.
  - injection E as -> E. inversion F; inversion F'; subst. eauto.
Qed.
Lemma first_value_no_header name hs v : first_value name hs v -> ~ no_header name hs.
Proof. intros (a & n & b & -> & S & _) N. unfold no_header in N. apply Forall_app in N. destruct N as [_ N]. inversion N; subst. contradiction. Qed.
Lemma range_begin_spec umod rq : 0 < umod ->
  match maybe_get_range_begin umod rq with
  | OOk r => forall r', wants_range umod (rq_headers rq) r' <-> r' = r
  | OErr => forall r, ~ wants_range umod (rq_headers rq) r
  | _ => False
  end.
Proof.
  intro U. unfold maybe_get_range_begin. assert (F := first_header_spec (bs "range") (rq_headers rq) eq_refl).
  destruct (first_header (bs "range") (rq_headers rq)) as [v|].
  - assert (P := C61_range_header_parsed_iff umod v). destruct (parse_range umod v) as [[b e]|] eqn:E.
    + destruct (proj1 (P b e U) eq_refl) as (t & PT & RT & LB & LE). intros [b'|]; cbn [wants_range]; split.
      * intros (v' & t' & e' & F' & PT' & RT' & LB' & LE'). assert (v' = v) by (eapply first_value_fun; eassumption). subst v'.
        assert (X : Some (b, e) = Some (b', e')) by (apply P; [exact U|exists t'; auto]). congruence.
      * intro X. injection X as ->. exists v, t, e. auto.
      * intro X. exfalso. exact (first_value_no_header _ _ _ F X).
      * discriminate.
    + intros [b'|]; cbn [wants_range].
      * intros (v' & t' & e' & F' & PT' & RT' & LB' & LE'). assert (v' = v) by (eapply first_value_fun; eassumption). subst v'.
        assert (X : None = Some (b', e')) by (apply P; [exact U|exists t'; auto]). discriminate X.
      * intro X. exact (first_value_no_header _ _ _ F X).
  - intros [b'|]; cbn [wants_range]; split; auto.
    + intros (v' & t' & e' & F' & _). exfalso. exact (first_value_no_header _ _ _ F' F).
    + discriminate.
Qed.
Lemma get_path_cases up rq : (exists p, get_path up rq = OOk p) \/ get_path up rq = OErr.
Proof. unfold get_path. destruct (up (rq_url rq)) as [p|]; [|right; reflexivity]. cbv zeta. destruct (utf8_valid (pct_decode p)); [left; eauto|right; reflexivity]. Qed.
Lemma choice_stored cs H uq glob st path pref range f c : 0 < cs -> reachable cs H uq glob st -> get_asset_for_request cs st path pref range = Some (f, c) ->
  exists k, stored st f k c /\ (if f then scope_of path (k_path k) else k_path k = path) /\ (k_encoding k = None \/ exists n, k_encoding k = Some n /\ In n pref) /\
    (if f then k_range k = None else k_range k = range \/ range = None /\ k_range k = Some 0).
Proof.
  intros CS R E. destruct (C62_which_response cs H uq glob st path pref range CS R) as (A & B & _). destruct f.
  - apply B in E. destruct E as [(sc & e & S & (b & a & Q & X & _) & _) _]. exists (mk_key sc e None). cbn [k_path k_encoding k_range]. split; [exact X|]. split; [exact S|]. split; [|reflexivity].
    apply pref_in. rewrite Q. apply in_or_app. right; left; reflexivity.
  - apply A in E. destruct E as (e & x & (b & a & Q & X & _) & D). assert (I : e = None \/ exists n, e = Some n /\ In n pref) by (apply pref_in; rewrite Q; apply in_or_app; right; left; reflexivity).
    destruct D as [[_ ->]|[L X0]]; [exists (mk_key path e range)|exists (mk_key path e (Some 0))]; cbn [k_path k_encoding k_range]; repeat (split; auto).
    destruct range as [r|]; [|auto]. exfalso. destruct (reachable_written cs H uq glob CS st _ _ _ R X) as (A' & C' & w). destruct (stored_place _ _ _ _ _ _ _ _ _ CS w) as (url & status & body & hs & ct & enc & rg & names & P & _ & _ & D). cbn [k_range] in D.
    destruct D as (_ & _ & _ & LL). apply prepared_body in P. rewrite P in L. lia.
Qed.
Theorem C66_serve_asset_result :
  forall (cs : N) (H : bytes -> bytes) uri_path uri_query glob (umod : N) sort (st : router) (data_certificate : bytes) (rq : request),
  0 < cs -> 0 < umod -> reachable cs H uri_query glob st ->
  let served := serve_asset cs H uri_path umod sort st data_certificate rq in
  let found path range := get_asset_for_request cs st path (get_preferred_encodings sort rq) range in
  (exists path range f c w, path_of uri_path rq path /\ wants_range umod (rq_headers rq) range /\ found path range = Some (f, c) /\
     http_witness H (r_tree st) (ca_entry c) path = OOk w /\
     served = OOk (add_v2_certificate_header data_certificate (ca_response c) w (expr_path (en_path (ca_entry c))))) \/
  (served = OErr /\
   ((forall path, ~ path_of uri_path rq path) \/ (forall range, ~ wants_range umod (rq_headers rq) range) \/
    exists path range, path_of uri_path rq path /\ wants_range umod (rq_headers rq) range /\ found path range = None)).
Proof.
  intros cs H up uq glob umod sort st dc rq CS U R served found. unfold served, serve_asset.
  destruct (get_path_cases up rq) as [(path & GP)|GP]; rewrite GP; cbn [out_bind].
  2:{ right. split; [reflexivity|]. left. intros path X. apply C63_request_path_exact in X. congruence. }
  assert (PO : path_of up rq path) by (apply C63_request_path_exact; exact GP).
  assert (RB := range_begin_spec umod rq U). destruct (maybe_get_range_begin umod rq) as [range| | |]; try contradiction; cbn [out_bind].
  2:{ right. split; [reflexivity|]. right; left. exact RB. }
  assert (W : wants_range umod (rq_headers rq) range) by (apply RB; reflexivity).
  fold (found path range). destruct (found path range) as [[f c]|] eqn:E.
  2:{ right. split; [reflexivity|]. right; right. exists path, range. auto. }
  left. exists path, range, f, c. destruct (reachable_history cs H uq glob st CS R) as (ops & OP). destruct (C52_witness_never_panics H ops) as (t & OP' & D). rewrite OP in OP'. injection OP' as <-.
  specialize (D (ca_entry c) path). destruct D as [(w & Ew & _)|(Ew & p & EP & L)].
  - exists w. rewrite Ew. cbn [out_bind]. auto.
  - exfalso. destruct (choice_stored _ _ _ _ _ _ _ _ _ _ CS R E) as (k & S & P & _).
    destruct (reachable_written cs H uq glob CS st _ _ _ R S) as (A & C & w). destruct (stored_place _ _ _ _ _ _ _ _ _ CS w) as (url & status & body & hs & ct & enc & rg & names & PP & _).
    destruct PP as (_ & PP & _). rewrite EP in PP. destruct f; [|discriminate PP]. injection PP as ->. apply scope_matches, matches_length in P. lia.
Qed.
Print Assumptions C66_serve_asset_result.
