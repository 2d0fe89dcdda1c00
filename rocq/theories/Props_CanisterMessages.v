(** C147, C148, C149: the texts of the errors of the certificate verifier and of the certification libraries. *)
From Coq Require Import List Arith NArith Lia Bool Permutation.
From Verif Require Import Bytes Text Leb128 Props_Leb HashTree RbTree Nested HttpTypes HttpHash Cel V2 Header Cbor CertVerify HttpTree HttpTreeSpec Verify VerifySpec AssetRouter AssetSpec RangeSpec Props_Range JsonText
  Errors ErrorSpec Props_Errors Messages Props_Messages CanisterErrors CanisterErrorSpec Props_CanisterErrors CanisterMessages.
Import ListNotations.
Local Open Scope N_scope.

(** ** Specification *)
(** Texts made by [f] can be told apart where [sep] follows them. *)
Definition told_by (f : bytes -> bytes) (sep : bytes) : Prop :=
  forall p q r r', f p ++ sep ++ r = f q ++ sep ++ r' -> p = q /\ r = r'.

(** ** Lists *)
Definition closer (c : byte) : Prop := c = ","%byte \/ c = "]"%byte.
Definition listable {A} (f : A -> bytes) : Prop :=
  (forall a b c c' r r', closer c -> closer c' -> f a ++ c :: r = f b ++ c' :: r' -> a = b /\ c :: r = c' :: r') /\
  (forall a r r', f a ++ r <> "]"%byte :: r').
Lemma vec_prefix_free {A} (f : A -> bytes) : listable f ->
  forall l l' r r', debug_vec (map f l) ++ r = debug_vec (map f l') ++ r' -> l = l' /\ r = r'.
Proof.
  intros [P Q] l l' r r' E. unfold debug_vec in E. rewrite <- !app_assoc in E. apply app_inv_head in E.
  change (bs "]") with ["]"%byte] in E. cbn [app] in E.
  revert l' E. induction l as [|a l IH]; intros [|b l'] E.
  - cbn in E. injection E as ->. auto.
  - exfalso. destruct l'; cbn [map join] in E; rewrite <- ?app_assoc in E; cbn [app] in E; symmetry in E; exact (Q _ _ _ E).
  - exfalso. destruct l; cbn [map join] in E; rewrite <- ?app_assoc in E; cbn [app] in E; exact (Q _ _ _ E).
  - assert (J : forall x y, exists c t, closer c /\ join (bs ", ") (map f (x :: y)) ++ "]"%byte :: r = f x ++ c :: t /\
      (y = [] /\ c = "]"%byte /\ t = r \/ exists z w, y = z :: w /\ c = ","%byte /\ t = " "%byte :: join (bs ", ") (map f (z :: w)) ++ "]"%byte :: r)).
    { intros x [|z w].
      - exists "]"%byte, r. split; [right; reflexivity|]. split; [reflexivity|]. left. auto.
      - exists ","%byte, (" "%byte :: join (bs ", ") (map f (z :: w)) ++ "]"%byte :: r). split; [left; reflexivity|]. split; [|right; exists z, w; auto].
        change (join (bs ", ") (map f (x :: z :: w))) with (f x ++ bs ", " ++ join (bs ", ") (map f (z :: w))). rewrite <- !app_assoc. reflexivity. }
    assert (J' : forall x y, exists c t, closer c /\ join (bs ", ") (map f (x :: y)) ++ "]"%byte :: r' = f x ++ c :: t /\
      (y = [] /\ c = "]"%byte /\ t = r' \/ exists z w, y = z :: w /\ c = ","%byte /\ t = " "%byte :: join (bs ", ") (map f (z :: w)) ++ "]"%byte :: r')).
    { intros x [|z w].
      - exists "]"%byte, r'. split; [right; reflexivity|]. split; [reflexivity|]. left. auto.
      - exists ","%byte, (" "%byte :: join (bs ", ") (map f (z :: w)) ++ "]"%byte :: r'). split; [left; reflexivity|]. split; [|right; exists z, w; auto].
        change (join (bs ", ") (map f (x :: z :: w))) with (f x ++ bs ", " ++ join (bs ", ") (map f (z :: w))). rewrite <- !app_assoc. reflexivity. }
    destruct (J a l) as (c & t & C & T & D), (J' b l') as (c' & t' & C' & T' & D'). clear J J'. rewrite T, T' in E.
    apply P in E; [|exact C|exact C']. destruct E as [-> E]. injection E as E1 E2.
    destruct D as [(-> & Dc & Dt)|(z & w & -> & Dc & Dt)], D' as [(-> & Dc' & Dt')|(z' & w' & -> & Dc' & Dt')]; try (exfalso; rewrite Dc, Dc' in E1; discriminate E1).
    + rewrite Dt, Dt' in E2. auto.
    + rewrite Dt, Dt' in E2. injection E2 as E2. destruct (IH (z' :: w') E2) as [E3 ->]. rewrite E3. auto.
Qed.
Lemma prefix_free_listable {A} (f : A -> bytes) : (forall a b r r', f a ++ r = f b ++ r' -> a = b /\ r = r') -> (forall a r r', f a ++ r <> "]"%byte :: r') -> listable f.
Proof. intros P Q. split; [|exact Q]. intros a b c c' r r' _ _ E. exact (P a b _ _ E). Qed.
Lemma dec_cut n m c c' r r' : ~ 48 <= b2n c <= 57 -> ~ 48 <= b2n c' <= 57 -> dec n ++ c :: r = dec m ++ c' :: r' -> n = m /\ c :: r = c' :: r'.
Proof.
  intros C C' E. assert (X : forall a b, Forall (fun b => 48 <= b2n b <= 57) a -> Forall (fun b => 48 <= b2n b <= 57) b -> a ++ c :: r = b ++ c' :: r' -> a = b /\ c :: r = c' :: r').
  { induction a as [|x a IH]; intros [|y b] Fa Fb Z; cbn [app] in Z.
    - auto.
    - exfalso. injection Z as -> _. exact (C (Forall_inv Fb)).
    - exfalso. injection Z as -> _. exact (C' (Forall_inv Fa)).
    - injection Z as -> Z. destruct (IH b (Forall_inv_tail Fa) (Forall_inv_tail Fb) Z) as [-> W]. auto. }
  destruct (X _ _ (dec_digits n) (dec_digits m) E) as [D R]. apply dec_inj in D. auto.
Qed.
Lemma dec_head n r r' : dec n ++ r <> "]"%byte :: r'.
Proof.
  destruct (dec_decimal n) as (N & F & _). destruct (dec n) as [|x l]; [congruence|]. cbn [app]. intro E. injection E as -> _. assert (Z := Forall_inv F). cbv beta in Z. vm_compute in Z. destruct Z as [_ Z]. exact (Z eq_refl).
Qed.
Lemma closer_no_digit c : closer c -> ~ 48 <= b2n c <= 57.
Proof. intros [->| ->] [A B]; vm_compute in A, B; congruence. Qed.
Lemma bytes_prefix_free (l l' r r' : bytes) : debug_bytes l ++ r = debug_bytes l' ++ r' -> l = l' /\ r = r'.
Proof.
  apply vec_prefix_free. split; [|intros; apply dec_head]. intros a b c c' s s' C C' E.
  apply dec_cut in E; [|exact (closer_no_digit c C)|exact (closer_no_digit c' C')]. destruct E as [E ->]. apply b2n_inj in E. auto.
Qed.
Lemma path_prefix_free (l l' : list bytes) (r r' : bytes) : debug_path l ++ r = debug_path l' ++ r' -> l = l' /\ r = r'.
Proof. apply vec_prefix_free. apply prefix_free_listable; [exact bytes_prefix_free|]. intros a s s' E. unfold debug_bytes, debug_vec in E. discriminate E. Qed.
Lemma ranges_prefix_free debugged l l' r r' : told_by debugged (bs ", ") -> told_by debugged (bs ")") ->
  debug_vec (map (debug_range debugged) l) ++ r = debug_vec (map (debug_range debugged) l') ++ r' -> l = l' /\ r = r'.
Proof.
  intros T1 T2. apply vec_prefix_free. apply prefix_free_listable.
  - intros [a b] [a' b'] s s' E. unfold debug_range in E. cbn [fst snd] in E. rewrite <- !app_assoc in E. apply app_inv_head in E.
    apply T1 in E. destruct E as [-> E]. apply T2 in E. destruct E as [-> ->]. auto.
  - intros a s s' E. unfold debug_range in E. discriminate E.
Qed.

(** ** C147: the certificate verifier *)
Definition cert_lead (e : cert_error) : bytes :=
  match e with
  | DerKeyLengthMismatch _ _ => bs "BLS DER-encoded public key must be "
  | DerPrefixMismatch _ _ => bs "BLS DER-encoded public key is invalid. Expected the following prefix: "
  | TimeTooFarInTheFuture _ _ => bs "Certificate time is too far in the future. Received "
  | TimeTooFarInThePast _ _ => bs "Certificate time is too far in the past. Received "
  | PrincipalOutOfRange _ _ => bs "Canister ID "
  | SubnetCanisterIdRangesNotFound _ => bs "Subnet canister ID ranges not found in certificate at path: "
  | SubnetPublicKeyNotFound _ => bs "Subnet public key not found in certificate at path: "
  | MissingTimePathInTree _ => bs "Time not found in certificate at path: "
  | TimeDecodingFailed => bs "Certificate time decoding failed due to an overflow: "
  | e => cert_message (fun _ => []) (fun _ => []) [] e
  end.
Lemma cert_lead_of sh db ts e : exists t, cert_message sh db ts e = cert_lead e ++ t.
Proof. destruct e; cbn [cert_message cert_lead]; try (eexists; reflexivity); exists []; rewrite app_nil_r; reflexivity. Qed.
Lemma cert_kinds_clash sh db ts ts' x y : clash (cert_lead x) (cert_lead y) = true -> cert_message sh db ts x <> cert_message sh db ts' y.
Proof. destruct (cert_lead_of sh db ts x) as [t ->], (cert_lead_of sh db ts' y) as [t' ->]. apply clash_no. Qed.
Lemma dec_sep n m c (t : bytes) (r r' : bytes) : b2n c < 48 -> dec n ++ (c :: t) ++ r = dec m ++ (c :: t) ++ r' -> n = m /\ r = r'.
Proof. intros C E. cbn [app] in E. apply dec_prefix_free in E; [|exact C]. destruct E as [-> E]. apply app_inv_head in E. auto. Qed.
Lemma dec_end n m c (t : bytes) : b2n c < 48 -> dec n ++ c :: t = dec m ++ c :: t -> n = m.
Proof. intros C E. apply dec_prefix_free in E; [|exact C]. exact (proj1 E). Qed.
Lemma path_inj l l' : debug_path l = debug_path l' -> l = l'.
Proof. intro E. apply (path_prefix_free l l' [] []). rewrite E. reflexivity. Qed.
Lemma bytes_inj l l' : debug_bytes l = debug_bytes l' -> l = l'.
Proof. intro E. apply (bytes_prefix_free l l' [] []). rewrite E. reflexivity. Qed.
Theorem C147_message_tells_the_error :
  forall (shown debugged : bytes -> bytes) (timestamp timestamp' : bytes) (x y : cert_error),
  (* the texts of principals can be read *)
  told_by shown (bs " is not within the certificate's range: ") -> told_by debugged (bs ", ") -> told_by debugged (bs ")") ->
  cert_message shown debugged timestamp x = cert_message shown debugged timestamp' y ->
  x = y /\ (x = TimeDecodingFailed -> timestamp = timestamp').
Proof.
  intros sh db ts ts' x y T0 T1 T2 E.
  destruct x, y; try (exfalso; revert E; apply cert_kinds_clash; vm_compute; reflexivity); try (split; [reflexivity|discriminate]);
    (split; [|first [discriminate|intros _]]); try reflexivity; cbn [cert_message] in E; apply app_inv_head in E.
  - apply (dec_sep _ _ _ _ _ _ (eq_refl : (b2n " "%byte < 48))) in E. destruct E as [E F]. apply (dec_end _ _ _ _ (eq_refl : (b2n " "%byte < 48))) in F.
    apply Nat2N.inj in E, F. subst. reflexivity.
  - apply bytes_prefix_free in E. destruct E as [-> E]. apply app_inv_head in E. apply bytes_inj in E. subst. reflexivity.
  - apply (dec_sep _ _ _ _ _ _ (eq_refl : (b2n ","%byte < 48))) in E. destruct E as [E F]. apply (dec_end _ _ _ _ (eq_refl : (b2n " "%byte < 48))) in F. subst. reflexivity.
  - apply (dec_sep _ _ _ _ _ _ (eq_refl : (b2n ","%byte < 48))) in E. destruct E as [E F]. apply (dec_end _ _ _ _ (eq_refl : (b2n " "%byte < 48))) in F. subst. reflexivity.
  - apply T0 in E. destruct E as [-> E]. assert (P := ranges_prefix_free db canister_ranges canister_ranges0 [] [] T1 T2). rewrite !app_nil_r in P. apply P in E. destruct E as [-> _]. reflexivity.
  - apply path_inj in E. subst. reflexivity.
  - apply path_inj in E. subst. reflexivity.
  - apply path_inj in E. subst. reflexivity.
  - apply bytes_inj in E. exact E.
Qed.
Print Assumptions C147_message_tells_the_error.
(** What was expected and what was found are shown in this order. *)
Theorem C147_fields_are_shown :
  forall (shown debugged : bytes -> bytes) (timestamp : bytes) (expected actual : nat) (prefix found : bytes) (t limit : N) (canister_id low high : bytes),
  let m := cert_message shown debugged timestamp in
  m (DerKeyLengthMismatch expected actual) = concat [bs "BLS DER-encoded public key must be "; dec (N.of_nat expected); bs " bytes long, but is "; dec (N.of_nat actual); bs " bytes long"] /\
  m (DerPrefixMismatch prefix found) = concat [bs "BLS DER-encoded public key is invalid. Expected the following prefix: "; debug_bytes prefix; bs ", but got "; debug_bytes found] /\
  m (TimeTooFarInTheFuture t limit) = concat [bs "Certificate time is too far in the future. Received "; dec t; bs ", expected "; dec limit; bs " or earlier"] /\
  m (TimeTooFarInThePast t limit) = concat [bs "Certificate time is too far in the past. Received "; dec t; bs ", expected "; dec limit; bs " or later"] /\
  m (PrincipalOutOfRange canister_id [(low, high)]) =
    concat [bs "Canister ID "; shown canister_id; bs " is not within the certificate's range: [("; debugged low; bs ", "; debugged high; bs ")]"].
Proof.
  intros *. cbn [cert_message concat]. rewrite !app_nil_r. repeat (split; [reflexivity|]). unfold m, cert_message, debug_vec, debug_range. cbn [map join fst snd]. rewrite <- !app_assoc. reflexivity.
Qed.
Print Assumptions C147_fields_are_shown.
(** Two certificates refused with the same text are refused for the same reason. *)
Theorem C147_same_text_same_fault :
  forall umod cap_max checked H ple vs c canister_id root_key now offset umod' cap_max' checked' H' ple' vs' c' canister_id' root_key' now' offset'
         (shown debugged : bytes -> bytes) (timestamp timestamp' : bytes) (x y : cert_error),
  told_by shown (bs " is not within the certificate's range: ") -> told_by debugged (bs ", ") -> told_by debugged (bs ")") ->
  (now + offset < 2 ^ 128)%N -> (offset <= now)%N -> (length canister_id <= 29)%nat ->
  verify_certificate_e umod cap_max checked H ple vs c canister_id root_key now offset = RErr x ->
  verify_certificate_e umod' cap_max' checked' H' ple' vs' c' canister_id' root_key' now' offset' = RErr y ->
  cert_message shown debugged timestamp x = cert_message shown debugged timestamp' y ->
  (* what is wrong with one is what is wrong with the other *)
  cert_fault umod cap_max H ple vs c canister_id root_key now offset y.
Proof.
  intros * T0 T1 T2 B1 B2 L V _ E. destruct (C147_message_tells_the_error _ _ _ _ _ _ T0 T1 T2 E) as [<- _]. apply (C84_certificate_errors umod cap_max checked H ple vs c canister_id root_key now offset x B1 B2 L). exact V.
Qed.
Print Assumptions C147_same_text_same_fault.

(** ** C149: times that cannot be read *)
Lemma left_skip i : forall s, leb_left_f i s = leb_skip i.
Proof. induction i as [|b i IH]; intro s; cbn [leb_left_f leb_skip]; [reflexivity|]. destruct ((s =? 63) && negb (b2n b =? 0) && negb (b2n b =? 1)); [reflexivity|]. rewrite IH. reflexivity. Qed.
Lemma skip_spec i : (forall b, In b i -> 128 <= b2n b) /\ leb_skip i = [] \/ exists p n, i = p ++ leb_skip i /\ leb128 p n.
Proof.
  induction i as [|b i IH]; cbn [leb_skip]; [left; split; [intros ? []|reflexivity]|]. destruct (N.ltb_spec (b2n b) 128) as [L|G].
  - right. exists [b], (b2n b). split; [reflexivity|]. apply leb_last. exact L.
  - destruct IH as [[F E]|(p & n & E & P)].
    + left. split; [|exact E]. intros x [<-|I]; [exact G|exact (F x I)].
    + right. exists (b :: p), (b2n b - 128 + 128 * n). split; [cbn [app]; f_equal; exact E|apply leb_more; assumption].
Qed.
Lemma skip_shorter i : i <> [] -> (length (leb_skip i) < length i)%nat.
Proof.
  induction i as [|b i IH]; [congruence|]. intros _. cbn [leb_skip length]. destruct (b2n b <? 128); [lia|].
  destruct i as [|b' i]; [cbn; lia|]. assert (Z := IH ltac:(discriminate)). lia.
Qed.
(** The bytes shown are those after the number that could not be read; there are none when it has no end. *)
Theorem C149_what_is_shown :
  forall umod cap_max checked H ple vs c canister_id root_key now offset,
  (now + offset < 2 ^ 128)%N -> (offset <= now)%N -> (length canister_id <= 29)%nat ->
  verify_certificate_e umod cap_max checked H ple vs c canister_id root_key now offset = RErr TimeDecodingFailed ->
  exists enc rest, lookup_path [bs "time"] (c_tree c) = Found enc /\ time_failure c = Some rest /\
    (rest = [] /\ (forall b, In b enc -> 128 <= b2n b) \/
     exists i n, enc = i ++ rest /\ leb128 i n /\ ((10 < length i)%nat \/ 2 ^ 64 <= n)).
Proof.
  intros * B1 B2 L V. assert (X : exists enc, lookup_path [bs "time"] (c_tree c) = Found enc /\ leb_read enc = None).
  { unfold verify_certificate_e in V. assert (T := time_e_cases checked c now offset B1 B2). apply (C84_certificate_errors umod cap_max checked H ple vs c canister_id root_key now offset TimeDecodingFailed B1 B2 L) in V.
    inversion V as [| enc E R | | | d x W D F | key x W F S]; subst.
    - exists enc. auto.
    - exfalso. inversion F as [ | | dc z A B Z | | | | ]. inversion Z.
    - exfalso. inversion S. }
  destruct X as (enc & E & R). exists enc, (leb_left enc). split; [exact E|]. unfold time_failure. rewrite E, R. split; [reflexivity|].
  unfold leb_left. rewrite left_skip. destruct (skip_spec enc) as [[F Z]|(p & n & Z & P)]; [left; auto|]. right. exists p, n. split; [exact Z|]. split; [exact P|].
  destruct (le_lt_dec (length p) 10) as [L1|G1]; [|left; exact G1]. right. destruct (N.lt_ge_cases n (2 ^ 64)) as [L2|G2]; [|exact G2].
  exfalso. assert (Y : leb_read enc = Some (n, leb_skip enc)); [|congruence]. apply C123_number_read_exactly. exists p. auto.
Qed.
Print Assumptions C149_what_is_shown.
(** Refuted: the error never shows the time that could not be read. *)
Theorem C149_time_is_shown_refuted :
  forall (c : certificate) (enc : bytes),
  lookup_path [bs "time"] (c_tree c) = Found enc -> enc <> [] -> time_failure c <> Some enc.
Proof.
  intros c enc E N. unfold time_failure. rewrite E. destruct (leb_read enc); [discriminate|]. unfold leb_left. rewrite left_skip.
  intro Z. assert (Y : forall a b : bytes, Some a = Some b -> a = b) by (intros; congruence). apply Y in Z. assert (L := skip_shorter enc N). rewrite Z in L. lia.
Qed.
Print Assumptions C149_time_is_shown_refuted.

(** ** C148: the certification libraries *)
(** the errors of the asset router *)
Inductive router_reports (cs : N) (H : bytes -> bytes) (uri_path : bytes -> option bytes) (uri_query : bytes -> option (option bytes))
    (glob : bytes -> option (bytes -> bool)) (umod : N) : asset_error -> Prop :=
| by_serve sort st data_certificate rq e : reachable cs H uri_query glob st ->
    serve_asset_e cs H uri_path umod sort st data_certificate rq = RErr e -> router_reports cs H uri_path uri_query glob umod e
| by_certify order st assets configs e : (forall l, Permutation (order l) l) ->
    snd (certify_assets_e cs H uri_query glob order assets configs st) = RErr e -> router_reports cs H uri_path uri_query glob umod e
| by_delete order st assets configs e : (forall l, Permutation (order l) l) ->
    snd (delete_assets_e cs H uri_query glob order assets configs st) = RErr e -> router_reports cs H uri_path uri_query glob umod e.

Definition canister_lead (e : canister_error) : bytes :=
  match e with
  | UrlError (MalformedUrl _) => bs "Failed to parse url: """
  | UrlError Utf8ConversionError => bs "Error converting UTF8 string bytes: """
  | WildcardPathNotValidForRequestPath _ _ => bs "Wildcard path """
  | CertificateExpressionHeaderMismatch _ _ =>
      bs "The IC-CertificateExpression header in the response did not match the Cel expression used to certify the response. Expected: """
  | CertificateExpressionHeaderMissing _ => bs "The IC-CertificateExpression header was missing from the response. Expected: """
  | MultipleCertificateExpressionHeaders _ => bs "The IC-CertificateExpression header in the response contained multiple values. Expected only one: """
  end.
Lemma canister_lead_of u e : exists t, canister_message u e = canister_lead e ++ t.
Proof. destruct e as [[]| | | |]; cbn [canister_message http_message canister_lead]; eexists; reflexivity. Qed.
Lemma canister_clash u u' x y (r r' : bytes) : clash (canister_lead x) (canister_lead y) = true -> canister_message u x ++ r <> canister_message u' y ++ r'.
Proof. destruct (canister_lead_of u x) as [t ->], (canister_lead_of u' y) as [t' ->]. rewrite <- !app_assoc. apply clash_no. Qed.
(** the two errors with two free texts *)
Definition same_first_text (x y : canister_error) : Prop :=
  match x, y with
  | WildcardPathNotValidForRequestPath w _, WildcardPathNotValidForRequestPath w' _ => w = w'
  | CertificateExpressionHeaderMismatch e _, CertificateExpressionHeaderMismatch e' _ => e = e'
  | _, _ => True
  end.
(** Full statement: without [same_first_text].  The next theorem refutes it. *)
Theorem C148_message_tells_the_error_partial :
  forall (utf8_text utf8_text' : bytes) (x y : canister_error),
  same_first_text x y -> canister_message utf8_text x = canister_message utf8_text' y -> x = y.
Proof.
  intros u u' x y S E.
  assert (C : clash (canister_lead x) (canister_lead y) = true -> x = y).
  { intro C. exfalso. assert (X := canister_clash u u' x y [] [] C). rewrite !app_nil_r in X. exact (X E). }
  destruct x as [[a|]|w r|e a|e|e], y as [[a'|]|w' r'|e' a'|e'|e']; try (apply C; vm_compute; reflexivity); clear C; cbn [same_first_text] in S; cbn [canister_message http_message] in E.
  - apply app_inv_head in E. apply app_inv_tail in E. subst. reflexivity.
  - reflexivity.
  - subst w'. apply app_inv_head in E. apply app_inv_head in E. apply app_inv_head in E. apply app_inv_tail in E. subst. reflexivity.
  - subst e'. apply app_inv_head in E. apply app_inv_head in E. apply app_inv_head in E. apply app_inv_tail in E. subst. reflexivity.
  - apply app_inv_head in E. apply app_inv_tail in E. subst. reflexivity.
  - apply app_inv_head in E. apply app_inv_tail in E. subst. reflexivity.
Qed.
Print Assumptions C148_message_tells_the_error_partial.
(** Refuted in general: quotes in the paths are not escaped, so two refused witnesses can have the same text. *)
Theorem C148_same_text_other_error_refuted :
  forall (H : bytes -> bytes) (utf8_text : bytes), exists w w' url url' c c',
  let x := WildcardPathNotValidForRequestPath w url in
  let y := WildcardPathNotValidForRequestPath w' url' in
  http_witness_e H ndefault (mk_entry (PWildcard w) c) url = RErr x /\
  http_witness_e H ndefault (mk_entry (PWildcard w') c') url' = RErr y /\
  canister_message utf8_text x = canister_message utf8_text y /\ w <> w' /\ url <> url'.
Proof.
  intros H u. exists (bs "/a/b/c"), (bs "/a/b/c"" is too specific for request path ""d"), (bs "d"" is too specific for request path ""e"), (bs "e"), (CSkip []), (CSkip []).
  cbv zeta. split; [reflexivity|]. split; [reflexivity|]. split; [reflexivity|]. split; intro Z; discriminate Z.
Qed.
Print Assumptions C148_same_text_other_error_refuted.

Lemma router_fault cs H up uq glob umod e : 0 < cs -> 0 < umod -> router_reports cs H up uq glob umod e ->
  match e with
  | CertificationError (WildcardPathNotValidForRequestPath _ _) => False
  | CertificationError (CertificateExpressionHeaderMismatch expected _) => router_expression expected
  | _ => True
  end.
Proof.
  intros CS U R. assert (IF : forall assets configs, input_fault uq glob assets configs e -> match e with
  | CertificationError (WildcardPathNotValidForRequestPath _ _) => False
  | CertificationError (CertificateExpressionHeaderMismatch expected _) => router_expression expected
  | _ => True
  end).
  { intros a c F. destruct e as [x|[y| | | |]|x|x]; try exact I; cbn [input_fault] in F; [destruct F|exact (proj1 F)]. }
  destruct R as [sort st dc rq e R E|order st a c e O E|order st a c e O E].
  - apply (C146_serve_error_iff cs H up uq glob umod sort st dc rq e CS U R) in E.
    destruct E as [(_ & ->)|[(_ & ->)|(p & _ & [(v & t & _ & _ & ->)|(r & _ & _ & ->)])]]; exact I.
  - apply (IF a c). apply (C146_call_error_sound cs H uq glob st order a c e O). left. exact E.
  - apply (IF a c). apply (C146_call_error_sound cs H uq glob st order a c e O). right. exact E.
Qed.
Lemma router_expressions_clash : clash (print_cel (get_expression [])) (print_cel (get_expression [bs "range"])) = true /\
  clash (print_cel (get_expression [bs "range"])) (print_cel (get_expression [])) = true.
Proof. vm_compute. split; reflexivity. Qed.
Definition asset_lead (e : asset_error) : bytes :=
  match e with
  | NoAssetMatchingRequestUrl _ => bs "No asset was found matching the current request url: "
  | CertificationError _ => bs "HTTP Certification Error: """
  | GlobsetError _ => bs "Glob error: "
  | RequestError _ => bs "Request error: "
  end.
Lemma asset_clash u g u' g' x y : clash (asset_lead x) (asset_lead y) = true -> asset_message u g x <> asset_message u' g' y.
Proof. intros C E. destruct x, y; cbn [asset_message] in E; try (revert E; apply clash_no; exact C); vm_compute in C; discriminate C. Qed.
(** Two errors of asset routers with the same text are the same; of the errors of the globset library only the text is
    compared. *)
Theorem C148_router_text_tells_the_error :
  forall cs H uri_path uri_query glob umod cs' H' uri_path' uri_query' glob' umod' (utf8_text utf8_text' : bytes) (glob_text glob_text' : bytes -> bytes) (x y : asset_error),
  0 < cs -> 0 < umod -> 0 < cs' -> 0 < umod' ->
  router_reports cs H uri_path uri_query glob umod x -> router_reports cs' H' uri_path' uri_query' glob' umod' y ->
  asset_message utf8_text glob_text x = asset_message utf8_text' glob_text' y ->
  x = y \/ exists p p', x = GlobsetError p /\ y = GlobsetError p' /\ glob_text p = glob_text' p'.
Proof.
  intros cs H up uq gl um cs' H' up' uq' gl' um' u u' g g' x y C1 U1 C2 U2 R R' E.
  apply (router_fault _ _ _ _ _ _ _ C1 U1) in R. apply (router_fault _ _ _ _ _ _ _ C2 U2) in R'.
  assert (C : clash (asset_lead x) (asset_lead y) = true -> False) by (intro C; exact (asset_clash u g u' g' x y C E)).
  destruct x as [a|a|a|a], y as [b|b|b|b]; try (exfalso; apply C; vm_compute; reflexivity); clear C; cbn [asset_message] in E; apply app_inv_head in E.
  - left. subst. reflexivity.
  - left. apply app_inv_tail in E. f_equal. apply (C148_message_tells_the_error_partial u u' a b); [|exact E].
    destruct a as [ |w r|e v|e|e], b as [ |w' r'|e' v'|e'|e']; cbn [same_first_text]; try exact I; [destruct R|].
    cbn [canister_message] in E. apply app_inv_head in E. destruct router_expressions_clash as [K1 K2].
    destruct R as [-> | ->], R' as [-> | ->]; try reflexivity; exfalso; revert E; apply clash_no; assumption.
  - right. exists a, b. auto.
  - left. subst. reflexivity.
Qed.
Print Assumptions C148_router_text_tells_the_error.
(** What was expected and what was found, the wildcard and the request path are shown in this order. *)
Theorem C148_fields_are_shown :
  forall (utf8_text : bytes) (glob_text : bytes -> bytes) (expected actual wildcard path url : bytes),
  let m e := asset_message utf8_text glob_text (CertificationError e) in
  m (CertificateExpressionHeaderMismatch expected actual) =
    concat [bs "HTTP Certification Error: ""The IC-CertificateExpression header in the response did not match the Cel expression used to certify the response. Expected: """;
            expected; bs """, Actual: """; actual; bs """"""] /\
  m (WildcardPathNotValidForRequestPath wildcard path) =
    concat [bs "HTTP Certification Error: ""Wildcard path """; wildcard; bs """ is too specific for request path """; path; bs """, use a less specific wildcard path"""] /\
  m (UrlError (MalformedUrl url)) = concat [bs "HTTP Certification Error: ""Failed to parse url: """; url; bs """"""].
Proof.
  intros *. unfold m. cbn [asset_message canister_message http_message concat]. rewrite <- !app_assoc. repeat split; reflexivity.
Qed.
Print Assumptions C148_fields_are_shown.

(** ** Examples *)
(** a text for principals that can be read: their bytes, as numbers *)
Example C147_ex :
  told_by debug_bytes (bs " is not within the certificate's range: ") /\ told_by debug_bytes (bs ", ") /\ told_by debug_bytes (bs ")") /\
  cert_message debug_bytes debug_bytes [] (PrincipalOutOfRange (bs "A") [(bs "B", bs "CD")]) = bs "Canister ID [65] is not within the certificate's range: [([66], [67, 68])]" /\
  cert_message debug_bytes debug_bytes [] (MissingTimePathInTree [bs "time"]) = bs "Time not found in certificate at path: [[116, 105, 109, 101]]" /\
  cert_message debug_bytes debug_bytes [] (DerKeyLengthMismatch 133 5) = bs "BLS DER-encoded public key must be 133 bytes long, but is 5 bytes long".
Proof.
  assert (T : forall sep, told_by debug_bytes sep).
  { intros sep p q r r' E. apply bytes_prefix_free in E. destruct E as [-> E]. apply app_inv_head in E. auto. }
  split; [apply T|]. split; [apply T|]. split; [apply T|]. vm_compute. repeat split.
Qed.
Definition ex_cert (time : bytes) : certificate := mk_cert (HLabeled (bs "time") (HLeaf time)) [] None.
Definition many (n : nat) (b : N) : bytes := repeat (n2b b) n.
Example C149_ex :
  time_failure (ex_cert (many 12 255)) = Some [] /\ time_failure (ex_cert []) = Some [] /\ time_failure (ex_cert (many 12 255 ++ bs "zab")) = Some (bs "ab") /\
  verify_certificate_e (2 ^ 32) 1000 true (fun m => m) (fun _ _ => true) (fun _ _ _ => true) (ex_cert (many 12 255)) [] [] 10 5 = RErr TimeDecodingFailed /\
  cert_message debug_bytes debug_bytes [] TimeDecodingFailed = bs "Certificate time decoding failed due to an overflow: []".
Proof. vm_compute. repeat split. Qed.
Example C148_ex :
  asset_message [] (fun p => p) (NoAssetMatchingRequestUrl (bs "/x")) = bs "No asset was found matching the current request url: /x" /\
  router_reports asset_chunk_size (fun m => m) (fun u => Some u) (fun _ => Some None) (fun _ => None) (2 ^ 32) (NoAssetMatchingRequestUrl (bs "/no thing")).
Proof.
  split; [reflexivity|]. apply (by_serve _ _ _ _ _ _ (fun l => l) router_new [] (ex_request [])); [exact (ReachStart _ _ _ _ [] ndefault eq_refl)|vm_compute; reflexivity].
Qed.
