(** C138, C139: the texts of errors. *)
From Coq Require Import List Arith NArith Lia Bool Hexadecimal HexadecimalN.
From Verif Require Import HttpHash Cel Bytes Text Utf8 Utf8Spec Utf8Split Props_Utf8 AssetRouter Props_Range JsonText Errors JsErrors Cbor HttpTypes Verify JsBindings Messages Header Wildcard V2.
Import ListNotations.
Local Open Scope N_scope.

(** ** Specification *)
(** The strings an error is about: the segments of the expression paths and the path of the request. *)
Definition texts (x : rv_error) : list bytes :=
  match x with
  | UnexpectedExpressionPathPrefix p | UnexpectedExpressionPathSuffix p | ExactExpressionPathNotFoundInTree p => p
  | ExactExpressionPathMismatch p r | WildcardExpressionPathNotFoundInTree p r | WildcardExpressionPathMismatch p r => r :: p
  | ExactExpressionPathMightExistInTree p q r | MoreSpecificWildcardExpressionMightExistInTree p q r => r :: p ++ q
  | _ => []
  end.
(** The same error, with the same versions and paths; what is wrong with a certificate is not told apart. *)
Definition same_error (x y : rv_error) : Prop :=
  x = y \/ exists e e', x = CertificateVerificationFailed e /\ y = CertificateVerificationFailed e'.
(** printable, and on one line *)
Definition one_line (s : bytes) : Prop := Forall (fun b => 32 <= b2n b /\ b2n b <> 127) s.

(** ** Hexadecimal *)
Lemma hex_bytes_inj u : forall v r r', hex_bytes u ++ "}"%byte :: r = hex_bytes v ++ "}"%byte :: r' -> u = v /\ r = r'.
Proof.
  induction u; intros v r r' E; destruct v; cbn [hex_bytes app] in E; injection E as E; try discriminate E;
    try (match goal with X : _ = _ ++ _ |- _ => apply IHu in X; destruct X as [-> ->]; auto end); subst; auto.
Qed.
Lemma hex_inj c c' r r' : hex c ++ "}"%byte :: r = hex c' ++ "}"%byte :: r' -> c = c' /\ r = r'.
Proof.
  intro E. apply hex_bytes_inj in E. destruct E as [E ->]. split; [|reflexivity].
  rewrite <- (HexadecimalN.Unsigned.of_to c), E. apply HexadecimalN.Unsigned.of_to.
Qed.

(** ** Characters *)
Definition width (b : byte) : nat := if b2n b <? 128 then 1 else if b2n b <? 224 then 2 else if b2n b <? 240 then 3 else 4.
Lemma utf8_of_head c : scalar c -> exists b l, utf8_of c = b :: l /\ length (utf8_of c) = width b /\ (c < 128 -> b2n b = c) /\ (128 <= c -> 192 <= b2n b).
Proof.
  intros [M _]. unfold utf8_of.
  destruct (c <? 128) eqn:E1; [apply N.ltb_lt in E1|apply N.ltb_ge in E1].
  { exists (n2b c), []. split; [reflexivity|]. rewrite (small_b c) by lia || unfold width; rewrite ?small_b by lia.
    split; [|split; lia]. unfold width. rewrite small_b by lia. rewrite (proj2 (N.ltb_lt c 128) E1). reflexivity. }
  destruct (c <? 2048) eqn:E2; [apply N.ltb_lt in E2|apply N.ltb_ge in E2].
  { assert (B : c / 64 < 32) by (apply N.div_lt_upper_bound; lia).
    exists (n2b (192 + c / 64)), [tail6 c]. split; [reflexivity|]. unfold width. rewrite small_b by lia.
    replace (192 + c / 64 <? 128) with false by (symmetry; apply N.ltb_ge; lia). rewrite (proj2 (N.ltb_lt (192 + c / 64) 224)) by lia. split; [reflexivity|split; lia]. }
  destruct (c <? 65536) eqn:E3; [apply N.ltb_lt in E3|apply N.ltb_ge in E3].
  { assert (B : c / 4096 < 16) by (apply N.div_lt_upper_bound; lia).
    exists (n2b (224 + c / 4096)), [tail6 (c / 64); tail6 c]. split; [reflexivity|]. unfold width. rewrite small_b by lia.
    replace (224 + c / 4096 <? 128) with false by (symmetry; apply N.ltb_ge; lia). replace (224 + c / 4096 <? 224) with false by (symmetry; apply N.ltb_ge; lia).
    rewrite (proj2 (N.ltb_lt (224 + c / 4096) 240)) by lia. split; [reflexivity|split; lia]. }
  assert (B : c / 262144 < 5) by (apply N.div_lt_upper_bound; lia).
  exists (n2b (240 + c / 262144)), [tail6 (c / 4096); tail6 (c / 64); tail6 c]. split; [reflexivity|]. unfold width. rewrite small_b by lia.
  replace (240 + c / 262144 <? 128) with false by (symmetry; apply N.ltb_ge; lia). replace (240 + c / 262144 <? 224) with false by (symmetry; apply N.ltb_ge; lia).
  replace (240 + c / 262144 <? 240) with false by (symmetry; apply N.ltb_ge; lia). split; [reflexivity|split; lia].
Qed.
Lemma app_same_length {A} (a : list A) : forall b r r', length a = length b -> a ++ r = b ++ r' -> a = b /\ r = r'.
Proof.
  induction a as [|x a IH]; intros [|y b] r r' L E; try discriminate L; cbn [app] in E; [auto|].
  injection E as -> E. cbn [length] in L. injection L as L. destruct (IH b r r' L E) as [-> ->]. auto.
Qed.
Lemma utf8_of_prefix_free c c' r r' : scalar c -> scalar c' -> utf8_of c ++ r = utf8_of c' ++ r' -> c = c' /\ r = r'.
Proof.
  intros S S' E. destruct (utf8_of_head c S) as (b & l & A & L & _), (utf8_of_head c' S') as (b' & l' & A' & L' & _).
  assert (b = b'). { rewrite A, A' in E. cbn [app] in E. injection E as E _. exact E. } subst b'.
  destruct (app_same_length _ _ r r' (eq_trans L (eq_sym L')) E) as [U ->]. split; [|reflexivity].
  assert (D := decode_of c [] S). assert (D' := decode_of c' [] S'). rewrite U in D. rewrite D in D'. cbn in D'. injection D' as <-. reflexivity.
Qed.
Section Debug.
  Variable plain : N -> bool.
  Notation dc := (debug_char plain).
  (** what follows the backslash, or the character itself *)
  Lemma dc_cases c : (exists k, dc c = "\"%byte :: k :: [] /\ (c, k) = (0, "0"%byte) \/ dc c = "\"%byte :: k :: [] /\ (c, k) = (9, "t"%byte) \/ dc c = "\"%byte :: k :: [] /\ (c, k) = (13, "r"%byte)
       \/ dc c = "\"%byte :: k :: [] /\ (c, k) = (10, "n"%byte) \/ dc c = "\"%byte :: k :: [] /\ (c, k) = (34, """"%byte) \/ dc c = "\"%byte :: k :: [] /\ (c, k) = (92, "\"%byte)) \/
    dc c = utf8_of c /\ c <> 34 /\ c <> 92 \/ dc c = "\"%byte :: "u"%byte :: "{"%byte :: hex c ++ "}"%byte :: [].
  Proof.
    unfold debug_char. 
    destruct (c =? 0) eqn:E0; [apply N.eqb_eq in E0; subst c; left; eexists; left; split; reflexivity|].
    destruct (c =? 9) eqn:E1; [apply N.eqb_eq in E1; subst c; left; eexists; right; left; split; reflexivity|].
    destruct (c =? 13) eqn:E2; [apply N.eqb_eq in E2; subst c; left; eexists; right; right; left; split; reflexivity|].
    destruct (c =? 10) eqn:E3; [apply N.eqb_eq in E3; subst c; left; eexists; right; right; right; left; split; reflexivity|].
    destruct (c =? 34) eqn:E4; [apply N.eqb_eq in E4; subst c; left; eexists; right; right; right; right; left; split; reflexivity|].
    destruct (c =? 92) eqn:E5; [apply N.eqb_eq in E5; subst c; left; eexists; right; right; right; right; right; split; reflexivity|].
    apply N.eqb_neq in E4, E5. right. destruct (plain c); [left; auto|right; reflexivity].
  Qed.
  Lemma utf8_no_backslash c b l : scalar c -> c <> 34 -> c <> 92 -> utf8_of c = b :: l -> b <> "\"%byte /\ b <> """"%byte.
  Proof.
    intros S N1 N2 E. destruct (utf8_of_head c S) as (b' & l' & A & _ & L & M). rewrite E in A. injection A as <- <-.
    split; intros ->; destruct (N.lt_ge_cases c 128) as [X|X]; try (specialize (L X); cbn in L; lia); specialize (M X); cbn in M; lia.
  Qed.
  Lemma dc_head c : scalar c -> exists b l, dc c = b :: l /\ b <> """"%byte.
  Proof.
    intro S. destruct (dc_cases c) as [(k & C)|[(E & N1 & N2)|E]].
    - destruct C as [[E _]|[[E _]|[[E _]|[[E _]|[[E _]|[E _]]]]]]; rewrite E; do 2 eexists; (split; [reflexivity|]); discriminate.
    - destruct (utf8_of_head c S) as (b & l & A & _). exists b, l. rewrite E. split; [exact A|]. exact (proj2 (utf8_no_backslash c b l S N1 N2 A)).
    - rewrite E. do 2 eexists. split; [reflexivity|discriminate].
  Qed.
  Lemma dc_prefix_free c c' r r' : scalar c -> scalar c' -> dc c ++ r = dc c' ++ r' -> c = c' /\ r = r'.
  Proof.
    intros S S' E.
    destruct (dc_cases c) as [(k & C)|[(D & N1 & N2)|D]]; destruct (dc_cases c') as [(k' & C')|[(D' & N1' & N2')|D']].
    - destruct C as [[D Q]|[[D Q]|[[D Q]|[[D Q]|[[D Q]|[D Q]]]]]]; injection Q as -> ->;
        destruct C' as [[D' Q]|[[D' Q]|[[D' Q]|[[D' Q]|[[D' Q]|[D' Q]]]]]]; injection Q as -> ->;
        rewrite ?D, ?D' in E; cbn [app] in E; injection E as E; try discriminate E; auto.
    - exfalso. destruct (utf8_of_head c' S') as (b & l & A & _). rewrite D', A in E. destruct (utf8_no_backslash c' b l S' N1' N2' A) as [X _].
      destruct C as [[D _]|[[D _]|[[D _]|[[D _]|[[D _]|[D _]]]]]]; rewrite D in E; cbn [app] in E; injection E as E _; congruence.
    - exfalso. destruct C as [[D Q]|[[D Q]|[[D Q]|[[D Q]|[[D Q]|[D Q]]]]]]; injection Q as -> ->; rewrite D, D' in E; cbn [app] in E; injection E as E; discriminate E.
    - exfalso. destruct (utf8_of_head c S) as (b & l & A & _). rewrite D, A in E. destruct (utf8_no_backslash c b l S N1 N2 A) as [X _].
      destruct C' as [[D' _]|[[D' _]|[[D' _]|[[D' _]|[[D' _]|[D' _]]]]]]; rewrite D' in E; cbn [app] in E; injection E as E _; congruence.
    - rewrite D, D' in E. exact (utf8_of_prefix_free c c' r r' S S' E).
    - exfalso. destruct (utf8_of_head c S) as (b & l & A & _). rewrite D, A in E. destruct (utf8_no_backslash c b l S N1 N2 A) as [X _]. rewrite D' in E. cbn [app] in E. injection E as E _. congruence.
    - exfalso. destruct C' as [[D' Q]|[[D' Q]|[[D' Q]|[[D' Q]|[[D' Q]|[D' Q]]]]]]; injection Q as -> ->; rewrite D, D' in E; cbn [app] in E; injection E as E; discriminate E.
    - exfalso. destruct (utf8_of_head c' S') as (b & l & A & _). rewrite D', A in E. destruct (utf8_no_backslash c' b l S' N1' N2' A) as [X _]. rewrite D in E. cbn [app] in E. injection E as E _. congruence.
    - rewrite D, D' in E. cbn [app] in E. injection E as E. rewrite <- !app_assoc in E. cbn [app] in E. exact (hex_inj c c' r r' E).
  Qed.
  Lemma chars_prefix_free cs : forall cs' r r', Forall scalar cs -> Forall scalar cs' -> flat_map dc cs ++ quote ++ r = flat_map dc cs' ++ quote ++ r' -> cs = cs' /\ r = r'.
  Proof.
    induction cs as [|c cs IH]; intros [|c' cs'] r r' F F' E; cbn [flat_map app] in E.
    - injection E as ->. auto.
    - exfalso. destruct (dc_head c' (Forall_inv F')) as (b & l & A & N). rewrite A in E. cbn [app] in E. injection E as E _. congruence.
    - exfalso. destruct (dc_head c (Forall_inv F)) as (b & l & A & N). rewrite A in E. cbn [app] in E. injection E as E _. congruence.
    - rewrite <- !app_assoc in E. apply dc_prefix_free in E; [|exact (Forall_inv F)|exact (Forall_inv F')]. destruct E as [-> E].
      destruct (IH cs' r r' (Forall_inv_tail F) (Forall_inv_tail F') E) as [-> ->]. auto.
  Qed.
  Definition text (s : bytes) : Prop := utf8_valid s = true.
  Lemma chars_text s : text s -> Forall scalar (chars s) /\ s = concat (map utf8_of (chars s)).
  Proof.
    unfold text, utf8_valid, chars. destruct (utf8_decode s) as [cs|] eqn:E; [|discriminate]. intros _. apply C63_text_is_unicode in E. exact E.
  Qed.
  Lemma str_prefix_free s s' r r' : text s -> text s' -> debug_str plain s ++ r = debug_str plain s' ++ r' -> s = s' /\ r = r'.
  Proof.
    intros T T' E. destruct (chars_text s T) as [F C], (chars_text s' T') as [F' C']. unfold debug_str in E. rewrite <- !app_assoc in E. apply app_inv_head in E.
    apply chars_prefix_free in E; [|exact F|exact F']. destruct E as [E ->]. split; [|reflexivity]. rewrite C, C', E. reflexivity.
  Qed.
  Lemma strs_prefix_free l : forall l' r r', Forall text l -> Forall text l' -> debug_strs plain l ++ r = debug_strs plain l' ++ r' -> l = l' /\ r = r'.
  Proof.
    unfold debug_strs, debug_vec. intros l' r r' F F' E. rewrite <- !app_assoc in E. cbn [app bs] in E. change (bs "[") with ["["%byte] in E. change (bs "]") with ["]"%byte] in E. cbn [app] in E. injection E as E.
    revert l' F F' E. induction l as [|a l IH]; intros [|a' l'] F F' E.
    - cbn in E. injection E as ->. auto.
    - exfalso. destruct l'; cbn [map join] in E; unfold debug_str, quote in E; rewrite <- ?app_assoc in E; cbn in E; discriminate E.
    - exfalso. destruct l; cbn [map join] in E; unfold debug_str, quote in E; rewrite <- ?app_assoc in E; cbn in E; discriminate E.
    - destruct l as [|b l], l' as [|b' l']; cbn [map join] in E; rewrite <- ?app_assoc in E;
        (apply str_prefix_free in E; [|exact (Forall_inv F)|exact (Forall_inv F')]); destruct E as [-> E].
      + injection E as ->. auto.
      + cbn in E. discriminate E.
      + cbn in E. discriminate E.
      + apply app_inv_head in E. destruct (IH (b' :: l') (Forall_inv_tail F) (Forall_inv_tail F') E) as [-> ->]. auto.
  Qed.
End Debug.

(** ** Messages *)
Fixpoint clash (a b : bytes) : bool := match a, b with x :: a', y :: b' => if byte_eqb x y then clash a' b' else true | _, _ => false end.
Lemma clash_no a : forall b r r', clash a b = true -> a ++ r <> b ++ r'.
Proof.
  induction a as [|x a IH]; intros [|y b] r r' C E; try discriminate C. cbn [app] in E. injection E as -> E. cbn [clash] in C.
  rewrite (proj2 (byte_eqb_eq y y) eq_refl) in C. exact (IH b r r' C E).
Qed.
Lemma dec_clash n m a b r r' : clash a b = true -> match a, b with x :: _, y :: _ => (b2n x <? 48) && (b2n y <? 48) = true | _, _ => False end -> dec n ++ a ++ r = dec m ++ b ++ r' -> False.
Proof.
  intros C B E. destruct a as [|x a], b as [|y b]; try contradiction. apply andb_true_iff in B. destruct B as [B1 B2]. apply N.ltb_lt in B1, B2.
  assert (X : forall u v, Forall (fun b => 48 <= b2n b <= 57) u -> Forall (fun b => 48 <= b2n b <= 57) v -> u ++ (x :: a) ++ r = v ++ (y :: b) ++ r' -> False).
  { induction u as [|c u IH]; intros [|c' v] Fu Fv Z.
    - exact (clash_no _ _ _ _ C Z).
    - cbn [app] in Z. injection Z as -> _. assert (Q := Forall_inv Fv). cbv beta in Q. lia.
    - cbn [app] in Z. injection Z as -> _. assert (Q := Forall_inv Fu). cbv beta in Q. lia.
    - injection Z as -> Z. exact (IH v (Forall_inv_tail Fu) (Forall_inv_tail Fv) Z). }
  exact (X _ _ (dec_digits n) (dec_digits m) E).
Qed.
Definition lead (e : rv_error) : bytes :=
  match e with
  | IoError => bs "IO error: """
  | UnsupportedVerificationVersion _ _ _ => bs "The requested verification version "
  | RequestedVerificationVersionMismatch _ _ => bs "The requested verification version "
  | UnexpectedExpressionPathPrefix _ => bs "The expression path provided by the ""IC-Certificate"" response header ("
  | UnexpectedExpressionPathSuffix _ => bs "The expression path provided by the ""IC-Certificate"" response header ("
  | ExactExpressionPathNotFoundInTree _ => bs "The exact expression path provided by the ""IC-Certificate"" response header ("
  | ExactExpressionPathMismatch _ _ => bs "The exact expression path provided by the ""IC-Certificate"" response header ("
  | ExactExpressionPathMightExistInTree _ _ _ => bs "A wildcard expression path was provided by the ""IC-Certificate"" response header ("
  | WildcardExpressionPathNotFoundInTree _ _ => bs "The wildcard expression path provided by the ""IC-Certificate"" response header ("
  | WildcardExpressionPathMismatch _ _ => bs "The wildcard expression path provided by the ""IC-Certificate"" response header ("
  | MoreSpecificWildcardExpressionMightExistInTree _ _ _ => bs "A more specific wildcard expression path ("
  | HttpCertificationError _ => bs "HTTP Certification error: """
  | e => message (fun _ => false) [] [] e
  end.
Lemma lead_of plain io u e : exists t, message plain io u e = lead e ++ t.
Proof. destruct e; cbn [message lead]; rewrite <- ?app_assoc; try (eexists; reflexivity); exists []; rewrite app_nil_r; reflexivity. Qed.
Lemma kinds_clash plain io u io' u' x y : clash (lead x) (lead y) = true -> message plain io u x <> message plain io' u' y.
Proof. destruct (lead_of plain io u x) as [t ->], (lead_of plain io' u' y) as [t' ->]. apply clash_no. Qed.
Lemma Forall_split {A} (P : A -> Prop) a b : Forall P (a ++ b) -> Forall P a /\ Forall P b.
Proof. apply Forall_app. Qed.

Theorem C138_message_tells_the_error :
  forall (plain : N -> bool) (io_text utf8_text io_text' utf8_text' : bytes) (x y : rv_error),
  (* Rust strings are UTF-8 *)
  Forall (fun s => utf8_valid s = true) (texts x) -> Forall (fun s => utf8_valid s = true) (texts y) ->
  message plain io_text utf8_text x = message plain io_text' utf8_text' y -> same_error x y.
Proof.
  intros plain io u io' u' x y Tx Ty E. change (Forall text (texts x)) in Tx. change (Forall text (texts y)) in Ty.
  destruct x, y; try (left; reflexivity); try (right; do 2 eexists; split; reflexivity);
    try (exfalso; revert E; apply kinds_clash; vm_compute; reflexivity); cbn [texts] in Tx, Ty; cbn [message] in E; rewrite <- ?app_assoc in E; apply app_inv_head in E.
  - apply dec_prefix_free in E; [|vm_compute; reflexivity]. destruct E as [-> E]. apply (app_inv_head (bs "is not supported, the current supported range is ")) in E.
    apply dec_prefix_free in E; [|vm_compute; reflexivity]. destruct E as [-> E]. apply dec_inj in E. subst. left. reflexivity.
  - exfalso. revert E. apply dec_clash; vm_compute; reflexivity.
  - exfalso. revert E. apply dec_clash; vm_compute; reflexivity.
  - apply dec_prefix_free in E; [|vm_compute; reflexivity]. destruct E as [-> E]. apply (app_inv_head (bs "is lower than the minimum requested version ")) in E. apply dec_inj in E. subst. left. reflexivity.
  - apply strs_prefix_free in E; [|assumption|assumption]. destruct E as [-> _]. left. reflexivity.
  - exfalso. apply strs_prefix_free in E; [|assumption|assumption]. destruct E as [_ E]. discriminate E.
  - exfalso. apply strs_prefix_free in E; [|assumption|assumption]. destruct E as [_ E]. discriminate E.
  - apply strs_prefix_free in E; [|assumption|assumption]. destruct E as [-> _]. left. reflexivity.
  - apply strs_prefix_free in E; [|assumption|assumption]. destruct E as [-> _]. left. reflexivity.
  - exfalso. apply strs_prefix_free in E; [|assumption|exact (Forall_inv_tail Ty)]. destruct E as [_ E]. discriminate E.
  - exfalso. apply strs_prefix_free in E; [|exact (Forall_inv_tail Tx)|assumption]. destruct E as [_ E]. discriminate E.
  - apply strs_prefix_free in E; [|exact (Forall_inv_tail Tx)|exact (Forall_inv_tail Ty)]. destruct E as [-> E]. apply app_inv_head in E.
    apply str_prefix_free in E; [|exact (Forall_inv Tx)|exact (Forall_inv Ty)]. destruct E as [-> _]. left. reflexivity.
  - destruct (Forall_split _ _ _ (Forall_inv_tail Tx)) as [T1 T2], (Forall_split _ _ _ (Forall_inv_tail Ty)) as [T3 T4].
    apply strs_prefix_free in E; [|exact T1|exact T3]. destruct E as [-> E]. apply app_inv_head in E. apply strs_prefix_free in E; [|exact T2|exact T4]. destruct E as [-> E]. apply app_inv_head in E.
    apply str_prefix_free in E; [|exact (Forall_inv Tx)|exact (Forall_inv Ty)]. destruct E as [-> _]. left. reflexivity.
  - apply strs_prefix_free in E; [|exact (Forall_inv_tail Tx)|exact (Forall_inv_tail Ty)]. destruct E as [-> E]. apply app_inv_head in E.
    apply str_prefix_free in E; [|exact (Forall_inv Tx)|exact (Forall_inv Ty)]. destruct E as [-> _]. left. reflexivity.
  - exfalso. apply strs_prefix_free in E; [|exact (Forall_inv_tail Tx)|exact (Forall_inv_tail Ty)]. destruct E as [_ E]. discriminate E.
  - exfalso. apply strs_prefix_free in E; [|exact (Forall_inv_tail Tx)|exact (Forall_inv_tail Ty)]. destruct E as [_ E]. discriminate E.
  - apply strs_prefix_free in E; [|exact (Forall_inv_tail Tx)|exact (Forall_inv_tail Ty)]. destruct E as [-> E]. apply app_inv_head in E.
    apply str_prefix_free in E; [|exact (Forall_inv Tx)|exact (Forall_inv Ty)]. destruct E as [-> _]. left. reflexivity.
  - destruct (Forall_split _ _ _ (Forall_inv_tail Tx)) as [T1 T2], (Forall_split _ _ _ (Forall_inv_tail Ty)) as [T3 T4].
    apply strs_prefix_free in E; [|exact T2|exact T4]. destruct E as [-> E]. apply app_inv_head in E. apply strs_prefix_free in E; [|exact T1|exact T3]. destruct E as [-> E]. apply app_inv_head in E.
    apply str_prefix_free in E; [|exact (Forall_inv Tx)|exact (Forall_inv Ty)]. destruct E as [-> _]. left. reflexivity.
  - apply app_inv_tail in E. destruct e, e0; cbn [http_message] in E; try (exfalso; revert E; apply clash_no; vm_compute; reflexivity); [|left; reflexivity].
    apply app_inv_head in E. apply app_inv_tail in E. subst. left. reflexivity.
Qed.
Print Assumptions C138_message_tells_the_error.

(** ** The errors of the verifier *)
Lemma text_app a b : text a -> text b -> text (a ++ b).
Proof.
  unfold text, utf8_valid. destruct (utf8_decode a) as [ca|] eqn:A; [|discriminate]. destruct (utf8_decode b) as [cb|] eqn:B; [|discriminate]. intros _ _.
  apply C63_text_is_unicode in A, B. destruct A as [Fa ->], B as [Fb ->].
  rewrite (proj2 (C63_text_is_unicode (concat (map utf8_of ca) ++ concat (map utf8_of cb)) (ca ++ cb))); [reflexivity|].
  split; [apply Forall_app; auto|]. rewrite map_app, concat_app. reflexivity.
Qed.
Lemma text_concat l : Forall text l -> text (concat l).
Proof. induction 1; [reflexivity|]. cbn [concat]. apply text_app; assumption. Qed.
Lemma text_parts path : text path -> Forall text (request_parts path).
Proof.
  intro T. unfold request_parts. apply Forall_app. split.
  - assert (F := utf8_split "/"%byte path eq_refl T). apply Forall_forall. intros s I. apply filter_In in I. rewrite Forall_forall in F. exact (F s (proj1 I)).
  - destruct (ends_with_slash path); repeat constructor.
Qed.
Lemma text_removelast (l : list bytes) : Forall text l -> Forall text (removelast l).
Proof.
  induction l as [|a l IH]; intro F; [constructor|]. destruct l as [|b l]; [constructor|]. change (removelast (a :: b :: l)) with (a :: removelast (b :: l)).
  constructor; [exact (Forall_inv F)|apply IH, (Forall_inv_tail F)].
Qed.
Lemma text_tl (l : list bytes) : Forall text l -> Forall text (tl l).
Proof. destruct 1; [constructor|assumption]. Qed.
Lemma text_strip p : Forall text p -> Forall text (strip_path_affixes p).
Proof.
  intro F. unfold strip_path_affixes. cbv zeta. set (p1 := if first_is p path_prefix then tl p else p). assert (F1 : Forall text p1) by (unfold p1; destruct (first_is p path_prefix); [apply text_tl|]; exact F).
  clearbody p1. set (p2 := if last_is p1 exact_terminator || last_is p1 wildcard_terminator then removelast p1 else p1).
  assert (F2 : Forall text p2) by (unfold p2; destruct (last_is p1 exact_terminator || last_is p1 wildcard_terminator); [apply text_removelast|]; exact F1).
  clearbody p2. destruct ((1 <? length p2)%nat && first_is p2 dir_separator); [apply text_tl|]; exact F2.
Qed.
Lemma text_msw fuel : forall q w l, Forall text q -> msw_loop fuel q w = Some l -> Forall (Forall text) l.
Proof.
  induction fuel as [|f IH]; intros q w l F E; cbn [msw_loop] in E; destruct ((length w <? length q)%nat || negb (opt_bytes_eqb (last_opt q) (last_opt w)));
    try discriminate E; try (injection E as <-; constructor).
  destruct (msw_loop f (if last_is q dir_separator then removelast q else removelast q ++ [dir_separator]) w) as [l'|] eqn:L; cbn [option_map] in E; [|discriminate E]. injection E as <-.
  constructor.
  - apply Forall_app. split; [exact F|repeat constructor].
  - apply (IH _ _ _) in L; [exact L|]. destruct (last_is q dir_separator); [apply text_removelast, F|]. apply Forall_app. split; [apply text_removelast, F|repeat constructor].
Qed.
Lemma text_first l t w : Forall (Forall text) l -> first_might_exist l t = Some w -> Forall text w.
Proof.
  induction 1 as [|a l F _ IH]; cbn [first_might_exist]; [discriminate|]. destruct (path_might_exist (path_prefix :: a) t); [|exact IH]. intro E. injection E as <-. constructor; [reflexivity|exact F].
Qed.
Lemma text_expr_path e path t x : Forall text e -> text path -> validate_expr_path_e e path t = RErr x -> Forall text (texts x).
Proof.
  intros Fe Tp. unfold validate_expr_path_e. destruct (negb (first_is e path_prefix)); [intro E; injection E as <-; exact Fe|].
  destruct (negb (last_is e exact_terminator || last_is e wildcard_terminator)); [intro E; injection E as <-; exact Fe|].
  cbv zeta. set (parts := path_prefix :: request_parts path). assert (Fp : Forall text parts) by (constructor; [reflexivity|apply text_parts, Tp]). clearbody parts.
  set (exact := parts ++ [exact_terminator]). assert (Fx : Forall text exact) by (apply Forall_app; split; [exact Fp|repeat constructor]). clearbody exact.
  destruct (path_eqb e exact); [destruct (path_exists e t); [discriminate|]; intro E; injection E as <-; exact Fe|].
  destruct (last_is e exact_terminator); [intro E; injection E as <-; constructor; [apply text_concat, Fx|exact Fe]|].
  destruct (path_might_exist exact t); [intro E; injection E as <-; constructor; [exact Tp|apply Forall_app; auto]|].
  destruct (negb (wildcard_valid (removelast e) parts)); [intro E; injection E as <-; constructor; [exact Tp|apply text_removelast, Fe]|].
  destruct (more_specific_wildcards_for parts e) as [l|] eqn:L; [|discriminate].
  destruct (first_might_exist l t) as [w|] eqn:W.
  - intro E. injection E as <-. constructor; [exact Tp|]. apply Forall_app. split; [exact Fe|]. refine (text_first l t w _ W). unfold more_specific_wildcards_for in L. exact (text_msw _ _ _ _ (text_strip _ Fp) L).
  - destruct (path_exists e t); [discriminate|]. intro E. injection E as <-. constructor; [exact Tp|exact Fe].
Qed.
Lemma text_strings umod cap i l : strings_from_cbor umod cap i = OOk l -> Forall text l.
Proof.
  unfold strings_from_cbor. destruct (parse_cbor umod cap i) as [v| | |]; cbn [out_bind]; try discriminate. destruct v; try discriminate.
  revert l. induction l0 as [|a r IH]; intros l E; cbn [to_strings] in E; [injection E as <-; constructor|].
  destruct a; try discriminate E. destruct (utf8_valid b) eqn:V; [|discriminate E]. destruct (to_strings r) as [ss| | |]; cbn [out_bind] in E; try discriminate E. injection E as <-. constructor; [exact V|auto].
Qed.
Definition slots_text (s : slots) : Prop := match s_path s with Some e => Forall text e | None => True end.
Section Runs.
  Variables (umod cap_max : N) (checked : bool) (H : bytes -> bytes) (ple : bytes -> bytes -> bool)
            (vs : bytes -> bytes -> bytes -> bool) (uri_path : bytes -> option bytes) (uri_query : bytes -> option (option bytes))
            (gunzip inflate : bytes -> option bytes).
  Lemma field_text s f s' : slots_text s -> add_field_e umod cap_max s f = ROk s' -> slots_text s'.
  Proof.
    intros T E. unfold add_field_e in E. destruct (header_field f) as [[name v]|]; [|injection E as <-; exact T].
    destruct (bytes_eqb name (bs "certificate")).
    { destruct (fill_e (s_cert s) (decode_certificate_e umod cap_max) v); cbn [rbind] in E; try discriminate E. injection E as <-. exact T. }
    destruct (bytes_eqb name (bs "tree")).
    { destruct (fill_e (s_tree s) (decode_tree_e umod cap_max) v); cbn [rbind] in E; try discriminate E. injection E as <-. exact T. }
    destruct (bytes_eqb name (bs "version")).
    { destruct (fill_e (s_version s) decode_version_e v); cbn [rbind] in E; try discriminate E. injection E as <-. exact T. }
    destruct (bytes_eqb name (bs "expr_path")); [|injection E as <-; exact T].
    destruct (fill_e (s_path s) (decode_expr_path_e umod cap_max) v) as [p| | |] eqn:P; cbn [rbind] in E; try discriminate E. injection E as <-. unfold slots_text. cbn [s_path].
    unfold fill_e in P. unfold slots_text in T. destruct (s_path s) as [q|]; [injection P as <-; exact T|].
    destruct (decode_expr_path_e umod cap_max v) as [q| | |] eqn:D; cbn [rbind] in P; try discriminate P. injection P as <-.
    unfold decode_expr_path_e in D. destruct (decode_b64_e v) as [b| | |]; cbn [rbind] in D; try discriminate D.
    destruct (strings_from_cbor umod cap_max b) as [l| | |] eqn:SB; cbn [with_err] in D; try discriminate D. injection D as <-. exact (text_strings _ _ _ _ SB).
  Qed.
  Lemma fields_text fs : forall s s', slots_text s -> add_fields_e umod cap_max s fs = ROk s' -> slots_text s'.
  Proof.
    induction fs as [|f fs IH]; intros s s' T E; cbn [add_fields_e] in E; [injection E as <-; exact T|].
    destruct (add_field_e umod cap_max s f) as [s1| | |] eqn:F; cbn [rbind] in E; try discriminate E. exact (IH s1 s' (field_text s f s1 T F) E).
  Qed.
  Lemma header_text h hd e : header_from_e umod cap_max h = ROk hd -> h_expr_path hd = Some e -> Forall text e.
  Proof.
    unfold header_from_e. destruct (add_fields_e umod cap_max (mk_slots None None None None) (split_on "," h)) as [s| | |] eqn:F; cbn [rbind]; try discriminate.
    apply fields_text in F; [|exact I]. destruct (s_cert s); [|discriminate]. destruct (s_tree s); [|discriminate]. intro E. injection E as <-. cbn [h_expr_path]. unfold slots_text in F. intro P. rewrite P in F. exact F.
  Qed.
  Definition no_texts {A} (r : res rv_error A) : Prop := forall x, r = RErr x -> texts x = [].
  Lemma no_with {A} e (o : out A) : texts e = [] -> no_texts (with_err e o).
  Proof. intros T x. destruct o; cbn [with_err]; intro E; try discriminate E. injection E as <-. exact T. Qed.
  Lemma no_bind {A B} (r : res rv_error A) (f : A -> res rv_error B) : no_texts r -> (forall a, no_texts (f a)) -> no_texts (rbind r f).
  Proof. intros R F x. destruct r; cbn [rbind]; intro E; try discriminate E; [exact (F _ x E)|]. injection E as <-. exact (R _ eq_refl). Qed.
  Lemma no_err {A} e : texts e = [] -> no_texts (@RErr rv_error A e).
  Proof. intros T x E. injection E as <-. exact T. Qed.
  Lemma no_ok {A} (a : A) : no_texts (@ROk rv_error A a).
  Proof. intros x E. discriminate E. Qed.
  Lemma no_http {A} (r : res http_error A) : no_texts (rmap_err HttpCertificationError r).
  Proof. intros x. destruct r; cbn [rmap_err]; intro E; try discriminate E. injection E as <-. reflexivity. Qed.
  Lemma no_cert {A} (r : res cert_error A) : no_texts (rmap_err CertificateVerificationFailed r).
  Proof. intros x. destruct r; cbn [rmap_err]; intro E; try discriminate E. injection E as <-. reflexivity. Qed.
  Lemma no_fill {A} (s : option A) d v : (forall v, no_texts (d v)) -> no_texts (fill_e s d v).
  Proof. intro D. destruct s; cbn [fill_e]; [apply no_ok|]. apply no_bind; [apply D|]. intro. apply no_ok. Qed.
  Lemma no_header h : no_texts (header_from_e umod cap_max h).
  Proof.
    assert (B : forall v, no_texts (decode_b64_e v)) by (intro; apply no_with; reflexivity).
    assert (F : forall fs s, no_texts (add_fields_e umod cap_max s fs)).
    { induction fs as [|f fs IH]; intro s; cbn [add_fields_e]; [apply no_ok|]. apply no_bind; [|intro; apply IH]. unfold add_field_e. destruct (header_field f) as [[name v]|]; [|apply no_ok].
      destruct (bytes_eqb name (bs "certificate")); [apply no_bind; [apply no_fill; intro; apply no_bind; [apply B|intro; apply no_with; reflexivity]|intro; apply no_ok]|].
      destruct (bytes_eqb name (bs "tree")); [apply no_bind; [apply no_fill; intro; apply no_bind; [apply B|intro; apply no_with; reflexivity]|intro; apply no_ok]|].
      destruct (bytes_eqb name (bs "version")); [apply no_bind; [apply no_fill; intro; apply no_with; reflexivity|intro; apply no_ok]|].
      destruct (bytes_eqb name (bs "expr_path")); [apply no_bind; [apply no_fill; intro; apply no_bind; [apply B|intro; apply no_with; reflexivity]|intro; apply no_ok]|apply no_ok]. }
    unfold header_from_e. apply no_bind; [apply F|]. intro s. destruct (s_cert s); [|apply no_err; reflexivity]. destruct (s_tree s); [apply no_ok|apply no_err; reflexivity].
  Qed.
  Lemma path_text rq p : get_path_e uri_path rq = ROk p -> text p.
  Proof. unfold get_path_e. destruct (uri_path (rq_url rq)) as [q|]; [|discriminate]. cbv zeta. destruct (utf8_valid (pct_decode q)) eqn:V; [|discriminate]. intro E. injection E as <-. exact V. Qed.
  Lemma no_body b e : no_texts (decode_body_e gunzip inflate b e).
  Proof. unfold decode_body_e. destruct e as [b0|]; [|apply no_ok]. destruct (bytes_eqb b0 (bs "gzip")); [apply no_with; reflexivity|]. destruct (bytes_eqb b0 (bs "deflate")); [apply no_with; reflexivity|apply no_ok]. Qed.
  Lemma some_texts {A} (r : res rv_error A) x : no_texts r -> r = RErr x -> Forall text (texts x).
  Proof. intros N E. rewrite (N x E). constructor. Qed.
  Lemma verify_texts rq rs canister_id now offset key min_version x :
    verify_e umod cap_max checked H ple vs uri_path uri_query gunzip inflate rq rs canister_id now offset key min_version = RErr x -> Forall text (texts x).
  Proof.
    unfold verify_e. destruct (header_get (lower certificate_header_name) (rs_headers rs)) as [hv|]; [|intro E; injection E as <-; constructor].
    destruct (header_from_e umod cap_max hv) as [hd|e0| |] eqn:Hd; cbn [rbind]; try discriminate.
    2:{ intro E. injection E as <-. exact (some_texts _ _ (no_header hv) Hd). }
    destruct (h_version hd <? min_version); [intro E; injection E as <-; constructor|].
    destruct (h_version hd =? 1).
    { apply some_texts. unfold v1_verification_e. repeat (first [apply no_bind; [first [apply no_cert|apply no_http|apply no_body]|intro]]).
      destruct (negb (validate_tree H canister_id (h_cert hd) (h_tree hd))); [apply no_err; reflexivity|]. cbv zeta.
      match goal with |- no_texts (if ?b then _ else _) => destruct b end; [apply no_ok|apply no_err; reflexivity]. }
    destruct (h_version hd =? 2); [|intro E; injection E as <-; constructor].
    destruct (header_get (lower HttpHash.cert_expr_header_name) (rs_headers rs)) as [expr|]; [|intro E; injection E as <-; constructor].
    destruct (h_expr_path hd) as [e|] eqn:P; [|intro E; injection E as <-; constructor]. assert (Fe := header_text hv hd e Hd P).
    destruct (of_opt (Cel.cel_of_text expr)) as [c| | |]; cbn [with_err rbind]; try discriminate; [|intro E; injection E as <-; constructor].
    unfold v2_verification_e. destruct (get_path_e uri_path rq) as [path|h0| |] eqn:G; cbn [rmap_err rbind]; try discriminate; [|intro E; injection E as <-; constructor].
    destruct (verify_certificate_e umod cap_max checked H ple vs (h_cert hd) canister_id key now offset) as [q|h0| |]; cbn [rmap_err rbind]; try discriminate; [|intro E; injection E as <-; constructor].
    destruct (negb (validate_tree H canister_id (h_cert hd) (h_tree hd))); [intro E; injection E as <-; constructor|].
    destruct (validate_expr_path_e e path (h_tree hd)) as [q'|h0| |] eqn:V; cbn [rbind]; try discriminate.
    2:{ intro E. injection E as <-. exact (text_expr_path e path (h_tree hd) h0 Fe (path_text rq path G) V). }
    cbv zeta. apply some_texts.
    assert (W : forall (f : N -> Prop) r l s, True -> no_texts (if r : bool then match s : option bytes with None => RErr MissingCertification | Some ch => ROk (l ch : info) end else RErr InvalidResponseHashes)).
    { intros f r l s _. destruct r; [destruct s; [apply no_ok|apply no_err; reflexivity]|apply no_err; reflexivity]. }
    destruct c as [|rsc|rqc rsc].
    - destruct (validate_expr_hash e (H expr) (h_tree hd)); [apply no_ok|apply no_err; reflexivity].
    - cbn [rbind]. apply (W (fun _ => True)). exact I.
    - apply no_bind; [apply no_bind; [apply no_with; reflexivity|intro; apply no_ok]|]. intro h. apply (W (fun _ => True)). exact I.
  Qed.
End Runs.

(** Two refusals with the same text are refusals for the same reason. *)
Theorem C138_same_text_same_fault :
  forall umod cap_max checked H ple vs uri_path uri_query gunzip inflate rq rs canister_id now offset key min_version
         umod' cap_max' checked' H' ple' vs' uri_path' uri_query' gunzip' inflate' rq' rs' canister_id' now' offset' key' min_version'
         (plain : N -> bool) (io_text utf8_text io_text' utf8_text' : bytes) (x y : rv_error),
  verify_e umod cap_max checked H ple vs uri_path uri_query gunzip inflate rq rs canister_id now offset key min_version = RErr x ->
  verify_e umod' cap_max' checked' H' ple' vs' uri_path' uri_query' gunzip' inflate' rq' rs' canister_id' now' offset' key' min_version' = RErr y ->
  message plain io_text utf8_text x = message plain io_text' utf8_text' y -> same_error x y.
Proof.
  intros. eapply C138_message_tells_the_error; [eapply verify_texts; eassumption|eapply verify_texts; eassumption|eassumption].
Qed.
Print Assumptions C138_same_text_same_fault.

(** JavaScript callers get the code of C108 and this text. *)
Theorem C138_js_messages :
  forall (plain : N -> bool) (io_text utf8_text : bytes) method_ok umod cap_max checked H ple vs uri_path uri_query gunzip inflate rq rs canister_id now offset key min_version (n : N) (m : bytes),
  wasm_verify_m plain io_text utf8_text method_ok umod cap_max checked H ple vs uri_path uri_query gunzip inflate rq rs canister_id now offset key min_version = RErr (n, m) ->
  wasm_verify_e method_ok umod cap_max checked H ple vs uri_path uri_query gunzip inflate rq rs canister_id now offset key min_version = RErr n /\
  exists q r x, request_from_js method_ok rq = OOk q /\ response_from_js rs = OOk r /\
    verify_e umod cap_max checked H ple vs uri_path uri_query gunzip inflate q r canister_id now offset key min_version = RErr x /\ m = message plain io_text utf8_text x.
Proof.
  intros *. unfold wasm_verify_m, wasm_verify_e. destruct (request_from_js method_ok rq) as [q| | |]; try discriminate; destruct (response_from_js rs) as [r| | |]; try discriminate.
  destruct (verify_e umod cap_max checked H ple vs uri_path uri_query gunzip inflate q r canister_id now offset key min_version) as [i|x| |] eqn:V; try discriminate.
  unfold js_error_of. intro E. injection E as <- <-. split; [reflexivity|]. exists q, r, x. auto.
Qed.
Print Assumptions C138_js_messages.

(** Printable paths can be read in the text as they are. *)
Theorem C138_paths_are_readable :
  forall (plain : N -> bool) (io_text utf8_text : bytes) (x : rv_error) (s : bytes),
  (* what the standard library prints as it is *)
  (forall c, 32 <= c < 127 -> plain c = true) ->
  In s (texts x) -> Forall (fun b => 32 <= b2n b < 127 /\ b <> "\"%byte /\ b <> """"%byte) s ->
  exists before after, message plain io_text utf8_text x = before ++ bs """" ++ s ++ bs """" ++ after.
Proof.
  intros plain io u x s P I F.
  assert (D : debug_str plain s = bs """" ++ s ++ bs """").
  { unfold debug_str, chars, quote. rewrite ascii_decode.
    2:{ unfold is_ascii. apply forallb_forall. intros b Ib. rewrite Forall_forall in F. apply N.ltb_lt. destruct (F b Ib) as [X _]. lia. }
    f_equal. f_equal. clear I. induction s as [|b s IH]; [reflexivity|]. cbn [map flat_map]. rewrite IH by exact (Forall_inv_tail F).
    destruct (Forall_inv F) as (B & N1 & N2). change (b :: s) with ([b] ++ s). f_equal. unfold debug_char.
    replace (b2n b =? 0) with false by (symmetry; apply N.eqb_neq; lia). replace (b2n b =? 9) with false by (symmetry; apply N.eqb_neq; lia).
    replace (b2n b =? 13) with false by (symmetry; apply N.eqb_neq; lia). replace (b2n b =? 10) with false by (symmetry; apply N.eqb_neq; lia).
    replace (b2n b =? 34) with false by (symmetry; apply N.eqb_neq; intro Z; apply N2; rewrite <- (n2b_b2n b), Z; reflexivity).
    replace (b2n b =? 92) with false by (symmetry; apply N.eqb_neq; intro Z; apply N1; rewrite <- (n2b_b2n b), Z; reflexivity).
    rewrite P by exact B. unfold utf8_of. rewrite (proj2 (N.ltb_lt (b2n b) 128)) by lia. rewrite n2b_b2n. reflexivity. }
  assert (J : forall l, In s l -> exists a b, debug_strs plain l = a ++ bs """" ++ s ++ bs """" ++ b).
  { intros l Il. unfold debug_strs, debug_vec. enough (X : exists a b, join (bs ", ") (map (debug_str plain) l) = a ++ bs """" ++ s ++ bs """" ++ b).
    - destruct X as (a & b & ->). exists (bs "[" ++ a), (b ++ bs "]"). rewrite <- !app_assoc. reflexivity.
    - induction l as [|c l IH]; [destruct Il|]. destruct l as [|d l].
      + destruct Il as [->|[]]. cbn [map join]. rewrite D. exists [], []. rewrite app_nil_r. reflexivity.
      + change (join (bs ", ") (map (debug_str plain) (c :: d :: l))) with (debug_str plain c ++ bs ", " ++ join (bs ", ") (map (debug_str plain) (d :: l))).
        destruct Il as [->|Il].
        * rewrite D. exists [], (bs ", " ++ join (bs ", ") (map (debug_str plain) (d :: l))). rewrite <- !app_assoc. reflexivity.
        * destruct (IH Il) as (a & b & ->). exists (debug_str plain c ++ bs ", " ++ a), b. rewrite <- !app_assoc. reflexivity. }
  assert (Rr : forall pre post, exists before after, pre ++ debug_str plain s ++ post = before ++ bs """" ++ s ++ bs """" ++ after).
  { intros pre post. rewrite D. exists pre, post. rewrite <- !app_assoc. reflexivity. }
  assert (Ll : forall l, In s l -> forall pre post, exists before after, pre ++ debug_strs plain l ++ post = before ++ bs """" ++ s ++ bs """" ++ after).
  { intros l Il pre post. destruct (J l Il) as (a & b & ->). exists (pre ++ a), (b ++ post). rewrite <- !app_assoc. reflexivity. }
  destruct x; cbn [texts] in I; try destruct I; subst; cbn [message];
    try (apply Ll; assumption); try (apply Ll; left; assumption); try (apply Ll; right; assumption).
  all: try (match goal with Z : In _ (_ ++ _) |- _ => apply in_app_or in Z; destruct Z as [Z|Z] end); try (apply Ll; assumption);
    try (match goal with |- exists _ _, ?a ++ ?b ++ ?c ++ ?r = _ => rewrite (app_assoc b c r), (app_assoc a (b ++ c) r) end);
    try (apply Rr); try (apply Ll; assumption);
    try (match goal with |- exists _ _, ?a ++ ?b ++ ?c ++ ?r = _ => rewrite (app_assoc b c r), (app_assoc a (b ++ c) r) end); try (apply Rr); try (apply Ll; assumption).
Qed.
Print Assumptions C138_paths_are_readable.

(** The text is one printable line, whatever was sent, except when the url could not be parsed. *)
Lemma ol_lit s : forallb (fun b => (32 <=? b2n b) && negb (b2n b =? 127)) s = true -> one_line s.
Proof.
  intro E. apply Forall_forall. intros b I. rewrite forallb_forall in E. specialize (E b I). apply andb_true_iff in E. destruct E as [E1 E2].
  apply N.leb_le in E1. apply negb_true_iff, N.eqb_neq in E2. auto.
Qed.
Lemma ol_app a b : one_line a -> one_line b -> one_line (a ++ b).
Proof. intros A B. apply Forall_app. auto. Qed.
Lemma ol_dec n : one_line (dec n).
Proof. eapply Forall_impl; [|apply dec_digits]. cbv beta. intros b B. lia. Qed.
Lemma ol_hex c : one_line (hex c).
Proof. unfold hex. induction (N.to_hex_uint c); cbn [hex_bytes]; constructor; try assumption; vm_compute; split; discriminate. Qed.
Lemma ol_utf8 c : scalar c -> 32 <= c -> c <> 127 -> one_line (utf8_of c).
Proof.
  intros [M _] C C'. unfold utf8_of, tail6.
  assert (T : forall n, 128 + n mod 64 < 192). { intro n. assert (n mod 64 < 64) by (apply N.mod_lt; discriminate). lia. }
  assert (Q : forall n, 128 <= n < 256 -> 32 <= b2n (n2b n) /\ b2n (n2b n) <> 127). { intros n B. rewrite small_b by lia. lia. }
  assert (Z : forall n, 32 <= b2n (n2b (128 + n mod 64)) /\ b2n (n2b (128 + n mod 64)) <> 127). { intro n. apply Q. specialize (T n). lia. }
  destruct (c <? 128) eqn:E1; [apply N.ltb_lt in E1|apply N.ltb_ge in E1].
  { constructor; [|constructor]. rewrite small_b by lia. lia. }
  destruct (c <? 2048) eqn:E2; [apply N.ltb_lt in E2|apply N.ltb_ge in E2].
  { assert (B : c / 64 < 32) by (apply N.div_lt_upper_bound; lia). constructor; [apply Q; lia|]. constructor; [apply Z|constructor]. }
  destruct (c <? 65536) eqn:E3; [apply N.ltb_lt in E3|apply N.ltb_ge in E3].
  { assert (B : c / 4096 < 16) by (apply N.div_lt_upper_bound; lia). constructor; [apply Q; lia|]. constructor; [apply Z|]. constructor; [apply Z|constructor]. }
  assert (B : c / 262144 < 5) by (apply N.div_lt_upper_bound; lia). constructor; [apply Q; lia|]. constructor; [apply Z|]. constructor; [apply Z|]. constructor; [apply Z|constructor].
Qed.
Section Lines.
  Variable plain : N -> bool.
  Hypothesis PC : forall c, c < 32 \/ c = 127 -> plain c = false.
  Lemma ol_char c : scalar c -> one_line (debug_char plain c).
  Proof.
    intro S. unfold debug_char.
    destruct (c =? 0); [apply ol_lit; reflexivity|]. destruct (c =? 9); [apply ol_lit; reflexivity|]. destruct (c =? 13); [apply ol_lit; reflexivity|].
    destruct (c =? 10); [apply ol_lit; reflexivity|]. destruct (c =? 34); [apply ol_lit; reflexivity|]. destruct (c =? 92); [apply ol_lit; reflexivity|].
    destruct (plain c) eqn:P.
    - apply ol_utf8; [exact S| |].
      + destruct (N.lt_ge_cases c 32) as [X|X]; [|exact X]. rewrite (PC c (or_introl X)) in P. discriminate P.
      + intro X. rewrite (PC c (or_intror X)) in P. discriminate P.
    - repeat apply ol_app; try (apply ol_lit; reflexivity). apply ol_hex.
  Qed.
  Lemma ol_str s : text s -> one_line (debug_str plain s).
  Proof.
    intro T. destruct (chars_text s T) as [F _]. unfold debug_str. apply ol_app; [apply ol_lit; reflexivity|]. apply ol_app; [|apply ol_lit; reflexivity].
    induction F; [constructor|]. cbn [flat_map]. apply ol_app; [apply ol_char; assumption|assumption].
  Qed.
  Lemma ol_strs l : Forall text l -> one_line (debug_strs plain l).
  Proof.
    intro F. unfold debug_strs, debug_vec. apply ol_app; [apply ol_lit; reflexivity|]. apply ol_app; [|apply ol_lit; reflexivity].
    induction F as [|a l T F IH]; [constructor|]. destruct l as [|b l]; [apply ol_str, T|].
    change (join (bs ", ") (map (debug_str plain) (a :: b :: l))) with (debug_str plain a ++ bs ", " ++ join (bs ", ") (map (debug_str plain) (b :: l))).
    apply ol_app; [apply ol_str, T|]. apply ol_app; [apply ol_lit; reflexivity|exact IH].
  Qed.
  Lemma ol_message io u x : one_line io -> one_line u -> Forall text (texts x) -> (forall url, x <> HttpCertificationError (MalformedUrl url)) -> one_line (message plain io u x).
  Proof.
    intros Oi Ou T N. destruct x; cbn [texts] in T; cbn [message]; repeat (match goal with |- one_line (_ ++ _) => apply ol_app end); try (apply ol_lit; reflexivity); try assumption; try apply ol_dec;
      try (apply ol_strs; first [exact T|exact (Forall_inv_tail T)]); try (apply ol_str; exact (Forall_inv T));
      try (apply ol_strs; destruct (Forall_split _ _ _ (Forall_inv_tail T)); assumption).
    match goal with e : http_error |- _ => destruct e as [url|] end; cbn [http_message]; [exfalso; exact (N url eq_refl)|]. repeat apply ol_app; try (apply ol_lit; reflexivity). exact Ou.
  Qed.
End Lines.
(** The versions are shown in this order: the requested one, then the lowest and the highest (or the lowest asked for). *)
Theorem C138_versions_are_shown :
  forall (plain : N -> bool) (io_text utf8_text : bytes) (lowest highest requested : N),
  message plain io_text utf8_text (UnsupportedVerificationVersion lowest highest requested) =
    concat [bs "The requested verification version "; dec requested; bs " is not supported, the current supported range is "; dec lowest; bs "-"; dec highest] /\
  message plain io_text utf8_text (RequestedVerificationVersionMismatch lowest requested) =
    concat [bs "The requested verification version "; dec requested; bs " is lower than the minimum requested version "; dec lowest].
Proof. intros. cbn [message concat]. rewrite !app_nil_r. split; reflexivity. Qed.
Print Assumptions C138_versions_are_shown.

(** Full statement: without the first alternative.  It is refuted by the next theorem. *)
Theorem C139_messages_are_one_line_partial :
  forall umod cap_max checked H ple vs uri_path uri_query gunzip inflate rq rs canister_id now offset key min_version
         (plain : N -> bool) (io_text utf8_text : bytes) (x : rv_error),
  (* the standard library escapes control characters, and the texts of other libraries are lines *)
  (forall c, c < 32 \/ c = 127 -> plain c = false) -> one_line io_text -> one_line utf8_text ->
  verify_e umod cap_max checked H ple vs uri_path uri_query gunzip inflate rq rs canister_id now offset key min_version = RErr x ->
  (exists url, x = HttpCertificationError (MalformedUrl url)) \/ one_line (message plain io_text utf8_text x).
Proof.
  intros * PC Oi Ou V. apply verify_texts in V.
  assert (D : (exists url, x = HttpCertificationError (MalformedUrl url)) \/ (forall url, x <> HttpCertificationError (MalformedUrl url))).
  { destruct x; try (right; intro; discriminate). match goal with e : http_error |- _ => destruct e as [url|] end; [left; eauto|right; intro; discriminate]. }
  destruct D as [D|D]; [left; exact D|right]. exact (ol_message plain PC io_text utf8_text x Oi Ou V D).
Qed.
Print Assumptions C139_messages_are_one_line_partial.
