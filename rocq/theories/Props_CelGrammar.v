(** C122: the certification expressions the verifier accepts, exactly. *)
From Coq Require Import List Arith NArith Lia Bool.
From Verif Require Import Bytes Text Utf8 Utf8Spec Utf8Split Props_Utf8 HttpTypes Cbor Cel CelSpec CelProofs Props_Cel CelGrammar.
Import ListNotations.

Lemma alnum8_spec c : alnum8 c = true <-> letter_or_digit (c mod 256).
Proof. unfold alnum8, letter_or_digit. rewrite !orb_true_iff, !andb_true_iff, !N.leb_le. tauto. Qed.
Lemma ident_char_spec c : ident_char c = true <-> key_char c.
Proof. unfold ident_char, key_char. rewrite orb_true_iff, N.eqb_eq, alnum8_spec. tauto. Qed.
Lemma str_char_spec c : str_char c = true <-> name_char c.
Proof. unfold str_char, name_char. rewrite orb_true_iff, N.eqb_eq, alnum8_spec. tauto. Qed.

(** ** take_chars on UTF-8 *)
Lemma of1 a : (b2n a < 128)%N -> utf8_of (b2n a) = [a].
Proof. intro A. unfold utf8_of. apply N.ltb_lt in A. rewrite A, n2b_b2n. reflexivity. Qed.
(** the first character of a valid text, as [take_chars] and the grammar see it *)
Definition text (s : bytes) : Prop := exists cs, utf8_text cs s.
Lemma text_valid s : text s <-> utf8_valid s = true.
Proof.
  unfold text, utf8_valid. split.
  - intros [cs T]. apply C63_text_is_unicode in T. rewrite T. reflexivity.
  - destruct (utf8_decode s) as [cs|] eqn:D; [|discriminate]. intros _. exists cs. apply C63_text_is_unicode. exact D.
Qed.
Lemma utf8_text_nil : utf8_text [] [].
Proof. split; [constructor|reflexivity]. Qed.
Lemma utf8_text_cons c cs s : scalar c -> utf8_text cs s -> utf8_text (c :: cs) (utf8_of c ++ s).
Proof. intros S [F ->]. split; [constructor; assumption|reflexivity]. Qed.
Lemma take_text_sound p s : utf8_valid s = true ->
  (exists cs, utf8_text cs (fst (take_chars p s)) /\ Forall (fun c => p c = true) cs) /\ utf8_valid (snd (take_chars p s)) = true.
Proof.
  remember (length s) as n eqn:L. revert s L. induction n as [n IH] using lt_wf_ind. intros s L V.
  assert (NIL : (exists cs, utf8_text cs (fst (@nil byte, s)) /\ Forall (fun c => p c = true) cs) /\ utf8_valid (snd (@nil byte, s)) = true).
  { split; [exists []; split; [apply utf8_text_nil|constructor]|exact V]. }
  assert (ST : forall c s', (length s' < n)%nat -> utf8_valid s' = true -> scalar c -> p c = true -> forall q, q = utf8_of c ->
     (exists cs, utf8_text cs (q ++ fst (take_chars p s')) /\ Forall (fun c => p c = true) cs) /\ utf8_valid (snd (take_chars p s')) = true).
  { intros c s' L' V' S P q ->. destruct (IH _ L' s' eq_refl V') as [(cs & T & F) V2]. split; [|exact V2].
    exists (c :: cs). split; [apply utf8_text_cons; assumption|constructor; assumption]. }
  destruct s as [|a s]; [exact NIL|]. rewrite utf8_step in V. cbn [take_chars].
  destruct (b2n a <? 128)%N eqn:A.
  { destruct (p (b2n a)) eqn:P; [|exact NIL]. apply N.ltb_lt in A.
    assert (X := ST (b2n a) s ltac:(subst n; cbn [length]; lia) V ltac:(split; lia) P [a] (eq_sym (of1 a A))).
    destruct (take_chars p s). exact X. }
  destruct s as [|b s]; [discriminate|]. destruct (ok2 a b) eqn:O2.
  { destruct (p (cp2 a b)) eqn:P; [|exact NIL]. destruct (enc2 a b O2) as [S U].
    assert (X := ST (cp2 a b) s ltac:(subst n; cbn [length]; lia) V S P [a; b] (eq_sym U)). destruct (take_chars p s). exact X. }
  destruct s as [|c s]; [discriminate|]. destruct (ok3 a b c) eqn:O3.
  { destruct (p (cp3 a b c)) eqn:P; [|exact NIL]. destruct (enc3 a b c O3) as [S U].
    assert (X := ST (cp3 a b c) s ltac:(subst n; cbn [length]; lia) V S P [a; b; c] (eq_sym U)). destruct (take_chars p s). exact X. }
  destruct s as [|d s]; [discriminate|]. destruct (ok4 a b c d) eqn:O4; [|discriminate].
  destruct (p (cp4 a b c d)) eqn:P; [|exact NIL]. destruct (enc4 a b c d O4) as [S U].
  assert (X := ST (cp4 a b c d) s ltac:(subst n; cbn [length]; lia) V S P [a; b; c; d] (eq_sym U)). destruct (take_chars p s). exact X.
Qed.
Lemma decode_ne a s : utf8_decode (a :: s) <> Some [].
Proof.
  cbn [utf8_decode]. intro E.
  repeat (match type of E with
    | (if ?b then _ else _) = _ => destruct b
    | match ?x with [] => _ | _ :: _ => _ end = _ => destruct x
    | option_map _ ?x = _ => destruct x; discriminate E
    end; try discriminate E).
Qed.
Lemma utf8_forms c : scalar c ->
  (exists a, utf8_of c = [a] /\ (b2n a <? 128)%N = true /\ b2n a = c) \/
  (exists a b, utf8_of c = [a; b] /\ (b2n a <? 128)%N = false /\ ok2 a b = true /\ cp2 a b = c) \/
  (exists a b d, utf8_of c = [a; b; d] /\ (b2n a <? 128)%N = false /\ ok2 a b = false /\ ok3 a b d = true /\ cp3 a b d = c) \/
  (exists a b d e, utf8_of c = [a; b; d; e] /\ (b2n a <? 128)%N = false /\ ok2 a b = false /\ ok3 a b d = false /\ cp4 a b d e = c).
Proof.
  intro S. assert (D := decode_of c [] S). rewrite app_nil_r in D. change (utf8_decode []) with (Some (@nil N)) in D. cbn [option_map] in D.
  destruct (utf8_of c) as [|a1 s1]; [discriminate D|]. cbn [utf8_decode] in D.
  destruct (b2n a1 <? 128)%N eqn:A.
  { destruct s1 as [|x y]; [left; exists a1; injection D as D; auto|]. destruct (utf8_decode (x :: y)) as [l|] eqn:Q; [|discriminate D].
    destruct l; [exfalso; exact (decode_ne _ _ Q)|discriminate D]. }
  right. destruct s1 as [|a2 s1]; [discriminate D|]. destruct (ok2 a1 a2) eqn:O2.
  { destruct s1 as [|x y]; [left; exists a1, a2; injection D as D; auto|]. destruct (utf8_decode (x :: y)) as [l|] eqn:Q; [|discriminate D].
    destruct l; [exfalso; exact (decode_ne _ _ Q)|discriminate D]. }
  right. destruct s1 as [|a3 s1]; [discriminate D|]. destruct (ok3 a1 a2 a3) eqn:O3.
  { destruct s1 as [|x y]; [left; exists a1, a2, a3; injection D as D; auto 6|]. destruct (utf8_decode (x :: y)) as [l|] eqn:Q; [|discriminate D].
    destruct l; [exfalso; exact (decode_ne _ _ Q)|discriminate D]. }
  right. destruct s1 as [|a4 s1]; [discriminate D|]. destruct (ok4 a1 a2 a3 a4) eqn:O4; [|discriminate D].
  destruct s1 as [|x y]; [exists a1, a2, a3, a4; injection D as D; auto 7|]. destruct (utf8_decode (x :: y)) as [l|] eqn:Q; [|discriminate D].
  destruct l; [exfalso; exact (decode_ne _ _ Q)|discriminate D].
Qed.
Lemma take_text_complete p cs n r : utf8_text cs n -> Forall (fun c => p c = true) cs -> stops p r -> take_chars p (n ++ r) = (n, r).
Proof.
  revert n. induction cs as [|c cs IH]; intros n [F ->] P ST; cbn [map concat].
  - apply (take_chars_exact p [] r); [constructor|exact ST].
  - inversion F as [|? ? S F']; subst. inversion P as [|? ? Pc P']; subst. specialize (IH _ (conj F' eq_refl) P' ST).
    set (q := concat (map utf8_of cs)) in *. rewrite <- app_assoc.
    destruct (utf8_forms c S) as [(a & -> & A & E)|[(a & b & -> & A & O2 & E)|[(a & b & d & -> & A & O2 & O3 & E)|(a & b & d & e & -> & A & O2 & O3 & E)]]];
      cbn [app take_chars]; rewrite A, ?O2, ?O3, E, Pc, IH; reflexivity.
Qed.
Lemma key_take n r : key n -> stops ident_char r -> ident (n ++ r) = (n, r).
Proof.
  intros (cs & T & F) S. apply (take_text_complete ident_char cs); [exact T| |exact S].
  eapply Forall_impl; [|exact F]. intros c C. apply ident_char_spec. exact C.
Qed.
Lemma name_take n r : name n -> stops str_char r -> parse_str (n ++ r) = (n, r).
Proof.
  intros (cs & T & F) S. apply (take_text_complete str_char cs); [exact T| |exact S].
  eapply Forall_impl; [|exact F]. intros c C. apply str_char_spec. exact C.
Qed.
Lemma ident_key s n r : utf8_valid s = true -> ident s = (n, r) -> s = n ++ r /\ key n /\ utf8_valid r = true.
Proof.
  intros V E. unfold ident in E. assert (X := take_chars_split ident_char s). assert (Y := take_text_sound ident_char s V).
  rewrite E in X, Y. cbn [fst snd] in *. destruct Y as [(cs & T & F) Y]. split; [exact X|]. split; [|exact Y]. exists cs. split; [exact T|].
  eapply Forall_impl; [|exact F]. intros c C. apply ident_char_spec. exact C.
Qed.
Lemma str_name s n r : utf8_valid s = true -> parse_str s = (n, r) -> s = n ++ r /\ name n /\ utf8_valid r = true.
Proof.
  intros V E. unfold parse_str in E. assert (X := take_chars_split str_char s). assert (Y := take_text_sound str_char s V).
  rewrite E in X, Y. cbn [fst snd] in *. destruct Y as [(cs & T & F) Y]. split; [exact X|]. split; [|exact Y]. exists cs. split; [exact T|].
  eapply Forall_impl; [|exact F]. intros c C. apply str_char_spec. exact C.
Qed.

(** ** White space and single characters *)
Lemma str_ws x : is_ws x = true -> str_char (b2n x) = false.
Proof. destruct x; try discriminate; reflexivity. Qed.
Lemma ws_ascii x : is_ws x = true -> (b2n x < 128)%N.
Proof. destruct x; try discriminate; reflexivity. Qed.
Lemma stops_ws p w c r : (forall x, is_ws x = true -> p (b2n x) = false) -> (b2n c < 128)%N -> p (b2n c) = false -> ws w -> stops p (w ++ c :: r).
Proof.
  intros Q L P W. destruct W as [|x w X W]; cbn; [auto|]. apply is_ws_spec in X. split; [apply ws_ascii|apply Q]; exact X.
Qed.
Lemma pchar_ws c w r : is_ws c = false -> ws w -> pchar c (skip_ws (w ++ c :: r)) = Some r.
Proof. intros N W. rewrite skip_ws_app; [|exact W|exact N]. cbn. rewrite byte_eqb_refl. reflexivity. Qed.
Lemma pchar_ws_other c d w r : is_ws d = false -> d <> c -> ws w -> pchar c (skip_ws (w ++ d :: r)) = None.
Proof. intros N D W. rewrite skip_ws_app; [|exact W|exact N]. cbn. destruct (byte_eqb_spec d c); [contradiction|reflexivity]. Qed.
Lemma skip_ws_split s : exists w, ws w /\ s = w ++ skip_ws s /\ (utf8_valid s = true -> utf8_valid (skip_ws s) = true).
Proof.
  induction s as [|b s IH]; [exists []; split; [constructor|]; split; [reflexivity|auto]|]. cbn [skip_ws]. destruct (is_ws b) eqn:B.
  - destruct IH as (w & W & E & V). exists (b :: w). split; [constructor; [apply is_ws_spec; exact B|exact W]|]. split; [cbn; f_equal; exact E|].
    intro X. apply V. rewrite utf8_step in X. assert (Y := ws_ascii b B). apply N.ltb_lt in Y. rewrite Y in X. exact X.
  - exists []. split; [constructor|]. split; [reflexivity|auto].
Qed.
Lemma pchar_split c s r : (b2n c < 128)%N -> utf8_valid s = true -> pchar c (skip_ws s) = Some r ->
  exists w, ws w /\ s = w ++ c :: r /\ utf8_valid r = true.
Proof.
  intros A V E. destruct (skip_ws_split s) as (w & W & S & K). specialize (K V). destruct (skip_ws s) as [|b q]; [discriminate|]. cbn in E.
  destruct (byte_eqb_spec b c) as [->|]; [|discriminate]. injection E as <-. exists w. split; [exact W|]. split; [exact S|].
  rewrite utf8_step in K. apply N.ltb_lt in A. rewrite A in K. exact K.
Qed.

(** ** Soundness: what is parsed is an expression *)
Definition accepts {A} (p : bytes -> pres A) (G : bytes -> A -> Prop) : Prop :=
  forall s v r, utf8_valid s = true -> p s = POk v r -> exists t, s = t ++ r /\ G t v /\ utf8_valid r = true.
Lemma drop_accepts {A} (p : bytes -> pres A) G o c : (b2n o < 128)%N -> (b2n c < 128)%N -> accepts p G ->
  accepts (drop_separators o c p) (fun t v => exists w b w', ws w /\ ws w' /\ G b v /\ t = w ++ [o] ++ b ++ w' ++ [c]).
Proof.
  intros Ao Ac P s v r V E. unfold drop_separators in E. destruct (pchar o (skip_ws s)) as [s1|] eqn:E1; [|discriminate].
  destruct (pchar_split o s s1 Ao V E1) as (w & W & -> & V1). destruct (p s1) as [v1 s2| | |] eqn:E2; try discriminate.
  destruct (P _ _ _ V1 E2) as (b & -> & Gb & V2). destruct (pchar c (skip_ws s2)) as [s3|] eqn:E3; [|discriminate].
  cbn [cut] in E. injection E as -> ->. destruct (pchar_split c s2 r Ac V2 E3) as (w' & W' & -> & V3).
  exists (w ++ [o] ++ b ++ w' ++ [c]). split; [rewrite <- !app_assoc; reflexivity|]. split; [exists w, b, w'; auto|exact V3].
Qed.
Inductive loopG {A} (G : bytes -> A -> Prop) : bytes -> list A -> Prop :=
| lg_nil : loopG G [] []
| lg_cons w t v b vs : ws w -> G t v -> loopG G b vs -> loopG G (w ++ bs "," ++ t ++ b) (v :: vs).
Lemma loop_accepts {A} (p : bytes -> pres A) G : accepts p G -> forall g, accepts (sep_loop p g) (loopG G).
Proof.
  intros P. assert (NIL : forall s, utf8_valid s = true -> exists t, s = t ++ s /\ loopG G t [] /\ utf8_valid s = true).
  { intros s V. exists []. split; [reflexivity|]. split; [constructor|exact V]. }
  induction g as [|g IH]; intros s vs r V E; [discriminate|]. cbn [sep_loop] in E.
  destruct (pchar "," (skip_ws s)) as [s1|] eqn:E1; [|injection E as <- <-; auto].
  destruct (pchar_split "," s s1 eq_refl V E1) as (w & W & S & V1). destruct (p s1) as [v s2| | |] eqn:E2; try discriminate; [|injection E as <- <-; auto].
  destruct (P _ _ _ V1 E2) as (t & -> & Gt & V2). destruct (sep_loop p g s2) as [vs' s3| | |] eqn:E3; try discriminate.
  injection E as <- ->. destruct (IH _ _ _ V2 E3) as (b & -> & Gb & V3). exists (w ++ bs "," ++ t ++ b).
  split; [rewrite S, <- !app_assoc; reflexivity|]. split; [constructor; assumption|exact V3].
Qed.
Lemma list_accepts {A} (p : bytes -> pres A) G : accepts p G ->
  accepts (sep_list p) (fun t vs => (t = [] /\ vs = []) \/ exists t1 v b vs', t = t1 ++ b /\ vs = v :: vs' /\ G t1 v /\ loopG G b vs').
Proof.
  intros P s vs r V E. unfold sep_list in E. destruct (p s) as [v s1| | |] eqn:E1; try discriminate.
  - destruct (P _ _ _ V E1) as (t1 & -> & G1 & V1). destruct (sep_loop p (S (length s1)) s1) as [vs' s2| | |] eqn:E2; try discriminate.
    injection E as <- ->. destruct (loop_accepts p G P _ _ _ _ V1 E2) as (b & -> & Gb & V2). exists (t1 ++ b).
    split; [rewrite <- app_assoc; reflexivity|]. split; [|exact V2]. right. exists t1, v, b, vs'. auto.
  - injection E as <- <-. exists []. split; [reflexivity|]. split; [left; auto|exact V].
Qed.
Lemma loop_more b vs : loopG expr b vs -> more b vs.
Proof. induction 1; constructor; assumption. Qed.
Definition fieldG (t : bytes) (kv : bytes * cv) : Prop :=
  exists w w1 x, ws w /\ key (fst kv) /\ ws w1 /\ expr x (snd kv) /\ t = w ++ fst kv ++ w1 ++ bs ":" ++ x.
Lemma loop_fmore b kvs : loopG fieldG b kvs -> fmore b kvs.
Proof.
  induction 1 as [|w0 t [k v] b kvs W (w & w1 & x & Ww & K & W1 & X & ->) L IH]; [constructor|]. cbn [fst snd] in *.
  rewrite <- !app_assoc. apply fm_some; assumption.
Qed.
Lemma key_value_accepts p : accepts p expr -> accepts (key_value p) fieldG.
Proof.
  intros P s kv r V E. unfold key_value in E. destruct (skip_ws_split s) as (w & W & S & K). specialize (K V).
  destruct (ident (skip_ws s)) as [k s1] eqn:E1. destruct (ident_key _ _ _ K E1) as (S1 & Kk & V1).
  destruct (pchar ":" (skip_ws s1)) as [s2|] eqn:E2; [|discriminate]. destruct (pchar_split ":" s1 s2 eq_refl V1 E2) as (w1 & W1 & -> & V2).
  destruct (p s2) as [v s3| | |] eqn:E3; try discriminate. injection E as <- ->. destruct (P _ _ _ V2 E3) as (x & -> & X & V3).
  exists (w ++ k ++ w1 ++ bs ":" ++ x). split; [rewrite S, S1, <- !app_assoc; reflexivity|]. split; [|exact V3].
  exists w, w1, x. auto 6.
Qed.
Lemma items_accepts p : accepts p expr -> accepts (sep_list p) items.
Proof.
  intros P s vs r V E. destruct (list_accepts p expr P s vs r V E) as (t & S & G & V'). exists t. split; [exact S|]. split; [|exact V'].
  destruct G as [[-> ->]|(t1 & v & b & vs' & -> & -> & G1 & L)]; [constructor|]. constructor; [exact G1|]. apply loop_more. exact L.
Qed.
Lemma fields_accepts p : accepts p expr -> accepts (sep_list (key_value p)) fields.
Proof.
  intros P s kvs r V E. destruct (list_accepts _ fieldG (key_value_accepts p P) s kvs r V E) as (t & S & G & V'). exists t. split; [exact S|]. split; [|exact V'].
  destruct G as [[-> ->]|(t1 & [k v] & b & vs' & -> & -> & (w & w1 & x & Ww & K & W1 & X & ->) & L)]; [constructor|]. cbn [fst snd] in *.
  rewrite <- !app_assoc. apply f_some; try assumption. apply loop_fmore. exact L.
Qed.
Lemma cel_value_accepts f : accepts (cel_value f) expr.
Proof.
  induction f as [|f IH]; intros s v r V E; [discriminate|]. cbn [cel_value] in E.
  destruct (skip_ws_split s) as (w & W & S & K). specialize (K V).
  destruct (ident (skip_ws s)) as [n s1] eqn:EI. destruct (ident_key _ _ _ K EI) as (S1 & Kn & V1).
  destruct (drop_separators "{" "}" (sep_list (key_value (cel_value f))) s1) as [l r1| | |] eqn:E1; try discriminate E.
  { injection E as <- <-. destruct (drop_accepts _ _ "{" "}" eq_refl eq_refl (fields_accepts _ IH) _ _ _ V1 E1) as (t & St & (w1 & b & w' & W1 & W' & Gb & ->) & V2).
    eexists. split; [|split; [apply (x_object w n w1 b l w'); assumption|exact V2]]. rewrite S, S1, St, <- !app_assoc. reflexivity. }
  cbn [pmap alt] in E.
  destruct (drop_separators "(" ")" (sep_list (cel_value f)) s1) as [l r1| | |] eqn:E2; try discriminate E.
  { injection E as <- <-. destruct (drop_accepts _ _ "(" ")" eq_refl eq_refl (items_accepts _ IH) _ _ _ V1 E2) as (t & St & (w1 & b & w' & W1 & W' & Gb & ->) & V2).
    eexists. split; [|split; [apply (x_function w n w1 b l w'); assumption|exact V2]]. rewrite S, S1, St, <- !app_assoc. reflexivity. }
  cbn [pmap alt] in E. assert (WW : forall w1, ws w1 -> ws (w ++ w1)) by (intros; apply Forall_app; split; assumption).
  destruct (drop_separators "[" "]" (sep_list (cel_value f)) (skip_ws s)) as [l r1| | |] eqn:E3; try discriminate E.
  { injection E as <- <-. destruct (drop_accepts _ _ "[" "]" eq_refl eq_refl (items_accepts _ IH) _ _ _ K E3) as (t & St & (w1 & b & w' & W1 & W' & Gb & ->) & V2).
    eexists. split; [|split; [apply (x_array (w ++ w1) b l w'); auto|exact V2]]. rewrite S, St, <- !app_assoc. reflexivity. }
  cbn [pmap alt] in E.
  destruct (drop_separators x22 x22 (fun i => let (a, b) := parse_str i in POk a b) (skip_ws s)) as [l r1| | |] eqn:E4; try discriminate E.
  injection E as <- <-.
  assert (PS : accepts (fun i => let (a, b) := parse_str i in POk a b) (fun t n => t = n /\ name n)).
  { intros s2 n2 r2 Vx Ex. destruct (parse_str s2) as [a b] eqn:Q. injection Ex as <- <-. destruct (str_name _ _ _ Vx Q) as (-> & N2 & V2). exists a. auto. }
  destruct (drop_accepts _ _ x22 x22 eq_refl eq_refl PS _ _ _ K E4) as (t & St & (w1 & b & w' & W1 & W' & (-> & Nb) & ->) & V2).
  eexists. split; [|split; [apply (x_string (w ++ w1) l w'); auto|exact V2]]. rewrite S, St. unfold quote. rewrite <- !app_assoc. reflexivity.
Qed.

(** ** Completeness: expressions are parsed, to their value *)
Scheme expr_mut := Induction for expr Sort Prop
with items_mut := Induction for items Sort Prop
with more_mut := Induction for more Sort Prop
with fields_mut := Induction for fields Sort Prop
with fmore_mut := Induction for fmore Sort Prop.
Combined Scheme grammar_mut from expr_mut, items_mut, more_mut, fields_mut, fmore_mut.
Lemma closer_spaced c w r : ws w -> spaced ([c] :: [r]) (w ++ c :: r).
Proof.
  intro W. change (w ++ c :: r) with (w ++ [c] ++ r). constructor; [exact W|].
  rewrite <- (app_nil_r r) at 2. apply (spaced_cons []); [constructor|]. constructor. constructor.
Qed.
Lemma closer_props c : closer c -> is_ws c = false /\ c <> ","%byte.
Proof. intros [<-|[<-|[<-|[]]]]; split; (reflexivity || discriminate). Qed.
Lemma expr_parses :
  (forall t v, expr t v -> forall f r, length (t ++ r) < f -> cel_value f (t ++ r) = POk v r) /\
  (forall b vs, items b vs -> forall f w c r, closer c -> ws w -> length (b ++ w ++ c :: r) < f -> sep_list (cel_value f) (b ++ w ++ c :: r) = POk vs (w ++ c :: r)) /\
  (forall b vs, more b vs -> forall f g w c r, closer c -> ws w -> length (b ++ w ++ c :: r) < f -> length (b ++ w ++ c :: r) < g ->
     sep_loop (cel_value f) g (b ++ w ++ c :: r) = POk vs (w ++ c :: r)) /\
  (forall b vs, fields b vs -> forall f w c r, closer c -> ws w -> length (b ++ w ++ c :: r) < f -> sep_list (key_value (cel_value f)) (b ++ w ++ c :: r) = POk vs (w ++ c :: r)) /\
  (forall b vs, fmore b vs -> forall f g w c r, closer c -> ws w -> length (b ++ w ++ c :: r) < f -> length (b ++ w ++ c :: r) < g ->
     sep_loop (key_value (cel_value f)) g (b ++ w ++ c :: r) = POk vs (w ++ c :: r)).
Proof.
  assert (KV : forall w k w1 t v, ws w -> key k -> ws w1 ->
    (forall f r, length (t ++ r) < f -> cel_value f (t ++ r) = POk v r) ->
    forall f r, length (w ++ k ++ w1 ++ bs ":" ++ t ++ r) < f -> key_value (cel_value f) (w ++ k ++ w1 ++ bs ":" ++ t ++ r) = POk (k, v) r).
  { intros w k w1 t v W K W1 IH f r L. unfold key_value. change (bs ":" ++ t ++ r) with (":"%byte :: t ++ r) in *.
    assert (ST : stops ident_char (w1 ++ ":"%byte :: t ++ r)) by (apply stops_ws; [exact ident_ws|reflexivity|reflexivity|exact W1]).
    assert (E : ident (skip_ws (w ++ k ++ w1 ++ ":"%byte :: t ++ r)) = (k, w1 ++ ":"%byte :: t ++ r) \/ k = [] /\ ident (skip_ws (w ++ k ++ w1 ++ ":"%byte :: t ++ r)) = (k, ":"%byte :: t ++ r)).
    { destruct k as [|kb k].
      - right. split; [reflexivity|]. cbn [app]. rewrite app_assoc, skip_ws_app; [|apply Forall_app; split; assumption|reflexivity]. reflexivity.
      - left. rewrite skip_ws_app; [apply key_take; assumption|exact W|]. cbn [app]. destruct (is_ws kb) eqn:B; [|reflexivity]. exfalso.
        assert (X := key_take _ _ K ST). unfold ident in X. cbn [app take_chars] in X. assert (Y := ws_ascii kb B). apply N.ltb_lt in Y.
        rewrite Y, (ident_ws kb B) in X. discriminate X. }
    assert (L2 : length (t ++ r) < f) by (rewrite !app_length in *; cbn [length] in L; rewrite app_length in L; lia).
    destruct E as [E|[-> E]]; rewrite E.
    - rewrite pchar_ws by (assumption || reflexivity). rewrite IH by exact L2. reflexivity.
    - assert (PC : pchar ":" (skip_ws (":"%byte :: t ++ r)) = Some (t ++ r)) by reflexivity. rewrite PC, IH by exact L2. reflexivity. }
  assert (CALL : forall w n w1 o x, ws w -> key n -> ws w1 -> is_ws o = false -> (b2n o < 128)%N -> ident_char (b2n o) = false ->
    exists w2, ws w2 /\ ident (skip_ws (w ++ n ++ w1 ++ o :: x)) = (n, w2 ++ o :: x)).
  { intros w n w1 o x W K W1 N A I. assert (ST : stops ident_char (w1 ++ o :: x)) by (apply stops_ws; [exact ident_ws|exact A|exact I|exact W1]).
    destruct n as [|nb n].
    - exists []. split; [constructor|]. cbn [app]. rewrite app_assoc, skip_ws_app; [|apply Forall_app; split; assumption|exact N].
      apply (key_take [] (o :: x) K). split; assumption.
    - exists w1. split; [exact W1|]. rewrite skip_ws_app; [apply key_take; assumption|exact W|]. cbn [app]. destruct (is_ws nb) eqn:B; [|reflexivity]. exfalso.
      assert (X := key_take _ _ K ST). unfold ident in X. cbn [app take_chars] in X. assert (Y := ws_ascii nb B). apply N.ltb_lt in Y.
      rewrite Y, (ident_ws nb B) in X. discriminate X. }
  apply grammar_mut.
  - (* string *) intros w n w' W Nn W' f r L. destruct f as [|f]; [lia|]. rewrite <- !app_assoc. unfold quote. cbn [app cel_value].
    rewrite skip_ws_app; [|exact W|reflexivity]. set (q := n ++ w' ++ x22 :: r).
    change (ident (x22 :: q)) with (@nil byte, x22 :: q). unfold drop_separators.
    change (pchar "{" (skip_ws (x22 :: q))) with (@None bytes). change (pchar "(" (skip_ws (x22 :: q))) with (@None bytes).
    change (pchar "[" (skip_ws (x22 :: q))) with (@None bytes). change (pchar x22 (skip_ws (x22 :: q))) with (Some q). cbn [pmap alt].
    unfold q. rewrite (name_take n _ Nn); [|apply stops_ws; [exact str_ws|reflexivity|reflexivity|exact W']].
    rewrite pchar_ws by (assumption || reflexivity). reflexivity.
  - (* array *) intros w b vs w' W Ib IH W' f r L. destruct f as [|f]; [lia|]. rewrite <- !app_assoc in *. cbn [app cel_value].
    change (bs "[" ++ b ++ w' ++ bs "]" ++ r) with ("["%byte :: b ++ w' ++ "]"%byte :: r) in *.
    rewrite skip_ws_app; [|exact W|reflexivity]. set (q := b ++ w' ++ "]"%byte :: r) in *.
    change (ident ("["%byte :: q)) with (@nil byte, "["%byte :: q). unfold drop_separators.
    change (pchar "{" (skip_ws ("["%byte :: q))) with (@None bytes). change (pchar "(" (skip_ws ("["%byte :: q))) with (@None bytes).
    change (pchar "[" (skip_ws ("["%byte :: q))) with (Some q). cbn [pmap alt].
    rewrite app_length in L. cbn [length] in L.
    unfold q in *. rewrite IH; [|right; right; left; reflexivity|exact W'|lia].
    rewrite pchar_ws by (assumption || reflexivity). reflexivity.
  - (* function *) intros w n w1 b vs w' W K W1 Ib IH W' f r L. destruct f as [|f]; [lia|]. rewrite <- !app_assoc in *.
    change (bs "(" ++ b ++ w' ++ bs ")" ++ r) with ("("%byte :: b ++ w' ++ ")"%byte :: r) in *. set (q := b ++ w' ++ ")"%byte :: r) in *. cbn [cel_value].
    destruct (CALL w n w1 "("%byte q W K W1 eq_refl eq_refl eq_refl) as (w2 & W2 & ->). unfold drop_separators.
    rewrite (pchar_ws_other "{" "("), pchar_ws by (assumption || reflexivity || discriminate). cbn [pmap alt].
    rewrite !app_length in L. cbn [length] in L.
    unfold q in *. rewrite IH; [|right; left; reflexivity|exact W'|lia].
    rewrite pchar_ws by (assumption || reflexivity). reflexivity.
  - (* object *) intros w n w1 b vs w' W K W1 Ib IH W' f r L. destruct f as [|f]; [lia|]. rewrite <- !app_assoc in *.
    change (bs "{" ++ b ++ w' ++ bs "}" ++ r) with ("{"%byte :: b ++ w' ++ "}"%byte :: r) in *. set (q := b ++ w' ++ "}"%byte :: r) in *. cbn [cel_value].
    destruct (CALL w n w1 "{"%byte q W K W1 eq_refl eq_refl eq_refl) as (w2 & W2 & ->). unfold drop_separators.
    rewrite pchar_ws by (assumption || reflexivity). cbn [pmap alt].
    rewrite !app_length in L. cbn [length] in L.
    unfold q in *. rewrite IH; [|left; reflexivity|exact W'|lia].
    rewrite pchar_ws by (assumption || reflexivity). reflexivity.
  - intros f w c r C W L. destruct f as [|f]; [lia|]. cbn [app]. unfold sep_list.
    rewrite (cel_value_closer f c [r] _ C (closer_spaced c w r W)). reflexivity.
  - intros t v b vs Et IHt Mb IHb f w c r C W L. rewrite <- app_assoc in *. unfold sep_list. rewrite IHt by exact L.
    rewrite app_length in L. rewrite IHb; [reflexivity|exact C|exact W|lia|lia].
  - intros f g w c r C W L Lg. destruct g as [|g]; [lia|]. cbn [app sep_loop]. destruct (closer_props c C) as [N D].
    rewrite pchar_ws_other by assumption. reflexivity.
  - intros w0 t v b vs W0 Et IHt Mb IHb f g w c r C W L Lg. destruct g as [|g]; [lia|]. rewrite <- !app_assoc in *.
    change (bs "," ++ t ++ b ++ w ++ c :: r) with (","%byte :: t ++ b ++ w ++ c :: r) in *. cbn [sep_loop].
    rewrite pchar_ws by (assumption || reflexivity). rewrite app_length in L, Lg. cbn [length] in L, Lg. rewrite IHt by lia.
    rewrite app_length in L, Lg. rewrite IHb; [reflexivity|exact C|exact W|lia|lia].
  - intros f w c r C W L. cbn [app]. unfold sep_list.
    rewrite (key_value_closer (cel_value f) c [r] _ C (closer_spaced c w r W)). reflexivity.
  - intros w0 k w1 t v b kvs W0 K W1 Et IHt Mb IHb f w c r C W L. rewrite <- !app_assoc in *. unfold sep_list. rewrite (KV w0 k w1 t v W0 K W1 IHt) by exact L.
    rewrite !app_length in L. rewrite IHb; [reflexivity|exact C|exact W| |]; rewrite ?app_length; lia.
  - intros f g w c r C W L Lg. destruct g as [|g]; [lia|]. cbn [app sep_loop]. destruct (closer_props c C) as [N D].
    rewrite pchar_ws_other by assumption. reflexivity.
  - intros w00 w0 k w1 t v b kvs W00 W0 K W1 Et IHt Mb IHb f g w c r C W L Lg. destruct g as [|g]; [lia|]. rewrite <- !app_assoc in *.
    set (q := w0 ++ k ++ w1 ++ bs ":" ++ t ++ b ++ w ++ c :: r) in *. change (bs "," ++ q) with (","%byte :: q) in *. cbn [sep_loop].
    rewrite pchar_ws by (assumption || reflexivity). rewrite app_length in L, Lg. cbn [length] in L, Lg. unfold q in *.
    rewrite (KV w0 k w1 t v W0 K W1 IHt) by lia.
    rewrite !app_length in L, Lg. rewrite IHb; [reflexivity|exact C|exact W| |]; rewrite ?app_length; lia.
Qed.

(** A text is parsed exactly if it begins with an expression, and to the value
    of that expression; what follows the expression is ignored. *)
Theorem C122_syntax_exactly :
  forall (s : bytes) (v : cv), (exists cs, utf8_text cs s) ->
  (parse_cel s = Some v <-> exists t rest, s = t ++ rest /\ expr t v).
Proof.
  intros s v T. apply text_valid in T. unfold parse_cel. split.
  - destruct (cel_value (S (length s)) s) as [v' r| | |] eqn:E; try discriminate. intro Q. injection Q as <-.
    destruct (cel_value_accepts _ _ _ _ T E) as (t & St & X & _). exists t, r. auto.
  - intros (t & r & -> & X). destruct expr_parses as [P _]. rewrite (P t v X) by lia. reflexivity.
Qed.
Print Assumptions C122_syntax_exactly.
(** No text can be read in two ways. *)
Theorem C122_unambiguous :
  forall (t t' r r' : bytes) (v v' : cv), expr t v -> expr t' v' -> t ++ r = t' ++ r' -> t = t' /\ v = v'.
Proof.
  intros t t' r r' v v' X X' E. destruct expr_parses as [P _]. assert (A := P t v X (S (length (t ++ r))) r ltac:(lia)).
  assert (B := P t' v' X' (S (length (t' ++ r'))) r' ltac:(lia)). rewrite E, B in A. injection A as <- <-. split; [|reflexivity].
  apply app_inv_tail in E. exact E.
Qed.
Print Assumptions C122_unambiguous.

(** ** Objects: every key once, with the last value given *)
Lemma map_get_set (k : bytes) (v : cv) m k' : map_get k' (map_set k v m) = if bytes_eqb k' k then Some v else map_get k' m.
Proof.
  induction m as [|[k0 v0] m IH]; cbn [map_set map_get]; [reflexivity|].
  destruct (bytes_eqb_spec k k0) as [->|N]; cbn [map_get].
  - destruct (bytes_eqb_spec k' k0); reflexivity.
  - rewrite IH. destruct (bytes_eqb_spec k' k0) as [->|N2]; [|reflexivity]. destruct (bytes_eqb_spec k0 k); [congruence|reflexivity].
Qed.
Lemma get_in (m : list (bytes * cv)) k v : NoDup (map fst m) -> (map_get k m = Some v <-> In (k, v) m).
Proof.
  intro N. split; [apply map_get_in|]. intro I. destruct (map_get k m) as [w|] eqn:E.
  - apply map_get_in in E. rewrite (nodup_in k m v w N I E). reflexivity.
  - apply map_get_none in E. exfalso. apply E. apply (in_map fst) in I. exact I.
Qed.
Lemma collect_nodup l : NoDup (map fst (collect l)).
Proof.
  unfold collect. assert (X : forall (l m : list (bytes * cv)), NoDup (map fst m) -> NoDup (map fst (fold_left (fun m kv => map_set (fst kv) (snd kv) m) l m))).
  { clear l. induction l as [|[k v] l IH]; intros m N; [exact N|]. cbn [fold_left fst snd]. apply IH. apply map_set_nodup. exact N. }
  apply X. constructor.
Qed.
Lemma last_value_cons k0 v0 kvs k v : last_value ((k0, v0) :: kvs) k v <->
  last_value kvs k v \/ (k0 = k /\ v0 = v /\ ~ In k (map fst kvs)).
Proof.
  split.
  - intros ([|x a] & b & E & N).
    + injection E as -> -> ->. right. auto.
    + injection E as <- ->. left. exists a, b. auto.
  - intros [(a & b & -> & N)|(-> & -> & N)]; [exists ((k0, v0) :: a), b; auto|exists [], kvs; auto].
Qed.
Lemma fold_get l : forall (m : list (bytes * cv)) k v,
  map_get k (fold_left (fun m kv => map_set (fst kv) (snd kv) m) l m) = Some v <->
  last_value l k v \/ (~ In k (map fst l) /\ map_get k m = Some v).
Proof.
  induction l as [|[k0 v0] l IH]; intros m k v; cbn [fold_left fst snd].
  - split; [right; auto|]. intros [(a & b & E & _)|[_ E]]; [destruct a; discriminate|exact E].
  - rewrite IH, map_get_set, last_value_cons. cbn [map fst In].
    destruct (bytes_eqb_spec k k0) as [->|N].
    + split.
      * intros [A|[A B]]; [auto|]. injection B as ->. auto.
      * intros [[A|(_ & -> & A)]|[A _]]; auto. exfalso. apply A. auto.
    + split.
      * intros [A|[A B]]; [auto|]. right. split; [|exact B]. intros [C|C]; congruence.
      * intros [[A|(A & _)]|[A B]]; [auto|congruence|]. right. split; [|exact B]. intro C. apply A. auto.
Qed.
Theorem C122_last_field_counts :
  forall (kvs : list (bytes * cv)),
  NoDup (map fst (collect kvs)) /\ forall k v, In (k, v) (collect kvs) <-> last_value kvs k v.
Proof.
  intro kvs. split; [apply collect_nodup|]. intros k v. rewrite <- get_in by apply collect_nodup. unfold collect. rewrite fold_get.
  split; [intros [A|[_ A]]; [exact A|discriminate A]|auto].
Qed.
Print Assumptions C122_last_field_counts.

(** ** Meaning *)
Lemma strings_of_map l : strings (map CvString l) = Some l.
Proof. induction l as [|x l IH]; cbn; [reflexivity|]. rewrite IH. reflexivity. Qed.
Lemma string_array_of_map l : validate_string_array (CvArray (map CvString l)) = Some l.
Proof. cbn. apply strings_of_map. Qed.
Lemma object_of n m : validate_object (CvObject n m) n = Some m.
Proof. cbn. destruct (bytes_eqb_spec n n); [reflexivity|congruence]. Qed.
Definition dk_map (m : list (bytes * cv)) : Prop := NoDup (map fst m) /\ Forall (fun kv => distinct_keys (snd kv)) m.
Lemma dk_object n m : distinct_keys (CvObject n m) -> dk_map m.
Proof. cbn [distinct_keys]. intros [N D]. change (dk_fields m) in D. apply dk_fields_forall in D. split; assumption. Qed.
Lemma dk_field m k n m' : dk_map m -> In (k, CvObject n m') m -> dk_map m'.
Proof. intros [_ F] I. rewrite Forall_forall in F. apply (dk_object n). exact (F _ I). Qed.
Lemma none_field m k : map_get (bs k) m = None <-> no_field m k.
Proof. apply map_get_none. Qed.
Lemma get_field m k v : dk_map m -> (map_get (bs k) m = Some v <-> field m k v).
Proof. intros [N _]. apply get_in. exact N. Qed.
Lemma field_some m k v : field m k v -> some_field m k.
Proof. intro F. apply (in_map fst) in F. exact F. Qed.
Lemma some_get m k : some_field m k <-> exists v, map_get (bs k) m = Some v.
Proof.
  destruct (map_get (bs k) m) as [v|] eqn:E.
  - split; [eauto|]. intros _. apply map_get_in in E. apply (in_map fst) in E. exact E.
  - apply map_get_none in E. split; [intro X; contradiction|intros [v X]; discriminate X].
Qed.
Lemma response_list_iff m k o : dk_map m -> (response_list m (bs k) = Some o <-> hlist m k o).
Proof.
  intro D. unfold response_list. split.
  - destruct (map_get (bs k) m) as [v|] eqn:E; [|intro Q; injection Q as <-; apply hl_absent; apply none_field; exact E].
    destruct (validate_object v (bs "ResponseHeaderList")) as [lm|] eqn:V; [|discriminate]. cbn [opt_bind]. apply validate_object_spec in V. subst v.
    apply get_field in E; [|exact D]. destruct (map_get (bs "headers") lm) as [h|] eqn:Eh.
    + destruct (validate_string_array h) as [hs|] eqn:S; [|discriminate]. intro Q. injection Q as <-. apply string_array_spec in S. unfold string_list in S. subst h.
      apply (hl_list m k lm hs E). apply map_get_in. exact Eh.
    + intro Q. injection Q as <-. apply (hl_empty m k lm E). apply none_field. exact Eh.
  - intros [N|lm F N|lm l F Fh].
    + apply none_field in N. rewrite N. reflexivity.
    + assert (F' := F). apply get_field in F'; [|exact D]. rewrite F', object_of. cbn [opt_bind]. apply none_field in N. rewrite N. reflexivity.
    + assert (F' := F). apply get_field in F'; [|exact D]. rewrite F', object_of. cbn [opt_bind].
      apply get_field in Fh; [|exact (dk_field _ _ _ _ D F)]. rewrite Fh, string_array_of_map. reflexivity.
Qed.
Lemma response_iff m rs : dk_map m -> (validate_response_certification m = Some rs <-> response_means m rs).
Proof.
  intro D. unfold validate_response_certification. split.
  - destruct (map_get (bs "response_certification") m) as [v|] eqn:E; [|discriminate]. cbn [opt_bind].
    destruct (validate_object v (bs "ResponseCertification")) as [rm|] eqn:V; [|discriminate]. cbn [opt_bind]. apply validate_object_spec in V. subst v.
    apply get_field in E; [|exact D]. assert (DR := dk_field _ _ _ _ D E).
    destruct (response_list rm (bs "certified_response_headers")) as [a|] eqn:A; [|discriminate]. cbn [opt_bind].
    destruct (response_list rm (bs "response_header_exclusions")) as [b|] eqn:B; [|discriminate]. cbn [opt_bind].
    apply response_list_iff in A, B; try exact DR.
    destruct a as [la|], b as [lb|]; try discriminate; intro Q; injection Q as <-; [eapply rm_headers|eapply rm_exclusions]; eassumption.
  - intro R. destruct R as [rm l F A B|rm l F A B]; assert (F' := F); apply get_field in F'; try exact D; rewrite F'; cbn [opt_bind]; rewrite object_of; cbn [opt_bind];
      assert (DR := dk_field _ _ _ _ D F); apply response_list_iff in A, B; try exact DR; rewrite A, B; reflexivity.
Qed.
Lemma map_means v e : distinct_keys v -> (map_cel_ast v = Some e <-> means v e).
Proof.
  intro D. split.
  - unfold map_cel_ast. destruct v as [| |n l|n l]; try discriminate. cbn [validate_function].
    destruct (bytes_eqb_spec n (bs "default_certification")) as [->|]; [|discriminate]. cbn [opt_bind].
    destruct l as [|arg rest]; [discriminate|]. destruct (validate_object arg (bs "ValidationArgs")) as [m|] eqn:V; [|discriminate]. cbn [opt_bind].
    apply validate_object_spec in V. subst arg. cbn [distinct_keys] in D. destruct D as [D _]. apply (dk_object (bs "ValidationArgs")) in D.
    destruct (map_get (bs "no_certification") m) as [x|] eqn:G1; destruct (map_get (bs "certification") m) as [c|] eqn:G2; try discriminate.
    + intro Q. injection Q as <-. apply means_skip; [apply some_get; eauto|apply none_field; exact G2].
    + destruct (validate_object c (bs "Certification")) as [cm|] eqn:V; [|discriminate]. cbn [opt_bind]. apply validate_object_spec in V. subst c.
      apply none_field in G1. apply get_field in G2; [|exact D]. assert (DC := dk_field _ _ _ _ D G2).
      destruct (validate_request_certification cm) as [rq|] eqn:RQ; [|discriminate]. cbn [opt_bind].
      destruct (validate_response_certification cm) as [rs|] eqn:RS; [|discriminate]. cbn [opt_bind]. apply response_iff in RS; [|exact DC].
      unfold validate_request_certification in RQ.
      destruct (map_get (bs "no_request_certification") cm) as [x|] eqn:G4; destruct (map_get (bs "request_certification") cm) as [y|] eqn:G5; try discriminate.
      * injection RQ as <-. intro Q. injection Q as <-. eapply means_response_only; try eassumption; [apply some_get; eauto|apply none_field; exact G5].
      * destruct (validate_object y (bs "RequestCertification")) as [qm|] eqn:V; [|discriminate]. cbn [opt_bind] in RQ. apply validate_object_spec in V. subst y.
        apply none_field in G4. apply get_field in G5; [|exact DC]. assert (DQ := dk_field _ _ _ _ DC G5).
        destruct (map_get (bs "certified_request_headers") qm) as [h|] eqn:G6; [|discriminate]. cbn [opt_bind] in RQ.
        destruct (validate_string_array h) as [hs|] eqn:S1; [|discriminate]. cbn [opt_bind] in RQ.
        destruct (map_get (bs "certified_query_parameters") qm) as [q|] eqn:G7; [|discriminate]. cbn [opt_bind] in RQ.
        destruct (validate_string_array q) as [qs|] eqn:S2; [|discriminate]. cbn [opt_bind] in RQ. injection RQ as <-. intro Q. injection Q as <-.
        apply string_array_spec in S1, S2. unfold string_list in S1, S2. subst h q. apply get_field in G6, G7; try exact DQ.
        eapply means_full; eassumption.
  - intro M. destruct M as [m rest S N|m rest cm rs N F S NR R|m rest cm qm hs qs rs N F NR FR H Q R];
      cbn [distinct_keys] in D; destruct D as [D _]; apply (dk_object (bs "ValidationArgs")) in D;
      unfold map_cel_ast; cbn [validate_function]; (destruct (bytes_eqb_spec (bs "default_certification") (bs "default_certification")) as [_|X]; [|congruence]);
      cbn [opt_bind]; rewrite object_of; cbn [opt_bind].
    + apply some_get in S. destruct S as [v S]. apply none_field in N. rewrite S, N. reflexivity.
    + assert (DC := dk_field _ _ _ _ D F). apply none_field in N. apply get_field in F; [|exact D]. rewrite N, F, object_of. cbn [opt_bind].
      unfold validate_request_certification. apply some_get in S. destruct S as [v S]. apply none_field in NR. rewrite S, NR. cbn [opt_bind].
      apply response_iff in R; [|exact DC]. rewrite R. reflexivity.
    + assert (DC := dk_field _ _ _ _ D F). apply none_field in N. apply get_field in F; [|exact D]. rewrite N, F, object_of. cbn [opt_bind].
      unfold validate_request_certification. assert (DQ := dk_field _ _ _ _ DC FR). apply none_field in NR. apply get_field in FR; [|exact DC]. rewrite NR, FR, object_of. cbn [opt_bind].
      apply get_field in H, Q; try exact DQ. rewrite H, Q. cbn [opt_bind]. rewrite !string_array_of_map. cbn [opt_bind].
      apply response_iff in R; [|exact DC]. rewrite R. reflexivity.
Qed.
(** The certification expressions the verifier accepts, and what each says. *)
Theorem C122_accepted_exactly :
  forall (s : bytes) (e : cel), (exists cs, utf8_text cs s) ->
  (cel_of_text s = Some e <-> exists t rest v, s = t ++ rest /\ expr t v /\ means v e).
Proof.
  intros s e T. unfold cel_of_text.
  assert (DK : forall v, parse_cel s = Some v -> distinct_keys v).
  { intros v P. unfold parse_cel in P. destruct (cel_value (S (length s)) s) as [v' r| | |] eqn:Q; try discriminate. injection P as <-. eapply cel_value_distinct. exact Q. }
  split.
  - destruct (parse_cel s) as [v|] eqn:P; [|discriminate]. cbn [opt_bind]. intro E. apply map_means in E; [|apply DK; reflexivity].
    apply C122_syntax_exactly in P; [|exact T]. destruct P as (t & rest & S & X). exists t, rest, v. auto.
  - intros (t & rest & v & S & X & M). assert (P : parse_cel s = Some v) by (apply C122_syntax_exactly; eauto).
    rewrite P. cbn [opt_bind]. apply map_means; [apply DK; exact P|exact M].
Qed.
Print Assumptions C122_accepted_exactly.

(** ** Concrete cases *)
(** a string literal may end in white space, an identifier may be empty, and
    anything may follow *)
Example ex_syntax : expr (bs " f ( ""a-1 "" , {k_:[]} )") (CvFunction (bs "f") [CvString (bs "a-1"); CvObject [] [(bs "k_", CvArray [])]]) /\
  parse_cel (bs " f ( ""a-1 "" , {k_:[]} ) ) junk") = Some (CvFunction (bs "f") [CvString (bs "a-1"); CvObject [] [(bs "k_", CvArray [])]]).
Proof.
  split; [|vm_compute; reflexivity].
  assert (T : exists cs, utf8_text cs (bs " f ( ""a-1 "" , {k_:[]} )")) by (apply text_valid; reflexivity).
  destruct (proj1 (C122_syntax_exactly _ (CvFunction (bs "f") [CvString (bs "a-1"); CvObject [] [(bs "k_", CvArray [])]]) T) ltac:(vm_compute; reflexivity)) as (t & rest & E & X).
  assert (R : cel_value 40 (t ++ rest) = POk (CvFunction (bs "f") [CvString (bs "a-1"); CvObject [] [(bs "k_", CvArray [])]]) rest).
  { destruct expr_parses as [P _]. apply P; [exact X|]. rewrite <- E. cbv. lia. }
  rewrite <- E in R. assert (Z : rest = []) by (vm_compute in R; injection R; auto). subst rest. rewrite app_nil_r in E. rewrite E. exact X.
Qed.
(** a trailing comma is not accepted *)
Example ex_comma : ~ exists t rest v, bs "[""a"",]" = t ++ rest /\ expr t v.
Proof.
  intros (t & rest & v & E & X). assert (P : parse_cel (bs "[""a"",]") = Some v).
  { apply C122_syntax_exactly; [apply text_valid; reflexivity|eauto]. }
  vm_compute in P. discriminate P.
Qed.
Example ex_meaning : exists t rest v, print_cel ex_cel = t ++ rest /\ expr t v /\ means v ex_cel.
Proof. apply C122_accepted_exactly; [apply text_valid; vm_compute; reflexivity|vm_compute; reflexivity]. Qed.
(** the last of two fields counts, also in a certification expression *)
Example ex_last : last_value [(bs "a", CvString (bs "x")); (bs "a", CvString (bs "y"))] (bs "a") (CvString (bs "y")).
Proof. exists [(bs "a", CvString (bs "x"))], []. split; [reflexivity|intros []]. Qed.
