(** C153: the texts of the errors of the readers of CBOR and of certification expressions. *)
From Coq Require Import List Arith NArith ZArith Lia Bool Permutation Hexadecimal.
From Verif Require Import Bytes Text Utf8 Utf8Spec Utf8Split Props_Utf8 HashTree Cbor CborSpec CborGrammar Props_CborGrammar HttpTypes Cel CelSpec CelGrammar Props_CelGrammar AssetRouter Props_Range JsonText Errors Messages Props_Messages
  CanisterMessages Props_CanisterMessages CborErrors CborErrorSpec Props_CborErrors CelErrors CelErrorSpec Props_CelErrors Props_Accept ReaderMessages.
Import ListNotations.
Local Open Scope N_scope.

(** ** Specification *)
(** [z] is [v] with the entries of its maps in some order *)
Fixpoint arranges (v z : cval) {struct v} : Prop :=
  match v with
  | CArray l => exists l', z = CArray l' /\ (fix go l l' := match l, l' with [], [] => True | a :: l, b :: l' => arranges a b /\ go l l' | _, _ => False end) l l'
  | CMap m => exists p m', z = CMap m' /\ Permutation p m' /\
      (fix go m p := match m, p with [], [] => True | (k, a) :: m, (k', b) :: p => k = k' /\ arranges a b /\ go m p | _, _ => False end) m p
  | v => z = v
  end.
Fixpoint arranges_cv (v z : cv) {struct v} : Prop :=
  match v with
  | CvString _ => z = v
  | CvArray l => exists l', z = CvArray l' /\ (fix go l l' := match l, l' with [], [] => True | a :: l, b :: l' => arranges_cv a b /\ go l l' | _, _ => False end) l l'
  | CvFunction n l => exists l', z = CvFunction n l' /\ (fix go l l' := match l, l' with [], [] => True | a :: l, b :: l' => arranges_cv a b /\ go l l' | _, _ => False end) l l'
  | CvObject n m => exists p m', z = CvObject n m' /\ Permutation p m' /\
      (fix go m p := match m, p with [], [] => True | (k, a) :: m, (k', b) :: p => k = k' /\ arranges_cv a b /\ go m p | _, _ => False end) m p
  end.
(** The text [m] can be printed for the error [e]. *)
Definition cbor_printed plain nom_text utf8_text slice_text (e : cbor_error) (m : bytes) : Prop :=
  exists x, m = cbor_message plain nom_text utf8_text slice_text x /\
    match e with UnexpectedCborNodeType t v => exists z, arranges v z /\ x = UnexpectedCborNodeType t z | e => x = e end.
Definition cel_printed plain nom_text (e : cel_error) (m : bytes) : Prop :=
  exists x, m = cel_message plain nom_text x /\
    match e with UnexpectedNodeType n t v => exists z, arranges_cv v z /\ x = UnexpectedNodeType n t z | e => x = e end.
(** the same error, up to the order of maps *)
Definition same_cbor_error (x y : cbor_error) : Prop :=
  x = y \/ exists t v w z, x = UnexpectedCborNodeType t v /\ y = UnexpectedCborNodeType t w /\ arranges v z /\ arranges w z.
Definition same_cel_error (x y : cel_error) : Prop :=
  x = y \/ exists n t v w z, x = UnexpectedNodeType n t v /\ y = UnexpectedNodeType n t w /\ arranges_cv v z /\ arranges_cv w z.

(** ** Values *)
Section Ind.
  Variable P : cval -> Prop.
  Hypothesis Hu : forall u, P (CUnsigned u). Hypothesis Hs : forall s, P (CSigned s). Hypothesis Hb : forall b, P (CBytes b). Hypothesis Ht : forall t, P (CTag t).
  Hypothesis Ha : forall l, Forall P l -> P (CArray l).
  Hypothesis Hm : forall m, Forall (fun kv => P (snd kv)) m -> P (CMap m).
  Fixpoint cval_all (v : cval) : P v :=
    match v with
    | CUnsigned u => Hu u | CSigned s => Hs s | CBytes b => Hb b | CTag t => Ht t
    | CArray l => Ha l ((fix go l := match l return Forall P l with [] => Forall_nil _ | x :: r => Forall_cons _ (cval_all x) (go r) end) l)
    | CMap m => Hm m ((fix go m := match m return Forall (fun kv => P (snd kv)) m with [] => Forall_nil _ | (k, x) :: r => Forall_cons (k, x) (cval_all x) (go r) end) m)
    end.
End Ind.
Section IndC.
  Variable P : cv -> Prop.
  Hypothesis Hs : forall s, P (CvString s).
  Hypothesis Ha : forall l, Forall P l -> P (CvArray l).
  Hypothesis Hf : forall n l, Forall P l -> P (CvFunction n l).
  Hypothesis Ho : forall n m, Forall (fun kv => P (snd kv)) m -> P (CvObject n m).
  Fixpoint cv_all (v : cv) : P v :=
    match v with
    | CvString s => Hs s
    | CvArray l => Ha l ((fix go l := match l return Forall P l with [] => Forall_nil _ | x :: r => Forall_cons _ (cv_all x) (go r) end) l)
    | CvFunction n l => Hf n l ((fix go l := match l return Forall P l with [] => Forall_nil _ | x :: r => Forall_cons _ (cv_all x) (go r) end) l)
    | CvObject n m => Ho n m ((fix go m := match m return Forall (fun kv => P (snd kv)) m with [] => Forall_nil _ | (k, x) :: r => Forall_cons (k, x) (cv_all x) (go r) end) m)
    end.
End IndC.
(** all strings in a value are UTF-8 *)
Fixpoint readable (v : cval) : Prop :=
  match v with
  | CArray l => fold_right (fun a Q => readable a /\ Q) True l
  | CMap m => fold_right (fun kv Q => text (fst kv) /\ readable (snd kv) /\ Q) True m
  | _ => True
  end.
Fixpoint readable_cv (v : cv) : Prop :=
  match v with
  | CvString s => text s
  | CvArray l => fold_right (fun a Q => readable_cv a /\ Q) True l
  | CvFunction n l => text n /\ fold_right (fun a Q => readable_cv a /\ Q) True l
  | CvObject n m => text n /\ fold_right (fun kv Q => text (fst kv) /\ readable_cv (snd kv) /\ Q) True m
  end.
Lemma fold_forall {A} (P : A -> Prop) l : fold_right (fun a Q => P a /\ Q) True l <-> Forall P l.
Proof. induction l as [|a l IH]; cbn [fold_right]; [split; constructor|]. rewrite IH. split; [intros [X Y]; constructor; assumption|intro F; inversion F; auto]. Qed.
Lemma fold_forall2 {A} (P Q : A -> Prop) l : fold_right (fun a R => P a /\ Q a /\ R) True l <-> Forall (fun a => P a /\ Q a) l.
Proof. induction l as [|a l IH]; cbn [fold_right]; [split; constructor|]. rewrite IH. split; [intros (X & Y & Z); constructor; auto|intro F; inversion F; tauto]. Qed.
Lemma arranges_readable v : forall z, arranges v z -> readable v -> readable z.
Proof.
  induction v as [u|s|b|t|l IH|m IH] using cval_all; intros z A; try (cbn [arranges] in A; subst z; cbn; tauto).
  - destruct A as (l' & -> & A). cbn [readable]. rewrite !fold_forall. revert l' A IH. induction l as [|a l IHl]; intros [|b l'] A IH; try contradiction; [tauto|].
    destruct A as [A1 A2]. intro F. constructor; [exact (Forall_inv IH b A1 (Forall_inv F))|exact (IHl l' A2 (Forall_inv_tail IH) (Forall_inv_tail F))].
  - destruct A as (p & m' & -> & PM & A). cbn [readable]. rewrite !fold_forall2. intro F.
    assert (G : Forall (fun kv => text (fst kv) /\ readable (snd kv)) p).
    { clear PM. revert p A IH F. induction m as [|[k a] m IHm]; intros [|[k' b] p] A IH F; try contradiction; [constructor|].
      destruct A as (-> & A1 & A2). destruct (Forall_inv F) as [F1 F2]. constructor; [split; [exact F1|exact (Forall_inv IH b A1 F2)]|exact (IHm p A2 (Forall_inv_tail IH) (Forall_inv_tail F))]. }
    rewrite Forall_forall in *. intros x I. apply G. eapply Permutation_in; [apply Permutation_sym; exact PM|exact I].
Qed.
Lemma arranges_cv_readable v : forall z, arranges_cv v z -> readable_cv v -> readable_cv z.
Proof.
  induction v as [s|l IH|n l IH|n m IH] using cv_all; intros z A.
  - cbn [arranges_cv] in A. subst z. tauto.
  - destruct A as (l' & -> & A). cbn [readable_cv]. rewrite !fold_forall. revert l' A IH. induction l as [|a l IHl]; intros [|b l'] A IH; try contradiction; [tauto|].
    destruct A as [A1 A2]. intro F. constructor; [exact (Forall_inv IH b A1 (Forall_inv F))|exact (IHl l' A2 (Forall_inv_tail IH) (Forall_inv_tail F))].
  - destruct A as (l' & -> & A). cbn [readable_cv]. rewrite !fold_forall. intros [T F]. split; [exact T|]. revert l' A IH F. induction l as [|a l IHl]; intros [|b l'] A IH F; try contradiction; [constructor|].
    destruct A as [A1 A2]. constructor; [exact (Forall_inv IH b A1 (Forall_inv F))|exact (IHl l' A2 (Forall_inv_tail IH) (Forall_inv_tail F))].
  - destruct A as (p & m' & -> & PM & A). cbn [readable_cv]. rewrite !fold_forall2. intros [T F]. split; [exact T|].
    assert (G : Forall (fun kv => text (fst kv) /\ readable_cv (snd kv)) p).
    { clear PM. revert p A IH F. induction m as [|[k a] m IHm]; intros [|[k' b] p] A IH F; try contradiction; [constructor|].
      destruct A as (-> & A1 & A2). destruct (Forall_inv F) as [F1 F2]. constructor; [split; [exact F1|exact (Forall_inv IH b A1 F2)]|exact (IHm p A2 (Forall_inv_tail IH) (Forall_inv_tail F))]. }
    rewrite Forall_forall in *. intros x I. apply G. eapply Permutation_in; [apply Permutation_sym; exact PM|exact I].
Qed.

(** ** Lists *)
Definition free_for {A} (f : A -> bytes) (Q : A -> Prop) (a : A) : Prop := forall b r r', Q b -> f a ++ r = f b ++ r' -> a = b /\ r = r'.
Lemma seq_prefix_free {A} (f : A -> bytes) (Q : A -> Prop) (cl : byte) l : cl <> ","%byte -> (forall a r r', f a ++ r <> cl :: r') ->
  Forall (free_for f Q) l ->
  forall l' r r', Forall Q l' -> join (bs ", ") (map f l) ++ cl :: r = join (bs ", ") (map f l') ++ cl :: r' -> l = l' /\ r = r'.
Proof.
  intros NC H. assert (J : forall x y r, exists c t, join (bs ", ") (map f (x :: y)) ++ cl :: r = f x ++ c :: t /\
      (y = [] /\ c = cl /\ t = r \/ exists z w, y = z :: w /\ c = ","%byte /\ t = " "%byte :: join (bs ", ") (map f (z :: w)) ++ cl :: r)).
  { intros x [|z w] r.
    - exists cl, r. split; [reflexivity|]. left. auto.
    - exists ","%byte, (" "%byte :: join (bs ", ") (map f (z :: w)) ++ cl :: r). split; [|right; exists z, w; auto].
      change (join (bs ", ") (map f (x :: z :: w))) with (f x ++ bs ", " ++ join (bs ", ") (map f (z :: w))). rewrite <- !app_assoc. reflexivity. }
  induction l as [|a l IH]; intros F [|b l'] r r' FQ E.
  - cbn [map join app] in E. injection E as ->. auto.
  - exfalso. destruct (J b l' r') as (c & t & X & _). rewrite X in E. cbn [map join app] in E. symmetry in E. exact (H _ _ _ E).
  - exfalso. destruct (J a l r) as (c & t & X & _). rewrite X in E. cbn [map join app] in E. exact (H _ _ _ E).
  - destruct (J a l r) as (c & t & X & D), (J b l' r') as (c' & t' & X' & D'). clear J. rewrite X, X' in E. apply (Forall_inv F) in E; [|exact (Forall_inv FQ)]. destruct E as [-> E]. injection E as E1 E2.
    destruct D as [(-> & -> & ->)|(z & w & -> & -> & ->)], D' as [(-> & -> & ->)|(z' & w' & -> & -> & ->)]; try (exfalso; congruence).
    + auto.
    + injection E2 as E2. destruct (IH (Forall_inv_tail F) (z' :: w') r r' (Forall_inv_tail FQ) E2) as [-> ->]. auto.
Qed.
Lemma vec_free {A} (f : A -> bytes) (Q : A -> Prop) l l' r r' : (forall a r r', f a ++ r <> "]"%byte :: r') -> Forall (free_for f Q) l -> Forall Q l' ->
  debug_vec (map f l) ++ r = debug_vec (map f l') ++ r' -> l = l' /\ r = r'.
Proof.
  intros H F FQ E. unfold debug_vec in E. rewrite <- !app_assoc in E. apply app_inv_head in E.
  exact (seq_prefix_free f Q "]"%byte l ltac:(discriminate) H F l' r r' FQ E).
Qed.

(** ** Values can be read off their texts *)
Section Printed.
  Variable plain : N -> bool.
  Notation dv := (debug_cval plain).
  Notation dc := (debug_cv plain).
  Lemma entries_free {V} (d : V -> bytes) (Q : V -> Prop) (m : list (bytes * V)) m' r r' :
    Forall (fun kv => text (fst kv) /\ free_for d Q (snd kv)) m -> Forall (fun kv => text (fst kv) /\ Q (snd kv)) m' ->
    debug_entries (map (fun kv => (debug_str plain (fst kv), d (snd kv))) m) ++ r = debug_entries (map (fun kv => (debug_str plain (fst kv), d (snd kv))) m') ++ r' ->
    m = m' /\ r = r'.
  Proof.
    intros F FQ E. unfold debug_entries in E. rewrite !map_map in E. cbn [fst snd] in E. rewrite <- !app_assoc in E. apply app_inv_head in E.
    refine (seq_prefix_free (fun kv => debug_str plain (fst kv) ++ bs ": " ++ d (snd kv)) (fun kv => text (fst kv) /\ Q (snd kv)) "}"%byte m ltac:(discriminate) _ _ m' r r' FQ E).
    - intros a s s' X. unfold debug_str, Messages.quote in X. cbn in X. discriminate X.
    - clear - F. induction F as [|[k v] m [T G] F IH]; constructor; [|exact IH]. intros [k' v'] s s' [T' G'] X. cbn [fst snd] in *.
      rewrite <- !app_assoc in X. apply str_prefix_free in X; [|exact T|exact T']. destruct X as [-> X]. apply app_inv_head in X.
      apply G in X; [|exact G']. destruct X as [-> ->]. auto.
  Qed.
  Lemma num_close n n' r r' : dec n ++ bs ")" ++ r = dec n' ++ bs ")" ++ r' -> n = n' /\ r = r'.
  Proof. intro E. apply (dec_prefix_free n n' ")"%byte r r'); [vm_compute; reflexivity|exact E]. Qed.
  Lemma zdec_close z z' r r' : zdec z ++ bs ")" ++ r = zdec z' ++ bs ")" ++ r' -> z = z' /\ r = r'.
  Proof.
    assert (M : forall n x t, dec n ++ x <> "-"%byte :: t).
    { intros n x t. destruct (dec_decimal n) as (N & F & _). destruct (dec n) as [|c l]; [congruence|]. cbn [app]. intro X. injection X as -> _. assert (Y := Forall_inv F). cbv beta in Y. vm_compute in Y. destruct Y as [Y _]. exact (Y eq_refl). }
    unfold zdec. destruct (z <? 0)%Z eqn:A, (z' <? 0)%Z eqn:B; intro E; rewrite <- ?app_assoc in E.
    - apply app_inv_head in E. apply num_close in E. destruct E as [E ->]. apply Z.ltb_lt in A, B. split; [lia|reflexivity].
    - symmetry in E. exfalso. exact (M _ _ _ E).
    - exfalso. exact (M _ _ _ E).
    - apply num_close in E. destruct E as [E ->]. apply Z.ltb_ge in A, B. split; [lia|reflexivity].
  Qed.
  Lemma uint_free u u' r r' : debug_uint u ++ r = debug_uint u' ++ r' -> u = u' /\ r = r'.
  Proof.
    destruct u, u'; cbn [debug_uint]; intro E; rewrite <- !app_assoc in E; try discriminate E; apply app_inv_head in E; apply num_close in E; destruct E as [-> ->]; auto.
  Qed.
  Lemma sint_free u u' r r' : debug_sint u ++ r = debug_sint u' ++ r' -> u = u' /\ r = r'.
  Proof.
    destruct u, u'; cbn [debug_sint]; intro E; rewrite <- !app_assoc in E; try discriminate E; apply app_inv_head in E; apply zdec_close in E; destruct E as [-> ->]; auto.
  Qed.
  Lemma tag_free t t' r r' : debug_tag t ++ bs ")" ++ r = debug_tag t' ++ bs ")" ++ r' -> t = t' /\ r = r'.
  Proof. destruct t, t'; cbn [debug_tag]; intro E; try discriminate E; apply app_inv_head in E; apply app_inv_head in E; auto. Qed.
  Lemma dv_head v r r' : dv v ++ r <> "]"%byte :: r'.
  Proof. destruct v; cbn [debug_cval]; rewrite <- ?app_assoc; discriminate. Qed.
  Lemma dc_head v r r' : dc v ++ r <> "]"%byte :: r'.
  Proof. destruct v; cbn [debug_cv]; rewrite <- ?app_assoc; discriminate. Qed.
  Lemma dv_free v : readable v -> free_for dv readable v.
  Proof.
    induction v as [u|s|b|t|l IH|m IH] using cval_all; intros R w r r' W E; destruct w as [u'|s'|b'|l'|m'|t']; cbn [debug_cval] in E; rewrite <- !app_assoc in E; try discriminate E; apply app_inv_head in E.
    - apply uint_free in E. destruct E as [-> E]. apply app_inv_head in E. auto.
    - apply sint_free in E. destruct E as [-> E]. apply app_inv_head in E. auto.
    - apply bytes_prefix_free in E. destruct E as [-> E]. apply app_inv_head in E. auto.
    - apply tag_free in E. destruct E as [-> ->]. auto.
    - cbn [readable] in R, W. rewrite fold_forall in R, W. apply (vec_free dv readable) in E.
      + destruct E as [-> E]. apply app_inv_head in E. auto.
      + apply dv_head.
      + rewrite Forall_forall in *. intros x I. exact (IH x I (R x I)).
      + exact W.
    - cbn [readable] in R, W. rewrite fold_forall2 in R, W. apply (entries_free dv readable) in E.
      + destruct E as [-> E]. apply app_inv_head in E. auto.
      + rewrite Forall_forall in *. intros x I. destruct (R x I) as [T G]. split; [exact T|exact (IH x I G)].
      + exact W.
  Qed.
  Lemma dc_free v : readable_cv v -> free_for dc readable_cv v.
  Proof.
    induction v as [s|l IH|n l IH|n m IH] using cv_all; intros R w r r' W E; destruct w as [s'|l'|n' m'|n' l']; cbn [debug_cv] in E; rewrite <- !app_assoc in E; try discriminate E; apply app_inv_head in E; cbn [readable_cv] in R, W.
    - apply str_prefix_free in E; [|exact R|exact W]. destruct E as [-> E]. apply app_inv_head in E. auto.
    - rewrite fold_forall in R, W. apply (vec_free dc readable_cv) in E.
      + destruct E as [-> E]. apply app_inv_head in E. auto.
      + apply dc_head.
      + rewrite Forall_forall in *. intros x I. exact (IH x I (R x I)).
      + exact W.
    - rewrite fold_forall in R, W. destruct R as [T R], W as [T' W]. apply str_prefix_free in E; [|exact T|exact T']. destruct E as [-> E]. apply app_inv_head in E. apply (vec_free dc readable_cv) in E.
      + destruct E as [-> E]. apply app_inv_head in E. auto.
      + apply dc_head.
      + rewrite Forall_forall in *. intros x I. exact (IH x I (R x I)).
      + exact W.
    - rewrite fold_forall2 in R, W. destruct R as [T R], W as [T' W]. apply str_prefix_free in E; [|exact T|exact T']. destruct E as [-> E]. apply app_inv_head in E. apply (entries_free dc readable_cv) in E.
      + destruct E as [-> E]. apply app_inv_head in E. auto.
      + rewrite Forall_forall in *. intros x I. destruct (R x I) as [T1 G]. split; [exact T1|exact (IH x I G)].
      + exact W.
  Qed.

  (** ** These texts are UTF-8 *)
  Lemma text_app a b : text a -> text b -> text (a ++ b).
  Proof. apply utf8_app. Qed.
  Lemma text_join sep l : text sep -> Forall text l -> text (join sep l).
  Proof.
    intros S F. induction F as [|a l T F IH]; [reflexivity|]. destruct l as [|b l]; [exact T|].
    change (join sep (a :: b :: l)) with (a ++ sep ++ join sep (b :: l)). apply text_app; [exact T|]. apply text_app; assumption.
  Qed.
  Lemma text_vec l : Forall text l -> text (debug_vec l).
  Proof. intro F. unfold debug_vec. apply text_app; [reflexivity|]. apply text_app; [|reflexivity]. apply text_join; [reflexivity|exact F]. Qed.
  Lemma digits_text l : Forall (fun b => 48 <= b2n b <= 57) l -> text l.
  Proof.
    intro F. apply ascii_utf8. unfold is_ascii. apply forallb_forall. intros b I. rewrite Forall_forall in F. specialize (F b I). apply N.ltb_lt. lia.
  Qed.
  Lemma dec_text n : text (dec n).
  Proof. apply digits_text. apply dec_digits. Qed.
  Lemma zdec_text z : text (zdec z).
  Proof. unfold zdec. destruct (z <? 0)%Z; [apply text_app; [reflexivity|]|]; apply dec_text. Qed.
  Lemma hex_text n : text (hex n).
  Proof. apply ascii_utf8. unfold hex. generalize (N.to_hex_uint n). intro u. induction u; cbn [hex_bytes]; try reflexivity; unfold is_ascii in *; cbn [forallb]; rewrite IHu; reflexivity. Qed.
  Lemma char_text c : scalar c -> text (debug_char plain c).
  Proof.
    intro S. destruct (dc_cases plain c) as [(k & C)|[(E & _)|E]].
    - destruct C as [[E Q]|[[E Q]|[[E Q]|[[E Q]|[[E Q]|[E Q]]]]]]; injection Q as -> ->; rewrite E; reflexivity.
    - rewrite E. unfold text, utf8_valid. assert (D := decode_of c [] S). rewrite app_nil_r in D. rewrite D. reflexivity.
    - rewrite E. change (text (bs "\u{" ++ hex c ++ bs "}")). apply text_app; [reflexivity|]. apply text_app; [apply hex_text|reflexivity].
  Qed.
  Lemma str_text s : text s -> text (debug_str plain s).
  Proof.
    intro T. destruct (chars_text s T) as [F _]. unfold debug_str. apply text_app; [reflexivity|]. apply text_app; [|reflexivity].
    induction F as [|c cs S F IH]; [reflexivity|]. cbn [flat_map]. apply text_app; [apply char_text; exact S|exact IH].
  Qed.
  Lemma entries_text {V} (d : V -> bytes) (m : list (bytes * V)) : Forall (fun kv => text (fst kv) /\ text (d (snd kv))) m ->
    text (debug_entries (map (fun kv => (debug_str plain (fst kv), d (snd kv))) m)).
  Proof.
    intro F. unfold debug_entries. apply text_app; [reflexivity|]. apply text_app; [|reflexivity]. rewrite map_map. cbn [fst snd]. apply text_join; [reflexivity|].
    apply Forall_map. eapply Forall_impl; [|exact F]. intros [k v] [A B]. cbn [fst snd] in *. apply text_app; [apply str_text; exact A|]. apply text_app; [reflexivity|exact B].
  Qed.
  Lemma dv_text v : readable v -> text (dv v).
  Proof.
    induction v as [u|s|b|t|l IH|m IH] using cval_all; intro R; cbn [debug_cval]; (apply text_app; [reflexivity|]); (apply text_app; [|reflexivity]).
    - destruct u; cbn [debug_uint]; (apply text_app; [reflexivity|]); (apply text_app; [apply dec_text|reflexivity]).
    - destruct s; cbn [debug_sint]; (apply text_app; [reflexivity|]); (apply text_app; [apply zdec_text|reflexivity]).
    - apply text_vec. apply Forall_map. apply Forall_forall. intros c _. apply dec_text.
    - destruct t; reflexivity.
    - apply text_vec. apply Forall_map. cbn [readable] in R. rewrite fold_forall in R. rewrite Forall_forall in *. intros x I. exact (IH x I (R x I)).
    - apply entries_text. cbn [readable] in R. rewrite fold_forall2 in R. rewrite Forall_forall in *. intros x I. destruct (R x I) as [T G]. split; [exact T|exact (IH x I G)].
  Qed.
  Lemma dc_text v : readable_cv v -> text (dc v).
  Proof.
    induction v as [s|l IH|n l IH|n m IH] using cv_all; intro R; cbn [debug_cv]; (apply text_app; [reflexivity|]); cbn [readable_cv] in R.
    - apply text_app; [apply str_text; exact R|reflexivity].
    - apply text_app; [|reflexivity]. apply text_vec. apply Forall_map. rewrite fold_forall in R. rewrite Forall_forall in *. intros x I. exact (IH x I (R x I)).
    - destruct R as [T R]. apply text_app; [apply str_text; exact T|]. apply text_app; [reflexivity|]. apply text_app; [|reflexivity]. apply text_vec. apply Forall_map. rewrite fold_forall in R. rewrite Forall_forall in *. intros x I. exact (IH x I (R x I)).
    - destruct R as [T R]. apply text_app; [apply str_text; exact T|]. apply text_app; [reflexivity|]. apply text_app; [|reflexivity]. apply entries_text. rewrite fold_forall2 in R. rewrite Forall_forall in *. intros x I. destruct (R x I) as [T1 G]. split; [exact T1|exact (IH x I G)].
  Qed.
  (** [{:?}] of the [{:?}] text *)
  Lemma dv_inj v w : readable v -> readable w -> debug_str plain (dv v) = debug_str plain (dv w) -> v = w.
  Proof.
    intros R W E. assert (E' : debug_str plain (dv v) ++ [] = debug_str plain (dv w) ++ []) by (rewrite E; reflexivity).
    apply str_prefix_free in E'; [|apply dv_text; exact R|apply dv_text; exact W]. destruct E' as [E' _].
    apply (dv_free v R w [] []); [exact W|]. rewrite E'. reflexivity.
  Qed.
  Lemma dc_inj v w : readable_cv v -> readable_cv w -> debug_str plain (dc v) = debug_str plain (dc w) -> v = w.
  Proof.
    intros R W E. assert (E' : debug_str plain (dc v) ++ [] = debug_str plain (dc w) ++ []) by (rewrite E; reflexivity).
    apply str_prefix_free in E'; [|apply dc_text; exact R|apply dc_text; exact W]. destruct E' as [E' _].
    apply (dc_free v R w [] []); [exact W|]. rewrite E'. reflexivity.
  Qed.
End Printed.

(** ** What the readers find is UTF-8 *)
Lemma map_set_ok {V} (P : bytes * V -> Prop) k v m : P (k, v) -> Forall P m -> Forall P (map_set k v m).
Proof.
  intros A F. induction F as [|[k' v'] m B F IH]; cbn [map_set]; [constructor; [exact A|constructor]|].
  destruct (bytes_eqb k k'); constructor; assumption.
Qed.
Lemma number_readable a : readable (number_value a).
Proof. destruct a as [n|n|n|n|n]; cbn; auto; destruct n as [|[[p|p|]|[[p|p|]|[p|p|]|]|]]; cbn; auto. Qed.
Lemma item_readable umod cap short i : well_formed umod cap short i -> readable (item_value i).
Proof.
  revert i. fix IH 1. intros [a|a|t a s|a l|a l|s a i]; cbn [item_value well_formed]; intro W.
  - apply number_readable.
  - exact I.
  - exact I.
  - destruct W as (_ & _ & W). cbn [readable]. induction l as [|x l IHl]; [exact I|]. cbn [map fold_right] in *. destruct W as [W1 W2]. split; [exact (IH x W1)|exact (IHl W2)].
  - destruct W as (_ & _ & _ & W). cbn [readable]. rewrite fold_forall2.
    assert (G : Forall (fun kv => text (fst kv) /\ readable (snd kv)) ([] : list (bytes * cval))) by constructor. revert G. generalize ([] : list (bytes * cval)).
    induction l as [|[k v] l IHl]; intros m G; cbn [fold_left]; [exact G|]. cbn [fold_right] in W. destruct W as [(_ & W1 & s & Ek & U) W2].
    apply (IHl W2). rewrite Ek. apply map_set_ok; [|exact G]. split; [exact U|exact (IH v W1)].
  - destruct W as [_ W]. exact (IH i W).
Qed.
Lemma parsed_readable umod cap i v : parse_cbor umod cap i = OOk v -> readable v.
Proof. intro E. destruct (C117_only_items_are_read _ _ _ _ E) as (x & W & _ & ->). exact (item_readable _ _ _ _ W). Qed.
Lemma collect_readable kvs : Forall (fun kv => text (fst kv) /\ readable_cv (snd kv)) kvs -> Forall (fun kv => text (fst kv) /\ readable_cv (snd kv)) (collect kvs).
Proof.
  unfold collect. intro F. assert (G : Forall (fun kv => text (fst kv) /\ readable_cv (snd kv)) ([] : list (bytes * cv))) by constructor. revert G. generalize ([] : list (bytes * cv)).
  induction F as [|[k v] l A F IH]; intros m G; cbn [fold_left]; [exact G|]. apply IH. apply map_set_ok; [exact A|exact G].
Qed.
Lemma text_of s : (exists cs, utf8_text cs s) -> text s.
Proof. intro T. apply text_valid. exact T. Qed.
Lemma grammar_readable :
  (forall t v, expr t v -> readable_cv v) /\ (forall t l, items t l -> Forall readable_cv l) /\ (forall t l, more t l -> Forall readable_cv l) /\
  (forall t m, fields t m -> Forall (fun kv => text (fst kv) /\ readable_cv (snd kv)) m) /\ (forall t m, fmore t m -> Forall (fun kv => text (fst kv) /\ readable_cv (snd kv)) m).
Proof.
  assert (K : forall s, CelGrammar.key s -> text s) by (intros s (cs & U & _); apply text_of; eauto).
  apply grammar_mut; intros; cbn [readable_cv]; rewrite ?fold_forall, ?fold_forall2; auto.
  - destruct n0 as (cs & U & _). apply text_of. eauto.
  - split; [apply K; assumption|]. apply collect_readable. assumption.
Qed.

Definition shows_text (e : cbor_error) : Prop := match e with UnexpectedCborNodeType t v => text t /\ readable v | _ => True end.
Definition shows_cel_text (e : cel_error) : Prop :=
  match e with
  | MissingFunctionParameter f t n _ => text f /\ text t /\ text n
  | IncorrectFunctionParameterType f n t u _ => text f /\ text n /\ text t /\ text u
  | UnexpectedNodeType n t v => text n /\ text t /\ readable_cv v
  | UnexpectedNodeName t n u => text t /\ text n /\ text u
  | MissingObjectProperty o p => text o /\ text p
  | _ => True
  end.
Lemma tree_shows v e : tree_fault v e -> shows_text e.
Proof. intro F. induction F; cbn; auto. Qed.
Lemma certificate_shows v e : certificate_fault v e -> shows_text e.
Proof. intro F. destruct F; cbn; auto. eapply tree_shows. eassumption. Qed.
Lemma ranges_shows v e : ranges_fault v e -> shows_text e.
Proof. intro F. destruct F; cbn; auto. Qed.
Lemma strings_shows v e : readable v -> strings_fault v e -> shows_text e.
Proof.
  intros R F. destruct F as [v|good x rest|]; cbn [shows_text]; auto; (split; [reflexivity|]); [exact R|].
  cbn [readable] in R. rewrite fold_forall in R. rewrite Forall_forall in R. apply R. apply in_or_app. right. left. reflexivity.
Qed.
Lemma field_readable m k v : Forall (fun kv => text (fst kv) /\ readable_cv (snd kv)) m -> field m k v -> readable_cv v.
Proof. intros F I. rewrite Forall_forall in F. exact (proj2 (F _ I)). Qed.
Lemma object_fields n m : readable_cv (CvObject n m) -> Forall (fun kv => text (fst kv) /\ readable_cv (snd kv)) m.
Proof. cbn [readable_cv]. rewrite fold_forall2. tauto. Qed.
Lemma bs_text (s : String.string) : is_ascii (bs s) = true -> text (bs s).
Proof. apply ascii_utf8. Qed.
Lemma object_shows v k e : is_ascii (bs k) = true -> readable_cv v -> object_fault v k e -> shows_cel_text e.
Proof.
  intros A R F. apply bs_text in A. destruct F as [|n m E N]; cbn [shows_cel_text]; [repeat split; [exact A|exact R]|].
  subst v. cbn [readable_cv] in R. repeat split; [exact A|exact (proj1 R)].
Qed.
Lemma list_shows v k e : is_ascii (bs k) = true -> readable_cv v -> list_fault v k e -> shows_cel_text e.
Proof. intros A R F. apply bs_text in A. destruct F; cbn [shows_cel_text]; repeat split; assumption. Qed.
Lemma hlist_shows m k e : is_ascii (bs k) = true -> Forall (fun kv => text (fst kv) /\ readable_cv (snd kv)) m -> hlist_fault m k e -> shows_cel_text e.
Proof.
  intros A R F. destruct F as [v e G O|lm h e G H L].
  - eapply object_shows; cycle 2; [exact O|reflexivity|]. eapply field_readable; eauto.
  - eapply list_shows; [exact A| |exact L]. assert (X := field_readable _ _ _ R G). apply object_fields in X. eapply field_readable; eauto.
Qed.
Lemma request_shows m e : Forall (fun kv => text (fst kv) /\ readable_cv (snd kv)) m -> request_fault m e -> shows_cel_text e.
Proof.
  intros R F. destruct F as [| |v e N G O|qm N G M|qm h e N G H L|qm hs N G H M|qm hs q e N G H Q L]; cbn; auto; try (split; reflexivity);
    try (assert (X := field_readable _ _ _ R G)).
  - eapply object_shows; cycle 2; [exact O|reflexivity|]. exact X.
  - apply object_fields in X. eapply list_shows; cycle 2; [exact L|reflexivity|]. eapply field_readable; eauto.
  - apply object_fields in X. eapply list_shows; cycle 2; [exact L|reflexivity|]. eapply field_readable; eauto.
Qed.
Lemma response_shows m e : Forall (fun kv => text (fst kv) /\ readable_cv (snd kv)) m -> response_fault m e -> shows_cel_text e.
Proof.
  intros R F. destruct F as [N|v e G O|rm e G L|rm o e G H L|rm l l' G|rm G]; cbn; auto; try (split; reflexivity);
    assert (X := field_readable _ _ _ R G).
  - eapply object_shows; cycle 2; [exact O|reflexivity|]. exact X.
  - apply object_fields in X. eapply hlist_shows; cycle 2; [exact L|reflexivity|exact X].
  - apply object_fields in X. eapply hlist_shows; cycle 2; [exact L|reflexivity|exact X].
Qed.
Lemma cel_shows v e : readable_cv v -> cel_fault v e -> shows_cel_text e.
Proof.
  intros R F. assert (A : forall x rest, readable_cv (CvFunction (bs "default_certification") (x :: rest)) -> readable_cv x) by (intros x rest [_ [X _]]; exact X).
  destruct F as [v N|n l N| |x rest e O| | |m rest v e N G O|m rest cm e N G Q|m rest cm e N G Q O]; cbn [shows_cel_text]; auto; try (repeat split; fail).
  - repeat split. exact R.
  - repeat split. exact (proj1 R).
  - eapply object_shows; cycle 2; [exact O|reflexivity|]. exact (A _ _ R).
  - eapply object_shows; cycle 2; [exact O|reflexivity|]. apply A in R. apply object_fields in R. eapply field_readable; eauto.
  - apply A in R. apply object_fields in R. eapply request_shows; [|exact Q]. eapply object_fields. eapply field_readable; eauto.
  - apply A in R. apply object_fields in R. eapply response_shows; [|exact O]. eapply object_fields. eapply field_readable; eauto.
Qed.

(** ** C153 *)
Definition cbor_lead (e : cbor_error) : bytes :=
  match e with
  | MalformedCbor => bs "Invalid cbor: "
  | UnexpectedCborNodeType _ _ => bs "Expected node with to have type "
  | CborUtf8ConversionError => bs "Error converting UTF8 string bytes: "
  | MalformedCertificate _ => bs "Failed to parse certificate: """
  | MalformedHashTree _ => bs "Failed to parse hash tree: """
  | IncorrectPrunedDataLength => bs "Invalid pruned data: """
  | e => cbor_message (fun _ => true) [] [] [] e
  end.
Lemma cbor_lead_of plain a b c e : exists t, cbor_message plain a b c e = cbor_lead e ++ t.
Proof. destruct e; cbn [cbor_message cbor_lead]; try (eexists; reflexivity); exists []; rewrite app_nil_r; reflexivity. Qed.
Lemma cbor_kinds_clash plain a b c a' b' c' x y : clash (cbor_lead x) (cbor_lead y) = true -> cbor_message plain a b c x <> cbor_message plain a' b' c' y.
Proof. destruct (cbor_lead_of plain a b c x) as [t ->], (cbor_lead_of plain a' b' c' y) as [t' ->]. apply clash_no. Qed.
Lemma cbor_message_inj plain a b c a' b' c' x y : shows_text x -> shows_text y -> cbor_message plain a b c x = cbor_message plain a' b' c' y ->
  x = y /\ (x = MalformedCbor -> a = a') /\ (x = CborUtf8ConversionError -> b = b') /\ (x = IncorrectPrunedDataLength -> c = c').
Proof.
  intros S S' E. destruct x, y; try (exfalso; revert E; apply cbor_kinds_clash; vm_compute; reflexivity); cbn [cbor_message] in E;
    try (repeat split; discriminate); try apply app_inv_head in E.
  - repeat split; try discriminate. intros _. exact E.
  - destruct S as [T R], S' as [T' R']. apply str_prefix_free in E; [|exact T|exact T']. destruct E as [-> E]. apply app_inv_head in E. apply dv_inj in E; [|exact R|exact R']. subst.
    repeat split; discriminate.
  - repeat split; try discriminate. intros _. exact E.
  - apply app_inv_tail in E. subst. repeat split; discriminate.
  - apply app_inv_tail in E. subst. repeat split; discriminate.
  - apply app_inv_tail in E. repeat split; try discriminate. intros _. exact E.
Qed.
(** Two errors with a text in common are the same, up to the order of maps. *)
Theorem C153_cbor_text_tells_the_error :
  forall (plain : N -> bool) (nom utf8 slice nom' utf8' slice' : bytes) (x y : cbor_error) (m : bytes),
  (* names and keys are UTF-8 strings *)
  shows_text x -> shows_text y ->
  cbor_printed plain nom utf8 slice x m -> cbor_printed plain nom' utf8' slice' y m ->
  same_cbor_error x y /\ (x = MalformedCbor -> nom = nom') /\ (x = CborUtf8ConversionError -> utf8 = utf8') /\ (x = IncorrectPrunedDataLength -> slice = slice').
Proof.
  intros plain a b c a' b' c' x y m S S' (x0 & -> & P) (y0 & E & P').
  assert (S0 : shows_text x0).
  { destruct x; try (subst x0; exact I). destruct P as (z & A & ->). destruct S as [T R]. split; [exact T|]. eapply arranges_readable; eassumption. }
  assert (S0' : shows_text y0).
  { destruct y; try (subst y0; exact I). destruct P' as (z & A & ->). destruct S' as [T R]. split; [exact T|]. eapply arranges_readable; eassumption. }
  apply cbor_message_inj in E; [|exact S0|exact S0']. destruct E as (-> & E1 & E2 & E3).
  destruct x, y; try (destruct P as (z & A & P)); try (destruct P' as (z' & A' & P')); try (rewrite P in P'; try discriminate P'); try (rewrite P in *);
    try (split; [left; congruence|]; repeat split; intros X; first [discriminate X|auto]).
  split; [|repeat split; discriminate]. right. injection P' as <- <-. do 4 eexists. split; [reflexivity|]. split; [reflexivity|]. split; eassumption.
Qed.
Print Assumptions C153_cbor_text_tells_the_error.
Definition cel_lead (e : cel_error) : bytes :=
  match e with
  | UnrecognizedFunction _ => Messages.quote
  | MissingFunctionParameter _ _ _ _ | IncorrectFunctionParameterType _ _ _ _ _ => bs "Parameter at position "
  | UnexpectedNodeType _ _ _ => bs "Expected node with name "
  | UnexpectedNodeName _ _ _ => bs "Expected node with type "
  | MissingObjectProperty _ _ => bs "Expected object "
  | CelSyntaxException => bs "Cel Syntax Expception: "
  | e => cel_message (fun _ => true) [] e
  end.
Lemma cel_lead_of plain a e : exists t, cel_message plain a e = cel_lead e ++ t.
Proof. destruct e; cbn [cel_message cel_lead]; try (eexists; reflexivity); exists []; rewrite app_nil_r; reflexivity. Qed.
Lemma cel_kinds_clash plain a a' x y : clash (cel_lead x) (cel_lead y) = true -> cel_message plain a x <> cel_message plain a' y.
Proof. destruct (cel_lead_of plain a x) as [t ->], (cel_lead_of plain a' y) as [t' ->]. apply clash_no. Qed.
Lemma str_end plain s s' : text s -> text s' -> debug_str plain s = debug_str plain s' -> s = s'.
Proof. intros T T' E. apply (str_prefix_free plain s s' [] []); [exact T|exact T'|]. rewrite E. reflexivity. Qed.
Lemma cel_message_inj plain a a' x y : shows_cel_text x -> shows_cel_text y -> cel_message plain a x = cel_message plain a' y ->
  x = y /\ (x = CelSyntaxException -> a = a').
Proof.
  intros S S' E. destruct x, y; try (exfalso; revert E; apply cel_kinds_clash; vm_compute; reflexivity); cbn [cel_message] in E;
    try (split; [reflexivity|discriminate]); apply app_inv_head in E.
  - split; [|discriminate]. apply app_inv_tail in E. subst. reflexivity.
  - split; [|discriminate]. destruct S as (T1 & T2 & T3), S' as (T1' & T2' & T3').
    apply (dec_sep _ _ _ _ _ _ (eq_refl : (b2n " "%byte < 48))) in E. destruct E as [-> E].
    apply str_prefix_free in E; [|assumption|assumption]. destruct E as [-> E]. apply app_inv_head in E.
    apply str_prefix_free in E; [|assumption|assumption]. destruct E as [-> E]. apply app_inv_head in E. apply str_end in E; [|assumption|assumption]. subst. reflexivity.
  - exfalso. destruct S as (T1 & _), S' as (T1' & _).
    apply (dec_sep _ _ _ _ _ _ (eq_refl : (b2n " "%byte < 48))) in E. destruct E as [-> E].
    apply str_prefix_free in E; [|assumption|assumption]. destruct E as [-> E]. discriminate E.
  - exfalso. destruct S as (T1 & _), S' as (T1' & _).
    apply (dec_sep _ _ _ _ _ _ (eq_refl : (b2n " "%byte < 48))) in E. destruct E as [-> E].
    apply str_prefix_free in E; [|assumption|assumption]. destruct E as [-> E]. discriminate E.
  - split; [|discriminate]. destruct S as (T1 & T2 & T3 & T4), S' as (T1' & T2' & T3' & T4').
    apply (dec_sep _ _ _ _ _ _ (eq_refl : (b2n " "%byte < 48))) in E. destruct E as [-> E].
    apply str_prefix_free in E; [|assumption|assumption]. destruct E as [-> E]. apply app_inv_head in E.
    apply str_prefix_free in E; [|assumption|assumption]. destruct E as [-> E]. apply app_inv_head in E.
    apply str_prefix_free in E; [|assumption|assumption]. destruct E as [-> E]. apply app_inv_head in E. apply str_end in E; [|assumption|assumption]. subst. reflexivity.
  - split; [|discriminate]. destruct S as (T1 & T2 & R), S' as (T1' & T2' & R').
    apply str_prefix_free in E; [|assumption|assumption]. destruct E as [-> E]. apply app_inv_head in E.
    apply str_prefix_free in E; [|assumption|assumption]. destruct E as [-> E]. apply app_inv_head in E. apply dc_inj in E; [|assumption|assumption]. subst. reflexivity.
  - split; [|discriminate]. destruct S as (T1 & T2 & T3), S' as (T1' & T2' & T3').
    apply str_prefix_free in E; [|assumption|assumption]. destruct E as [-> E]. apply app_inv_head in E.
    apply str_prefix_free in E; [|assumption|assumption]. destruct E as [-> E]. apply app_inv_head in E. apply str_end in E; [|assumption|assumption]. subst. reflexivity.
  - split; [|discriminate]. destruct S as (T1 & T2), S' as (T1' & T2').
    apply str_prefix_free in E; [|assumption|assumption]. destruct E as [-> E]. apply app_inv_head in E. apply str_end in E; [|assumption|assumption]. subst. reflexivity.
  - split; [reflexivity|]. intros _. exact E.
Qed.
Theorem C153_cel_text_tells_the_error :
  forall (plain : N -> bool) (nom nom' : bytes) (x y : cel_error) (m : bytes),
  (* names are UTF-8 strings *)
  shows_cel_text x -> shows_cel_text y ->
  cel_printed plain nom x m -> cel_printed plain nom' y m ->
  same_cel_error x y /\ (x = CelSyntaxException -> nom = nom').
Proof.
  intros plain a a' x y m S S' (x0 & -> & P) (y0 & E & P').
  assert (S0 : shows_cel_text x0).
  { destruct x; try (subst x0; exact S). destruct P as (z & A & ->). destruct S as (T & T2 & R). split; [exact T|split; [exact T2|]]. eapply arranges_cv_readable; eassumption. }
  assert (S0' : shows_cel_text y0).
  { destruct y; try (subst y0; exact S'). destruct P' as (z & A & ->). destruct S' as (T & T2 & R). split; [exact T|split; [exact T2|]]. eapply arranges_cv_readable; eassumption. }
  apply cel_message_inj in E; [|exact S0|exact S0']. destruct E as (-> & E1).
  destruct x, y; try (destruct P as (z & A & P)); try (destruct P' as (z' & A' & P')); try (rewrite P in P'; try discriminate P'); try (rewrite P in *);
    try (split; [left; congruence|]; intros X; first [discriminate X|auto]).
  split; [|discriminate]. right. injection P' as <- <- <-. do 5 eexists. split; [reflexivity|]. split; [reflexivity|]. split; eassumption.
Qed.
Print Assumptions C153_cel_text_tells_the_error.
(** The errors that are reported are of this kind. *)
Theorem C153_reported_errors_can_be_told :
  forall (umod cap_max : N) (i s : bytes) (e : cbor_error) (e' : cel_error),
  (tree_from_cbor_e umod cap_max i = RErr e \/ cert_from_cbor_e umod cap_max i = RErr e \/
   principals_from_cbor_e umod cap_max i = RErr e \/ strings_from_cbor_e umod cap_max i = RErr e -> shows_text e) /\
  ((exists cs, utf8_text cs s) -> cel_of_text_e s = RErr e' -> shows_cel_text e').
Proof.
  intros umod cap i s e e'. split.
  - destruct (C143_reported_error umod cap i e) as (A & B & C & D). rewrite A, B, C, D. clear.
    intros [[[-> _]|(v & P & F)]|[[[-> _]|(v & P & F)]|[[[-> _]|(v & P & F)]|[[-> _]|(v & P & F)]]]]; cbn; auto.
    + exact (tree_shows _ _ F).
    + exact (certificate_shows _ _ F).
    + exact (ranges_shows _ _ F).
    + exact (strings_shows _ _ (parsed_readable _ _ _ _ P) F).
  - intros T E. apply C141_reported_error in E; [|exact T]. destruct E as [[-> _]|(t & rest & v & _ & X & F)]; [exact I|].
    destruct grammar_readable as [G _]. exact (cel_shows _ _ (G _ _ X) F).
Qed.
Print Assumptions C153_reported_errors_can_be_told.
(** What is shown, and where. *)
Theorem C153_fields_are_shown :
  forall (plain : N -> bool) (nom utf8 slice msg name type found function object property : bytes) (v : cval) (w : cv) (i : N),
  let q := debug_str plain in let cbor := cbor_message plain nom utf8 slice in let cel := cel_message plain nom in
  cbor (UnexpectedCborNodeType type v) = concat [bs "Expected node with to have type "; q type; bs ", found "; q (debug_cval plain v)] /\
  cbor (MalformedCertificate msg) = concat [bs "Failed to parse certificate: """; msg; bs """"] /\
  cbor (MalformedHashTree msg) = concat [bs "Failed to parse hash tree: """; msg; bs """"] /\
  cel (MissingFunctionParameter function type name i) =
    concat [bs "Parameter at position "; dec i; bs " for function "; q function; bs " is missing, expected "; q name; bs " with type "; q type] /\
  cel (UnexpectedNodeType name type w) = concat [bs "Expected node with name "; q name; bs " to have type "; q type; bs ", found "; q (debug_cv plain w)] /\
  cel (UnexpectedNodeName type name found) = concat [bs "Expected node with type "; q type; bs " to have name "; q name; bs ", found "; q found] /\
  cel (MissingObjectProperty object property) = concat [bs "Expected object "; q object; bs " to have property "; q property].
Proof.
  intros *. cbn [concat]. rewrite !app_nil_r. repeat (split; [reflexivity|]). reflexivity.
Qed.
Print Assumptions C153_fields_are_shown.

(** ** Examples *)
(** A list with a number among strings, an expression that calls another function, and one with a map, whose text
    depends on the order the map is iterated in. *)
Definition ex_two (b : bool) : list (bytes * cv) := let x := (bs "a", CvString (bs "1")) in let y := (bs "b", CvArray []) in if b then [x; y] else [y; x].
Definition ex_found (b : bool) : cv := CvArray [CvObject (bs "o") (ex_two b)].
Theorem C153_example :
  let plain := fun n => (32 <=? n) && (n <? 127) in
  strings_from_cbor_e 18446744073709551616 1000 (unhex "82436162631820") = RErr (UnexpectedCborNodeType (bs "ByteString") (CUnsigned (U8 32))) /\
  cbor_message plain [] [] [] (UnexpectedCborNodeType (bs "ByteString") (CUnsigned (U8 32))) =
    bs "Expected node with to have type ""ByteString"", found ""Unsigned(UInt8(32))""" /\
  cel_of_text_e (bs "other()") = RErr (UnexpectedNodeName (bs "Function") (bs "default_certification") (bs "other")) /\
  cel_of_text_e (bs "[o { a: ""1"", b: [] }]") = RErr (UnexpectedNodeType (bs "default_certification") (bs "Function") (ex_found true)) /\
  arranges_cv (ex_found true) (ex_found false) /\
  cel_message plain [] (UnexpectedNodeType (bs "default_certification") (bs "Function") (ex_found false)) =
    bs "Expected node with name ""default_certification"" to have type ""Function"", found ""Array([Object(\""o\"", {\""b\"": Array([]), \""a\"": String(\""1\"")})])""".
Proof.
  split; [vm_compute; reflexivity|]. split; [vm_compute; reflexivity|]. split; [vm_compute; reflexivity|]. split; [vm_compute; reflexivity|]. split; [|vm_compute; reflexivity].
  exists [CvObject (bs "o") (ex_two false)]. split; [reflexivity|]. split; [|exact I]. exists (ex_two true), (ex_two false). split; [reflexivity|]. split; [apply perm_swap|].
  cbn. repeat split; try reflexivity. exists []. split; [reflexivity|exact I].
Qed.
Print Assumptions C153_example.
