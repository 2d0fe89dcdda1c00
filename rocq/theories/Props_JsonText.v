(** C140: the bodies of the json-api example are JSON texts that denote its data. *)
From Coq Require Import List Arith NArith Lia Bool DecimalFacts DecimalN.
From Verif Require Import HttpTypes Bytes Text AssetRouter HeaderSpec VerifySpec RangeSpec Props_Range Props_Verify JsonApi JsonSpec JsonGrammar JsonText.
Import ListNotations.
Local Open Scope N_scope.

(** ** JSON texts denote one value *)
Definition is_digit (b : byte) : Prop := 48 <= b2n b <= 57.
Definition stop (r : bytes) : Prop := match r with [] => True | b :: _ => ~ is_digit b end.
Lemma hex_fun b i j : hex_digit b i -> hex_digit b j -> i = j.
Proof.
  unfold hex_digit. intros E F. assert (N : N.to_nat i = N.to_nat j); [|lia].
  apply (proj1 (NoDup_nth_error hex_digits) hex_nodup); [|congruence]. apply nth_error_Some. congruence.
Qed.
Lemma character_head t b : character t b -> exists c l, t = c :: l /\ c <> """"%byte.
Proof. destruct 1; do 2 eexists; (split; [reflexivity|]); try assumption; discriminate. Qed.
Lemma character_free t b t' b' r r' : character t b -> character t' b' -> t ++ r = t' ++ r' -> b = b' /\ t = t' /\ r = r'.
Proof.
  intros C C' E. destruct C as [c C1 C2 C3|k c I|h l i j Hh Hl B]; destruct C' as [c' C1' C2' C3'|k' c' I'|h' l' i' j' Hh' Hl' B']; cbn [app] in E.
  - injection E as -> ->. auto.
  - exfalso. injection E as -> _. congruence.
  - exfalso. change (bs "\u00") with ["\"%byte; "u"%byte; "0"%byte; "0"%byte] in E. cbn [app] in E. injection E as -> _. congruence.
  - exfalso. injection E as <- _. congruence.
  - injection E as -> ->. split; [|auto]. cbn [In] in I, I'. repeat match goal with X : _ \/ _ |- _ => destruct X end; try contradiction; congruence.
  - exfalso. change (bs "\u00") with ["\"%byte; "u"%byte; "0"%byte; "0"%byte] in E. cbn [app] in E. injection E as -> _. cbn [In] in I. repeat (destruct I as [I|I]; [discriminate I|]). destruct I.
  - exfalso. change (bs "\u00") with ["\"%byte; "u"%byte; "0"%byte; "0"%byte] in E. cbn [app] in E. injection E as <- _. congruence.
  - exfalso. change (bs "\u00") with ["\"%byte; "u"%byte; "0"%byte; "0"%byte] in E. cbn [app] in E. injection E as <- _. cbn [In] in I'. repeat (destruct I' as [I'|I']; [discriminate I'|]). destruct I'.
  - rewrite <- !app_assoc in E. apply app_inv_head in E. cbn [app] in E. injection E as -> -> ->. rewrite (hex_fun _ _ _ Hh Hh'), (hex_fun _ _ _ Hl Hl'). auto.
Qed.
Lemma characters_free t s : characters t s -> forall t' s' r r', characters t' s' -> t ++ bs """" ++ r = t' ++ bs """" ++ r' -> s = s' /\ t = t' /\ r = r'.
Proof.
  induction 1 as [|t b u s C _ IH]; intros t' s' r r' C' E; destruct C' as [|t' b' u' s' C' R'].
  - injection E as ->. auto.
  - exfalso. destruct (character_head _ _ C') as (c & l & -> & N). cbn [app] in E. injection E as E _. congruence.
  - exfalso. destruct (character_head _ _ C) as (c & l & -> & N). cbn [app] in E. injection E as E _. congruence.
  - rewrite <- !app_assoc in E. destruct (character_free _ _ _ _ _ _ C C' E) as (-> & -> & E'). destruct (IH _ _ _ _ R' E') as (-> & -> & ->). auto.
Qed.
Lemma str_free t s t' s' r r' : json_str t s -> json_str t' s' -> t ++ r = t' ++ r' -> s = s' /\ t = t' /\ r = r'.
Proof.
  intros (u & -> & C) (u' & -> & C') E. rewrite <- !app_assoc in E. apply app_inv_head in E. destruct (characters_free _ _ C _ _ _ _ C' E) as (-> & -> & ->). auto.
Qed.
Lemma num_free t n t' n' r r' : json_num t n -> json_num t' n' -> stop r -> stop r' -> t ++ r = t' ++ r' -> n = n' /\ t = t' /\ r = r'.
Proof.
  intros [D _] [D' _] S S' E.
  assert (X : forall u v, Forall is_digit u -> Forall is_digit v -> u ++ r = v ++ r' -> u = v /\ r = r').
  { induction u as [|c u IH]; intros [|c' v] Fu Fv Z; cbn [app] in Z; [auto| | |].
    - exfalso. subst r. exact (S (Forall_inv Fv)).
    - exfalso. subst r'. exact (S' (Forall_inv Fu)).
    - injection Z as -> Z. destruct (IH v (Forall_inv_tail Fu) (Forall_inv_tail Fv) Z) as [-> ->]. auto. }
  destruct (X t t' (proj1 (proj2 D)) (proj1 (proj2 D')) E) as [-> ->]. split; [exact (decimal_fun _ _ _ D D')|auto].
Qed.
Definition first_byte (v : value) (b : byte) : Prop :=
  match v with
  | VNull => b = "n"%byte | VBool true => b = "t"%byte | VBool false => b = "f"%byte | VNumber _ => is_digit b
  | VString _ => b = """"%byte | VArray _ => b = "["%byte | VObject _ => b = "{"%byte
  end.
Lemma denotes_head t v : denotes t v -> exists b l, t = b :: l /\ first_byte v b.
Proof.
  intros [| | |u n N|u s (r & -> & _)|u l _|u l _]; try (do 2 eexists; split; reflexivity).
  destruct N as [(NE & F & _) _]. destruct u as [|b u]; [congruence|]. exists b, u. split; [reflexivity|exact (Forall_inv F)].
Qed.
Lemma same_head t v t' v' r r' : denotes t v -> denotes t' v' -> t ++ r = t' ++ r' -> exists b, first_byte v b /\ first_byte v' b.
Proof.
  intros D D' E. destruct (denotes_head _ _ D) as (b & l & -> & F), (denotes_head _ _ D') as (b' & l' & -> & F'). cbn [app] in E. injection E as -> _. exists b'. auto.
Qed.
Scheme denotes_m := Minimality for denotes Sort Prop with elements_m := Minimality for elements Sort Prop with more_elements_m := Minimality for more_elements Sort Prop
  with members_m := Minimality for members Sort Prop with more_members_m := Minimality for more_members Sort Prop.
Combined Scheme json_ind from denotes_m, elements_m, more_elements_m, members_m, more_members_m.
Lemma head_stop c r : b2n c < 48 \/ 57 < b2n c -> stop (c :: r).
Proof. intros B D. unfold is_digit in D. lia. Qed.
Lemma more_e_stop t l r : more_elements t l -> stop (t ++ r).
Proof. destruct 1; apply head_stop; vm_compute; first [left; reflexivity|right; reflexivity]. Qed.
Lemma more_m_stop t l r : more_members t l -> stop (t ++ r).
Proof. destruct 1; apply head_stop; vm_compute; first [left; reflexivity|right; reflexivity]. Qed.
Ltac kinds D D' E :=
  let b := fresh "b" in let F := fresh "F" in let F' := fresh "F" in
  destruct (same_head _ _ _ _ _ _ D D' E) as (b & F & F').
Lemma json_free :
  (forall t v, denotes t v -> forall t' v' r r', denotes t' v' -> stop r -> stop r' -> t ++ r = t' ++ r' -> v = v' /\ t = t' /\ r = r') /\
  (forall t l, elements t l -> forall t' l' r r', elements t' l' -> t ++ r = t' ++ r' -> l = l' /\ t = t' /\ r = r') /\
  (forall t l, more_elements t l -> forall t' l' r r', more_elements t' l' -> t ++ r = t' ++ r' -> l = l' /\ t = t' /\ r = r') /\
  (forall t l, members t l -> forall t' l' r r', members t' l' -> t ++ r = t' ++ r' -> l = l' /\ t = t' /\ r = r') /\
  (forall t l, more_members t l -> forall t' l' r r', more_members t' l' -> t ++ r = t' ++ r' -> l = l' /\ t = t' /\ r = r').
Proof.
  assert (K : forall t v t' v' r r', denotes t v -> denotes t' v' -> t ++ r = t' ++ r' ->
    match v, v' with VNull, VNull | VNumber _, VNumber _ | VString _, VString _ | VArray _, VArray _ | VObject _, VObject _ => True | VBool b, VBool b' => b = b' | _, _ => False end).
  { intros t v t' v' r r' D D' E. destruct (same_head _ _ _ _ _ _ D D' E) as (b & F & F').
    destruct v as [|[]|n|s|l|l], v' as [|[]|n'|s'|l'|l']; cbn [first_byte] in F, F'; try exact I; try reflexivity; subst; try discriminate;
      unfold is_digit in *; repeat match goal with X : 48 <= b2n ?c <= 57 |- _ => vm_compute in X; destruct X as [X1 X2]; first [exfalso; apply X1; reflexivity|exfalso; apply X2; reflexivity] end. }
  apply json_ind.
  - intros t' v' r r' D' S S' E. assert (Q := K _ _ _ _ _ _ DNull D' E). destruct v'; try contradiction. inversion D'; subst. apply app_inv_head in E. auto.
  - intros t' v' r r' D' S S' E. assert (Q := K _ _ _ _ _ _ DTrue D' E). destruct v' as [|[]| | | |]; try contradiction; try discriminate Q. inversion D'; subst. apply app_inv_head in E. auto.
  - intros t' v' r r' D' S S' E. assert (Q := K _ _ _ _ _ _ DFalse D' E). destruct v' as [|[]| | | |]; try contradiction; try discriminate Q. inversion D'; subst. apply app_inv_head in E. auto.
  - intros t n N t' v' r r' D' S S' E. assert (Q := K _ _ _ _ _ _ (DNumber t n N) D' E). destruct v'; try contradiction. inversion D'; subst.
    destruct (num_free _ _ _ _ _ _ N H1 S S' E) as (-> & -> & ->). auto.
  - intros t s N t' v' r r' D' S S' E. assert (Q := K _ _ _ _ _ _ (DString t s N) D' E). destruct v'; try contradiction. inversion D'; subst.
    destruct (str_free _ _ _ _ _ _ N H1 E) as (-> & -> & ->). auto.
  - intros t l N IH t' v' r r' D' S S' E. assert (Q := K _ _ _ _ _ _ (DArray t l N) D' E). destruct v'; try contradiction. inversion D'; subst.
    rewrite <- !app_assoc in E. apply app_inv_head in E. destruct (IH _ _ _ _ H1 E) as (-> & -> & ->). auto.
  - intros t l N IH t' v' r r' D' S S' E. assert (Q := K _ _ _ _ _ _ (DObject t l N) D' E). destruct v'; try contradiction. inversion D'; subst.
    rewrite <- !app_assoc in E. apply app_inv_head in E. destruct (IH _ _ _ _ H1 E) as (-> & -> & ->). auto.
  - intros t' l' r r' D' E. inversion D'; subst; [apply app_inv_head in E; auto|].
    exfalso. destruct (denotes_head _ _ H) as (b & u & -> & F). cbn [app] in E. injection E as <- _. destruct v as [|[]|?|?|?|?]; cbn [first_byte] in F; try discriminate F. destruct F as [F1 F2]. vm_compute in F2. apply F2. reflexivity.
  - intros t v u l D IHd M IHm t' l' r r' D' E. inversion D'; subst.
    + exfalso. destruct (denotes_head _ _ D) as (b & w & -> & F). cbn [app] in E. injection E as -> _. destruct v as [|[]|?|?|?|?]; cbn [first_byte] in F; try discriminate F. destruct F as [F1 F2]. vm_compute in F2. apply F2. reflexivity.
    + rewrite <- !app_assoc in E. destruct (IHd _ _ _ _ H (more_e_stop _ _ _ M) (more_e_stop _ _ _ H0) E) as (-> & -> & E'). destruct (IHm _ _ _ _ H0 E') as (-> & -> & ->). auto.
  - intros t' l' r r' D' E. inversion D'; subst; [apply app_inv_head in E; auto|discriminate E].
  - intros t v u l D IHd M IHm t' l' r r' D' E. inversion D'; subst; [discriminate E|]. rewrite <- !app_assoc in E. apply app_inv_head in E.
    destruct (IHd _ _ _ _ H (more_e_stop _ _ _ M) (more_e_stop _ _ _ H0) E) as (-> & -> & E'). destruct (IHm _ _ _ _ H0 E') as (-> & -> & ->). auto.
  - intros t' l' r r' D' E. inversion D'; subst; [apply app_inv_head in E; auto|]. exfalso. destruct H as (q & -> & _). discriminate E.
  - intros k n t v u l Sk D IHd M IHm t' l' r r' D' E. inversion D'; subst; [exfalso; destruct Sk as (q & -> & _); discriminate E|]. rewrite <- !app_assoc in E.
    destruct (str_free _ _ _ _ _ _ Sk H E) as (-> & -> & E1). apply app_inv_head in E1.
    destruct (IHd _ _ _ _ H0 (more_m_stop _ _ _ M) (more_m_stop _ _ _ H1) E1) as (-> & -> & E'). destruct (IHm _ _ _ _ H1 E') as (-> & -> & ->). auto.
  - intros t' l' r r' D' E. inversion D'; subst; [apply app_inv_head in E; auto|discriminate E].
  - intros k n t v u l Sk D IHd M IHm t' l' r r' D' E. inversion D'; subst; [discriminate E|]. rewrite <- !app_assoc in E. apply app_inv_head in E.
    destruct (str_free _ _ _ _ _ _ Sk H E) as (-> & -> & E1). apply app_inv_head in E1.
    destruct (IHd _ _ _ _ H0 (more_m_stop _ _ _ M) (more_m_stop _ _ _ H1) E1) as (-> & -> & E'). destruct (IHm _ _ _ _ H1 E') as (-> & -> & ->). auto.
Qed.
(** The specification gives each text at most one value. *)
Theorem C140_json_is_unambiguous : forall (t : bytes) (v v' : value), denotes t v -> denotes t v' -> v = v'.
Proof. intros t v v' D D'. destruct (proj1 json_free t v D t v' [] [] D' I I eq_refl) as (E & _). exact E. Qed.
Print Assumptions C140_json_is_unambiguous.

(** ** The bodies *)
Lemma dec_num n : json_num (dec n) n.
Proof.
  split; [apply dec_decimal|]. unfold dec. assert (U : Decimal.unorm (N.to_uint n) = N.to_uint n) by (rewrite <- DecimalN.Unsigned.to_of, DecimalN.Unsigned.of_to; reflexivity).
  unfold Decimal.unorm in U. destruct (Decimal.nzhead (N.to_uint n)) eqn:Z; rewrite <- U; [left; reflexivity|exfalso; exact (nzhead_nonzero _ _ Z)|..];
    right; do 2 eexists; (split; [reflexivity|]); discriminate.
Qed.
Lemma escape_character b : character (json_escape b) b.
Proof.
  assert (H16 : forall n, n < 16 -> hex_digit (hex_char n) n).
  { intros n L. assert (X : forallb (fun k => match nth_error hex_digits k with Some c => byte_eqb c (lower_byte (hex_char (N.of_nat k))) | None => false end) (List.seq 0 16) = true) by (vm_compute; reflexivity).
    rewrite forallb_forall in X. specialize (X (N.to_nat n)). unfold hex_digit. rewrite N2Nat.id in X. destruct (nth_error hex_digits (N.to_nat n)) as [c|]; [|exfalso; assert (false = true) by (apply X; apply in_seq; lia); discriminate].
    f_equal. apply byte_eqb_eq. apply X. apply in_seq. lia. }
  assert (G : b2n b < 32 -> character (bs "\u00" ++ [hex_char (b2n b / 16); hex_char (b2n b mod 16)]) b).
  { intro L. assert (D : b2n b = b2n b / 16 * 16 + b2n b mod 16) by (rewrite N.mul_comm; apply N.div_mod; discriminate).
    assert (B1 : b2n b / 16 < 2) by (apply N.div_lt_upper_bound; lia). assert (B2 : b2n b mod 16 < 16) by (apply N.mod_lt; discriminate).
    assert (C := Numbered _ _ _ _ (H16 (b2n b / 16) ltac:(lia)) (H16 (b2n b mod 16) B2) ltac:(lia)). rewrite <- D, n2b_b2n in C. exact C. }
  destruct (N.lt_ge_cases (b2n b) 32) as [L|L].
  - specialize (G L). unfold json_escape. destruct b; try exact G; try (exfalso; vm_compute in L; discriminate L); apply Escaped; cbn; tauto.
  - assert (E : json_escape b = [b] \/ b = x22 \/ b = x5c).
    { clear G. destruct b; try (right; left; reflexivity); try (right; right; reflexivity); try (exfalso; vm_compute in L; apply L; reflexivity); left; reflexivity. }
    destruct (byte_eqb_spec b x22) as [->|N1]; [apply Escaped; cbn; tauto|]. destruct (byte_eqb_spec b x5c) as [->|N2]; [apply Escaped; cbn; tauto|].
    destruct E as [->|[E|E]]; [|congruence|congruence]. apply Unescaped; assumption.
Qed.
Lemma string_denotes s : json_str (json_string s) s.
Proof.
  unfold json_string. exists (flat_map json_escape s). split; [reflexivity|]. induction s as [|b s IH]; [constructor|]. cbn [flat_map]. constructor; [apply escape_character|exact IH].
Qed.
Lemma quoted_denotes s : forallb (fun b => (32 <=? b2n b) && negb (byte_eqb b """") && negb (byte_eqb b "\")) s = true -> json_str (quoted s) s.
Proof.
  intro F. unfold quoted. exists s. split; [reflexivity|]. induction s as [|b s IH]; [constructor|]. cbn [forallb] in F. apply andb_true_iff in F. destruct F as [F1 F2].
  apply andb_true_iff in F1. destruct F1 as [F1 F3]. apply andb_true_iff in F1. destruct F1 as [F1 F4]. change (b :: s) with ([b] ++ s) at 1. constructor; [|exact (IH F2)].
  apply Unescaped; [apply N.leb_le, F1| |]; intros ->; discriminate.
Qed.

(** what a list of items, and an item, is in JSON *)
Definition item_value (t : todo) : value :=
  VObject [(bs "id", VNumber (td_id t)); (bs "title", VString (td_title t)); (bs "completed", VBool (td_completed t))].
Definition ok_value (v : value) : value := VObject [(bs "ok", VObject [(bs "data", v)])].
Definition err_value (code : N) (message : bytes) : value := VObject [(bs "err", VObject [(bs "code", VNumber code); (bs "message", VString message)])].
Lemma todo_denotes t : denotes (json_todo t) (item_value t).
Proof.
  unfold json_todo, item_value. apply DObject. apply MSome; [apply quoted_denotes; reflexivity|apply DNumber, dec_num|]. apply MMore; [apply quoted_denotes; reflexivity|apply DString, string_denotes|].
  apply MMore; [apply quoted_denotes; reflexivity|destruct (td_completed t); constructor|constructor].
Qed.
Lemma ok_denotes t v : denotes t v -> denotes (json_ok t) (ok_value v).
Proof.
  intro D. unfold json_ok, ok_value. apply DObject. change (bs ":{") with (bs ":" ++ bs "{"). rewrite <- app_assoc.
  replace (bs "{" ++ quoted (bs "data") ++ bs ":" ++ t ++ bs "}}") with ((bs "{" ++ quoted (bs "data") ++ bs ":" ++ t ++ bs "}") ++ bs "}") by (rewrite <- !app_assoc; reflexivity).
  apply MSome; [apply quoted_denotes; reflexivity| |constructor]. apply DObject. apply MSome; [apply quoted_denotes; reflexivity|exact D|constructor].
Qed.
Lemma err_denotes c m : denotes (json_err c m) (err_value c m).
Proof.
  unfold json_err, err_value. apply DObject. change (bs ":{") with (bs ":" ++ bs "{"). rewrite <- app_assoc.
  replace (bs "{" ++ quoted (bs "code") ++ bs ":" ++ dec c ++ bs "," ++ quoted (bs "message") ++ bs ":" ++ json_string m ++ bs "}}")
    with ((bs "{" ++ quoted (bs "code") ++ bs ":" ++ dec c ++ bs "," ++ quoted (bs "message") ++ bs ":" ++ json_string m ++ bs "}") ++ bs "}") by (rewrite <- !app_assoc; reflexivity).
  apply MSome; [apply quoted_denotes; reflexivity| |constructor]. apply DObject. apply MSome; [apply quoted_denotes; reflexivity|apply DNumber, dec_num|].
  apply MMore; [apply quoted_denotes; reflexivity|apply DString, string_denotes|constructor].
Qed.
Lemma list_denotes l : denotes (json_list l) (VArray (map item_value l)).
Proof.
  unfold json_list. apply DArray. assert (J := join_todos l). destruct l as [|t r]; [rewrite J; constructor|]. rewrite J, <- app_assoc. cbn [map]. constructor; [apply todo_denotes|]. clear J.
  induction r as [|u r IH]; cbn [flat_map map]; [constructor|]. rewrite <- !app_assoc. constructor; [apply todo_denotes|exact IH].
Qed.

(** The body of each response of C87-C91 denotes the value one expects, and no other. *)
Theorem C140_bodies_are_json :
  forall (l : list todo) (s : todos) (title : bytes) (id : N) (t : option bytes) (c : option bool) (v : value),
  (denotes (rs_body (listing l)) v <-> v = ok_value (VArray (map item_value l))) /\
  (denotes (rs_body (reply (Create title) s)) v <-> v = ok_value (item_value (mk_todo (next_id s) title false))) /\
  (denotes (rs_body (reply (Change id t c) s)) v <-> v = ok_value VNull) /\
  (denotes (rs_body (reply (Remove id) s)) v <-> v = ok_value VNull) /\
  (denotes (rs_body refusal) v <-> v = err_value 405 (bs "Method not allowed")) /\
  (denotes (rs_body missing) v <-> v = err_value 404 (bs "Not found")).
Proof.
  intros l s title id t c v.
  assert (X : forall b w, denotes b w -> (denotes b v <-> v = w)).
  { intros b w D. split; [intro D'; exact (C140_json_is_unambiguous b v w D' D)|intros ->; exact D]. }
  repeat split; try (apply X); try (intros ->); cbn [rs_body listing with_expression answer reply refusal missing];
    first [apply ok_denotes, list_denotes|apply ok_denotes, todo_denotes|apply ok_denotes; constructor|apply err_denotes].
Qed.
Print Assumptions C140_bodies_are_json.
(** a list with a title with a quote and a line break *)
Example C140_text :
  rs_body (listing [mk_todo 0 (bs "say ""hi""") false; mk_todo 12 [x0a; x01] true]) =
    bs "{""ok"":{""data"":[{""id"":0,""title"":""say \""hi\"""",""completed"":false},{""id"":12,""title"":""\n\u0001"",""completed"":true}]}}".
Proof. vm_compute. reflexivity. Qed.
