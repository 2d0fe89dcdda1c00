(** C125: certification expressions are read in one pass. *)
From Coq Require Import List Arith NArith Lia Bool.
From Verif Require Import Bytes Text HttpTypes Cbor Cel CelProofs CelCost.
Import ListNotations.
Local Open Scope nat_scope.

Lemma drop_same {A} o c (p : bytes -> c_pres A) q s : (forall t, snd (p t) = q t) -> snd (c_drop o c p s) = drop_separators o c q s.
Proof. intro E. unfold c_drop, drop_separators. destruct (pchar o (skip_ws s)) as [s1|]; [|reflexivity]. cbn [snd]. rewrite E. reflexivity. Qed.
Lemma loop_same {A} (p : bytes -> c_pres A) q : (forall t, snd (p t) = q t) -> forall g s, snd (c_sep_loop p g s) = sep_loop q g s.
Proof.
  intro E. induction g as [|g IH]; intro s; [reflexivity|]. cbn [c_sep_loop sep_loop]. destruct (pchar "," (skip_ws s)) as [s1|]; [|reflexivity]. rewrite E. destruct (q s1); try reflexivity. cbv zeta. cbn [snd]. rewrite IH. reflexivity.
Qed.
Lemma list_same {A} (p : bytes -> c_pres A) q : (forall t, snd (p t) = q t) -> forall s, snd (c_sep_list p s) = sep_list q s.
Proof. intros E s. unfold c_sep_list, sep_list. rewrite E. destruct (q s); try reflexivity. cbv zeta. cbn [snd]. rewrite (loop_same p q E). reflexivity. Qed.
Lemma key_same p q : (forall t, snd (p t) = q t) -> forall s, snd (c_key_value p s) = key_value q s.
Proof. intros E s. unfold c_key_value, key_value. destruct (ident (skip_ws s)) as [k s1]. destruct (pchar ":" (skip_ws s1)) as [s2|]; [|reflexivity]. cbn [snd]. rewrite E. reflexivity. Qed.
Lemma alt_same {A} (x y : c_pres A) : snd (c_alt x y) = alt (snd x) (snd y).
Proof. unfold c_alt, alt. destruct x as [k r]. destruct r; reflexivity. Qed.
Lemma value_same f : forall s, snd (c_cel_value f s) = cel_value f s.
Proof.
  induction f as [|f IH]; intro s; [reflexivity|]. cbn [c_cel_value cel_value]. cbv zeta. cbn [snd]. rewrite !alt_same. destruct (ident (skip_ws s)) as [n s1]. unfold c_pmap. cbn [snd].
  rewrite !(drop_same _ _ _ _ _ (list_same _ _ IH)). rewrite (drop_same _ _ _ _ _ (list_same _ _ (key_same _ _ IH))).
  rewrite (drop_same x22 x22 _ (fun i => let (a, b) := parse_str i in POk a b)) by reflexivity. reflexivity.
Qed.

(** a value read costs at most its length; a value that is not there, one call *)
Definition cheap {A} (k : nat) (s : bytes) (x : c_pres A) : Prop :=
  match snd x with
  | POk _ r => fst x + length r <= length s
  | PErr => fst x <= k
  | _ => fst x <= length s + 1
  end.
Definition cheap_list {A} (s : bytes) (x : c_pres A) : Prop :=
  match snd x with
  | POk _ r => fst x + length r <= length s + 1
  | PErr => False
  | _ => fst x <= length s + 1
  end.
Lemma loop_cheap {A} (p : bytes -> c_pres A) : (forall s, cheap 1 s (p s)) -> forall g s, cheap_list s (c_sep_loop p g s).
Proof.
  intro P. induction g as [|g IH]; intro s; [unfold cheap_list; cbn; lia|]. cbn [c_sep_loop]. assert (W := skip_ws_le s).
  destruct (pchar "," (skip_ws s)) as [s1|] eqn:E; [|unfold cheap_list; cbn; lia]. apply pchar_lt in E. specialize (P s1). unfold cheap in P. destruct (snd (p s1)) as [v s2| | |]; unfold cheap_list; cbn [fst snd]; try lia.
  cbv zeta. cbn [fst snd]. specialize (IH s2). unfold cheap_list in IH. destruct (snd (c_sep_loop p g s2)); try lia.
Qed.
Lemma list_cheap {A} (p : bytes -> c_pres A) : (forall s, cheap 1 s (p s)) -> forall s, cheap_list s (c_sep_list p s).
Proof.
  intros P s. unfold c_sep_list. assert (Ps := P s). unfold cheap in Ps. destruct (snd (p s)) as [v s1| | |]; unfold cheap_list; cbn [fst snd]; try lia.
  cbv zeta. cbn [fst snd]. assert (L := loop_cheap p P (S (length s1)) s1). unfold cheap_list in L. destruct (snd (c_sep_loop p (S (length s1)) s1)); try lia.
Qed.
Lemma ident_le s k s1 : ident s = (k, s1) -> length s1 <= length s.
Proof. intro E. assert (L := take_chars_le ident_char s). unfold ident in E. rewrite E in L. exact L. Qed.
Lemma key_cheap p : (forall s, cheap 1 s (p s)) -> forall s, cheap 1 s (c_key_value p s).
Proof.
  intros P s. unfold c_key_value. destruct (ident (skip_ws s)) as [k s1] eqn:E. apply ident_le in E. assert (W := skip_ws_le s). destruct (pchar ":" (skip_ws s1)) as [s2|] eqn:C; [|unfold cheap; cbn; lia].
  apply pchar_lt in C. assert (W1 := skip_ws_le s1). specialize (P s2). unfold cheap in *. cbn [fst snd]. destruct (snd (p s2)); lia.
Qed.
(** an opening separator pays for the call, the closing one for the missing element *)
Lemma drop_cheap {A} o c (p : bytes -> c_pres A) : (forall s, cheap_list s (p s)) ->
  forall s, match snd (c_drop o c p s) with POk _ r => fst (c_drop o c p s) + length r + 1 <= length s | PErr => fst (c_drop o c p s) = 0 | _ => fst (c_drop o c p s) <= length s end.
Proof.
  intros P s. unfold c_drop. assert (W := skip_ws_le s). destruct (pchar o (skip_ws s)) as [s1|] eqn:E; [|reflexivity]. apply pchar_lt in E. specialize (P s1). unfold cheap_list in P. cbn [fst snd].
  destruct (snd (p s1)) as [v s2| | |]; cbn [cut]; try lia. assert (W2 := skip_ws_le s2). destruct (pchar c (skip_ws s2)) as [s3|] eqn:E2; cbn [cut]; [apply pchar_lt in E2|]; lia.
Qed.
Lemma value_cheap f : forall s, cheap 1 s (c_cel_value f s).
Proof.
  induction f as [|f IH]; intro s; [unfold cheap; cbn; lia|]. cbn [c_cel_value]. cbv zeta. assert (W := skip_ws_le s). destruct (ident (skip_ws s)) as [n s1] eqn:E. apply ident_le in E.
  assert (X1 := drop_cheap "{" "}" _ (list_cheap _ (key_cheap _ IH)) s1).
  assert (X2 := drop_cheap "(" ")" _ (list_cheap _ IH) s1).
  assert (X3 := drop_cheap "[" "]" _ (list_cheap _ IH) (skip_ws s)).
  assert (PS : forall t, cheap_list t ((0, let (a, b) := parse_str t in POk a b) : c_pres bytes)).
  { intro t. assert (L := take_chars_le str_char t). unfold cheap_list, parse_str. cbn [fst snd]. destruct (take_chars str_char t). cbn in *. lia. }
  assert (X4 := drop_cheap x22 x22 _ PS (skip_ws s)).
  unfold cheap, c_alt, c_pmap. cbn [fst snd].
  destruct (c_drop "{" "}" _ s1) as [k1 [v1 r1| | |]]; cbn [fst snd pmap] in *; try lia.
  destruct (c_drop "(" ")" _ s1) as [k2 [v2 r2| | |]]; cbn [fst snd pmap] in *; try lia.
  destruct (c_drop "[" "]" _ (skip_ws s)) as [k3 [v3 r3| | |]]; cbn [fst snd pmap] in *; try lia.
  destruct (c_drop x22 x22 _ (skip_ws s)) as [k4 [v4 r4| | |]]; cbn [fst snd pmap] in *; lia.
Qed.

(** Reading an expression, well-formed or not, calls the parser of values at most once for
    each byte of the text and once more; counting does not change the result. *)
Theorem C125_one_pass :
  forall (text : bytes),
  snd (c_parse_cel text) = parse_cel text /\ fst (c_parse_cel text) <= length text + 1.
Proof.
  intro s. unfold c_parse_cel, parse_cel. cbn [fst snd]. rewrite value_same. split; [reflexivity|].
  assert (C := value_cheap (S (length s)) s). unfold cheap in C. destruct (snd (c_cel_value (S (length s)) s)); lia.
Qed.
Print Assumptions C125_one_pass.
(** The bound is met: an expression of brackets that are not closed. *)
Lemma open_brackets n : forall f, n < f -> c_cel_value f (repeat "["%byte n) = (n + 1, match n with O => PErr | S _ => PFail end).
Proof.
  induction n as [|n IH]; intros f L; (destruct f as [|f]; [lia|]).
  - vm_compute. reflexivity.
  - cbn [c_cel_value repeat]. cbv zeta. change (skip_ws ("["%byte :: repeat "["%byte n)) with ("["%byte :: repeat "["%byte n). change (ident ("["%byte :: repeat "["%byte n)) with (@nil byte, "["%byte :: repeat "["%byte n). cbv iota.
    assert (D : c_drop "[" "]" (c_sep_list (c_cel_value f)) ("["%byte :: repeat "["%byte n) = (n + 1, PFail)).
    { unfold c_drop. change (skip_ws ("["%byte :: repeat "["%byte n)) with ("["%byte :: repeat "["%byte n). cbn [pchar]. change (byte_eqb "[" "[") with true. cbv iota. unfold c_sep_list. rewrite IH by lia. destruct n; reflexivity. }
    rewrite D. change (c_drop "{" "}" (c_sep_list (c_key_value (c_cel_value f))) ("["%byte :: repeat "["%byte n)) with (@pair nat (pres (list (bytes * cv))) 0 PErr). change (c_drop "(" ")" (c_sep_list (c_cel_value f)) ("["%byte :: repeat "["%byte n)) with (@pair nat (pres (list cv)) 0 PErr).
    unfold c_alt, c_pmap. cbn [fst snd pmap]. f_equal.
Qed.
Theorem C125_bound_is_met :
  forall n, let text := repeat "["%byte n in
  length text = n /\ fst (c_parse_cel text) = n + 1 /\ parse_cel text = None.
Proof.
  intros n text. unfold text, c_parse_cel, parse_cel. cbn [fst]. rewrite <- value_same. rewrite repeat_length, open_brackets by lia. cbn [fst snd]. split; [reflexivity|]. split; [reflexivity|]. destruct n; reflexivity.
Qed.
Print Assumptions C125_bound_is_met.
Example ex_cel_calls : c_parse_cel (bs "f ( A { b : [ ""x"" , ""y"" ] , c : [] } )") = (7, parse_cel (bs "f ( A { b : [ ""x"" , ""y"" ] , c : [] } )")) /\ fst (c_parse_cel (bs "f(A{b:[""x"",""y""],c:E{}})")) = 6.
Proof. vm_compute. split; reflexivity. Qed.
