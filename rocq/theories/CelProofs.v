(** Proofs about the CEL parser. *)
From Coq Require Import List Arith NArith Lia Bool.
From Verif Require Import Bytes Text Utf8 HttpTypes Cbor Cel CelSpec.
Import ListNotations.

(** ** Fuel *)
Lemma take_chars_split p : forall s, s = fst (take_chars p s) ++ snd (take_chars p s).
Proof.
  assert (X : forall n s, length s <= n -> s = fst (take_chars p s) ++ snd (take_chars p s)); [|intro s; eapply X; constructor].
  induction n as [|n IH]; intros s L; [destruct s; [reflexivity|simpl in L; lia]|].
  destruct s as [|a s]; [reflexivity|]. cbn [take_chars].
  destruct (b2n a <? 128)%N.
  - destruct (p (b2n a)); [|reflexivity]. specialize (IH s ltac:(simpl in L; lia)). destruct (take_chars p s). simpl in *. congruence.
  - destruct s as [|b s]; [reflexivity|]. destruct (ok2 a b).
    + destruct (p (cp2 a b)); [|reflexivity]. specialize (IH s ltac:(simpl in L; lia)). destruct (take_chars p s). simpl in *. congruence.
    + destruct s as [|c s]; [reflexivity|]. destruct (ok3 a b c).
      * destruct (p (cp3 a b c)); [|reflexivity]. specialize (IH s ltac:(simpl in L; lia)). destruct (take_chars p s). simpl in *. congruence.
      * destruct s as [|d s]; [reflexivity|].
        destruct (p (cp4 a b c d)); [|reflexivity]. specialize (IH s ltac:(simpl in L; lia)). destruct (take_chars p s). simpl in *. congruence.
Qed.
Lemma take_chars_le p s : length (snd (take_chars p s)) <= length s.
Proof. rewrite (take_chars_split p s) at 2. rewrite app_length. lia. Qed.
Lemma skip_ws_le s : length (skip_ws s) <= length s.
Proof. induction s as [|b s IH]; simpl; [lia|]. destruct (is_ws b); simpl; lia. Qed.
Lemma pchar_lt c s r : pchar c s = Some r -> length r < length s.
Proof. destruct s as [|b s]; simpl; [discriminate|]. destruct (byte_eqb b c); [|discriminate]. intro E; injection E as <-. simpl. lia. Qed.

(** [p] neither runs out of fuel nor lengthens its input on inputs shorter than [n]. *)
Definition good_parser {A} (p : bytes -> pres A) (n : nat) : Prop :=
  forall s, length s < n -> match p s with PFuel => False | POk _ r => length r <= length s | _ => True end.
Lemma drop_good {A} o c (p : bytes -> pres A) n : good_parser p n ->
  forall s, length s <= n -> match drop_separators o c p s with PFuel => False | POk _ r => length r < length s | _ => True end.
Proof.
  intros G s L. unfold drop_separators. destruct (pchar o (skip_ws s)) as [s1|] eqn:E; [|exact I].
  apply pchar_lt in E. assert (W := skip_ws_le s). specialize (G s1 ltac:(lia)).
  destruct (p s1) as [v s2| | |]; simpl in *; auto.
  destruct (pchar c (skip_ws s2)) as [s3|] eqn:E2; simpl; auto.
  apply pchar_lt in E2. assert (W2 := skip_ws_le s2). lia.
Qed.
Lemma sep_loop_good {A} (p : bytes -> pres A) n : good_parser p n ->
  forall g s, length s < g -> length s <= n -> match sep_loop p g s with PFuel => False | POk _ r => length r <= length s | _ => True end.
Proof.
  intro G. induction g as [|g IH]; intros s L1 L2; [lia|]. cbn [sep_loop].
  destruct (pchar "," (skip_ws s)) as [s1|] eqn:E; [|simpl; lia].
  apply pchar_lt in E. assert (W := skip_ws_le s). specialize (G s1 ltac:(lia)).
  destruct (p s1) as [v s2| | |]; simpl; auto.
  specialize (IH s2 ltac:(lia) ltac:(lia)). destruct (sep_loop p g s2); auto. lia.
Qed.
Lemma sep_list_good {A} (p : bytes -> pres A) n : good_parser p n -> good_parser (sep_list p) n.
Proof.
  intros G s L. unfold sep_list. assert (X := G s L). destruct (p s) as [v s1| | |]; auto.
  assert (Y := sep_loop_good p n G (S (length s1)) s1 ltac:(lia) ltac:(lia)).
  destruct (sep_loop p (S (length s1)) s1); auto. lia.
Qed.
Lemma key_value_good p n : good_parser p n -> good_parser (key_value p) n.
Proof.
  intros G s L. unfold key_value. destruct (ident (skip_ws s)) as [k s1] eqn:E.
  assert (length s1 <= length s).
  { replace s1 with (snd (ident (skip_ws s))) by (rewrite E; reflexivity).
    eapply Nat.le_trans; [apply take_chars_le|apply skip_ws_le]. }
  destruct (pchar ":" (skip_ws s1)) as [s2|] eqn:E2; [|exact I].
  apply pchar_lt in E2. assert (W := skip_ws_le s1). specialize (G s2 ltac:(lia)).
  destruct (p s2); auto. lia.
Qed.
Lemma cel_value_good f : good_parser (cel_value f) f.
Proof.
  induction f as [|f IH]; intros s L; [lia|]. cbn [cel_value].
  assert (W := skip_ws_le s).
  destruct (ident (skip_ws s)) as [n s1] eqn:E.
  assert (length s1 <= length s).
  { replace s1 with (snd (ident (skip_ws s))) by (rewrite E; reflexivity).
    eapply Nat.le_trans; [apply take_chars_le|apply skip_ws_le]. }
  assert (X1 := drop_good "{" "}" _ f (sep_list_good _ _ (key_value_good _ _ IH)) s1 ltac:(lia)).
  assert (X2 := drop_good "(" ")" _ f (sep_list_good _ _ IH) s1 ltac:(lia)).
  assert (X3 := drop_good "[" "]" _ f (sep_list_good _ _ IH) (skip_ws s) ltac:(lia)).
  assert (GP : good_parser (fun i => let (a, b) := parse_str i in POk a b) f).
  { intros t _. assert (Q := take_chars_le str_char t). unfold parse_str. destruct (take_chars str_char t). exact Q. }
  assert (X4 := drop_good x22 x22 _ f GP (skip_ws s) ltac:(lia)).
  destruct (drop_separators "{" "}" _ s1); simpl; [lia| |exact I|exact X1].
  destruct (drop_separators "(" ")" _ s1); simpl; [lia| |exact I|exact X2].
  destruct (drop_separators "[" "]" _ (skip_ws s)); simpl; [lia| |exact I|exact X3].
  destruct (drop_separators x22 x22 _ (skip_ws s)); simpl; [lia|exact I|exact I|exact X4].
Qed.
(** The parser terminates: the fuel given by [parse_cel] suffices. *)
Lemma cel_value_fuel s : cel_value (S (length s)) s <> PFuel.
Proof. intro E. assert (X := cel_value_good (S (length s)) s ltac:(lia)). rewrite E in X. exact X. Qed.

(** ** Spaced tokens *)
Lemma is_ws_spec b : is_ws b = true <-> In b [x20; x09; x0d; x0a].
Proof.
  split.
  - destruct b; try discriminate; intros _; simpl; auto 6.
  - intros [<-|[<-|[<-|[<-|[]]]]]; reflexivity.
Qed.
Lemma skip_ws_app w s : ws w -> (match s with b :: _ => is_ws b = false | [] => True end) -> skip_ws (w ++ s) = s.
Proof.
  intro W. induction W as [|b w B W IH]; intro N; simpl.
  - destruct s as [|b s]; [reflexivity|]. simpl. rewrite N. reflexivity.
  - apply is_ws_spec in B. rewrite B. auto.
Qed.
Lemma skip_spaced b t ts s : is_ws b = false -> spaced ((b :: t) :: ts) s ->
  exists s1, skip_ws s = (b :: t) ++ s1 /\ spaced ts s1 /\ length s1 < length s.
Proof.
  intros N X. inversion X as [|w t' ts' s1 W S1]; subst. exists s1. split; [|split; [exact S1|rewrite !app_length; simpl; lia]].
  apply (skip_ws_app w ((b :: t) ++ s1)); [exact W|exact N].
Qed.
(** ASCII byte rejected by [p] *)
Definition stops (p : N -> bool) (s : bytes) : Prop :=
  match s with [] => True | b :: _ => (b2n b < 128)%N /\ p (b2n b) = false end.
Lemma take_chars_exact p n s : Forall (fun b => (b2n b < 128)%N /\ p (b2n b) = true) n -> stops p s -> take_chars p (n ++ s) = (n, s).
Proof.
  intros F S. induction F as [|b n [A B] F IH]; cbn [app].
  - destruct s as [|b s]; [reflexivity|]. destruct S as [A B]. cbn [take_chars].
    apply N.ltb_lt in A. rewrite A, B. reflexivity.
  - cbn [take_chars]. apply N.ltb_lt in A. rewrite A, B, IH. reflexivity.
Qed.
Lemma ws_stops p b ts s : (forall x, is_ws x = true -> p (b2n x) = false) -> (b2n b < 128)%N -> p (b2n b) = false ->
  spaced ([b] :: ts) s -> stops p s.
Proof.
  intros Q L P X. inversion X as [|w t' ts' s1 W S1]; subst. destruct W as [|x w I W]; simpl; [auto|].
  split; [|apply Q, is_ws_spec, I]. destruct I as [<-|[<-|[<-|[<-|[]]]]]; reflexivity.
Qed.
Lemma ident_ws x : is_ws x = true -> ident_char (b2n x) = false.
Proof. destruct x; try discriminate; reflexivity. Qed.

(** ** Concrete syntax *)
Inductive syn :=
| SStr (s : bytes)
| SArr (l : list syn)
| SObj (n : bytes) (l : list (bytes * syn))
| SFun (n : bytes) (l : list syn).
Fixpoint sep_toks (l : list (list bytes)) : list bytes :=
  match l with [] => [] | [a] => a | a :: r => a ++ bs "," :: sep_toks r end.
Fixpoint toks (x : syn) : list bytes :=
  match x with
  | SStr s => [quote ++ s ++ quote]
  | SArr l => bs "[" :: sep_toks (map toks l) ++ [bs "]"]
  | SObj n l => n :: bs "{" :: sep_toks (map (fun kv => fst kv :: bs ":" :: toks (snd kv)) l) ++ [bs "}"]
  | SFun n l => n :: bs "(" :: sep_toks (map toks l) ++ [bs ")"]
  end.
Fixpoint value (x : syn) : cv :=
  match x with
  | SStr s => CvString s
  | SArr l => CvArray (map value l)
  | SObj n l => CvObject n (collect (map (fun kv => (fst kv, value (snd kv))) l))
  | SFun n l => CvFunction n (map value l)
  end.
Definition ident_ok (n : bytes) : bool := negb (Nat.eqb (length n) 0) && forallb (fun b => (b2n b <? 128)%N && ident_char (b2n b)) n.
(** no quote, white space or non-ASCII byte *)
Definition lit_ok (s : bytes) : bool := forallb (fun b => (b2n b <? 128)%N && negb (byte_eqb b x22) && negb (is_ws b)) s.
Definition lit_good (s : bytes) : bool := forallb (fun b => str_char (b2n b)) s.
Fixpoint wfx (x : syn) : bool :=
  match x with
  | SStr s => lit_ok s
  | SArr l => forallb wfx l
  | SObj n l => ident_ok n && forallb (fun kv => ident_ok (fst kv) && wfx (snd kv)) l
  | SFun n l => ident_ok n && forallb wfx l
  end.
Fixpoint good (x : syn) : bool :=
  match x with
  | SStr s => lit_good s
  | SArr l => forallb good l
  | SObj n l => forallb (fun kv => good (snd kv)) l
  | SFun n l => forallb good l
  end.

Lemma ident_spaced n c ts s : ident_ok n = true -> (b2n c < 128)%N -> ident_char (b2n c) = false -> spaced (n :: [c] :: ts) s ->
  exists s1, ident (skip_ws s) = (n, s1) /\ spaced ([c] :: ts) s1 /\ length s1 < length s.
Proof.
  intros O L C X. unfold ident_ok in O. apply andb_prop in O. destruct O as [O1 O2].
  destruct n as [|b n]; [discriminate|].
  assert (F : Forall (fun b => (b2n b < 128)%N /\ ident_char (b2n b) = true) (b :: n)).
  { apply Forall_forall. intros y Y. rewrite forallb_forall in O2. specialize (O2 _ Y). apply andb_prop in O2. destruct O2 as [Z1 Z2].
    apply N.ltb_lt in Z1. auto. }
  assert (NB : is_ws b = false). { inversion F as [|? ? [_ Y] _]; subst. destruct (is_ws b) eqn:W; [|reflexivity]. rewrite (ident_ws b W) in Y. discriminate. }
  destruct (skip_spaced b n _ s NB X) as (s1 & E & S1 & L1). exists s1. split; [|auto].
  rewrite E. apply take_chars_exact; [exact F|]. eapply ws_stops; [apply ident_ws|exact L|exact C|exact S1].
Qed.
Lemma pchar_spaced c ts s : is_ws c = false -> spaced ([c] :: ts) s ->
  exists s1, pchar c (skip_ws s) = Some s1 /\ spaced ts s1 /\ length s1 < length s.
Proof.
  intros N X. destruct (skip_spaced c [] ts s N X) as (s1 & E & S1 & L). exists s1. split; [|auto]. rewrite E. simpl. rewrite byte_eqb_refl. reflexivity.
Qed.
Lemma pchar_other c d ts s : is_ws c = false -> c <> d -> spaced ([c] :: ts) s -> pchar d (skip_ws s) = None.
Proof.
  intros N D X. destruct (skip_spaced c [] ts s N X) as (s1 & E & S1 & L). rewrite E. simpl.
  destruct (byte_eqb_spec c d); [contradiction|reflexivity].
Qed.
Lemma ident_empty c ts s : is_ws c = false -> (b2n c < 128)%N -> ident_char (b2n c) = false -> spaced ([c] :: ts) s ->
  ident (skip_ws s) = ([], skip_ws s) /\ skip_ws (skip_ws s) = skip_ws s.
Proof.
  intros N L C X. destruct (skip_spaced c [] ts s N X) as (s1 & E & S1 & LL). rewrite E. split.
  - apply (take_chars_exact ident_char []); [constructor|]. simpl. auto.
  - simpl. rewrite N. reflexivity.
Qed.
(** a value cannot start with a closing delimiter *)
Definition closer (c : byte) : Prop := In c ["}"%byte; ")"%byte; "]"%byte].
Lemma cel_value_closer f c ts s : closer c -> spaced ([c] :: ts) s -> cel_value (S f) s = PErr.
Proof.
  intros C X. cbn [cel_value].
  assert (Q : is_ws c = false /\ (b2n c < 128)%N /\ ident_char (b2n c) = false /\ c <> "{"%byte /\ c <> "("%byte /\ c <> "["%byte /\ c <> x22)
    by (destruct C as [<-|[<-|[<-|[]]]]; repeat split; discriminate).
  destruct Q as (Q1 & Q2 & Q3 & Q4 & Q5 & Q6 & Q7).
  destruct (ident_empty c ts s Q1 Q2 Q3 X) as [E1 E2]. rewrite E1. unfold drop_separators. rewrite E2.
  rewrite (pchar_other c "{" ts s Q1 Q4 X), (pchar_other c "(" ts s Q1 Q5 X), (pchar_other c "[" ts s Q1 Q6 X), (pchar_other c x22 ts s Q1 Q7 X).
  reflexivity.
Qed.
Lemma key_value_closer p c ts s : closer c -> spaced ([c] :: ts) s -> key_value p s = PErr.
Proof.
  intros C X. unfold key_value.
  assert (Q : is_ws c = false /\ (b2n c < 128)%N /\ ident_char (b2n c) = false /\ c <> ":"%byte)
    by (destruct C as [<-|[<-|[<-|[]]]]; repeat split; discriminate).
  destruct Q as (Q1 & Q2 & Q3 & Q4).
  destruct (ident_empty c ts s Q1 Q2 Q3 X) as [E1 E2]. rewrite E1, E2. rewrite (pchar_other c ":" ts s Q1 Q4 X). reflexivity.
Qed.

(** Comma separated lists *)
Section Lists.
  Context {A B : Type}.
  Variable p : bytes -> pres B.
  Variable tk : A -> list bytes.
  Variable val : A -> B.
  Variables gd wf : A -> bool.
  Variable n : nat.
  Variable c : byte.
  Hypothesis Hp : forall x, wf x = true -> forall ts s, length s < n -> spaced (tk x ++ ts) s ->
    if gd x then exists s', spaced ts s' /\ length s' < length s /\ p s = POk (val x) s' else p s = PFail.
  Hypothesis Hc : closer c.
  Hypothesis Hpc : forall ts s, length s < n -> spaced ([c] :: ts) s -> p s = PErr.
  Lemma sep_loop_toks l : forallb wf l = true -> forall ts g s, length s < n -> length s < g ->
    spaced ((match l with [] => [] | _ => bs "," :: sep_toks (map tk l) end) ++ [c] :: ts) s ->
    if forallb gd l then exists s', spaced ([c] :: ts) s' /\ length s' <= length s /\ sep_loop p g s = POk (map val l) s'
    else sep_loop p g s = PFail.
  Proof.
    induction l as [|x l IH]; intros WF ts g s Ln Lg X; (destruct g as [|g]; [lia|]); cbn [sep_loop forallb].
    - cbn [app] in X. exists s. split; [exact X|]. split; [lia|].
      rewrite (pchar_other c "," ts s); [reflexivity| | |exact X]; destruct Hc as [<-|[<-|[<-|[]]]]; (reflexivity || discriminate).
    - cbn [forallb] in WF. apply andb_prop in WF. destruct WF as [WF1 WF2]. cbn [app] in X. destruct (pchar_spaced "," _ s eq_refl X) as (s1 & E & S1 & L1). rewrite E.
      assert (Y : spaced (tk x ++ (match l with [] => [] | _ => bs "," :: sep_toks (map tk l) end) ++ [c] :: ts) s1).
      { destruct l as [|y l]; [exact S1|]. change (sep_toks (map tk (x :: y :: l))) with (tk x ++ bs "," :: sep_toks (map tk (y :: l))) in S1.
        rewrite <- app_assoc in S1. exact S1. }
      assert (Z := Hp x WF1 _ s1 ltac:(lia) Y). destruct (gd x); cbn [andb]; [|rewrite Z; reflexivity].
      destruct Z as (s2 & S2 & L2 & E2). rewrite E2.
      assert (W := IH WF2 ts g s2 ltac:(lia) ltac:(lia) S2). destruct (forallb gd l).
      + destruct W as (s3 & S3 & L3 & E3). exists s3. rewrite E3. split; [exact S3|]. split; [lia|reflexivity].
      + rewrite W. reflexivity.
  Qed.
  Lemma sep_list_toks l : forallb wf l = true -> forall ts s, length s < n -> spaced (sep_toks (map tk l) ++ [c] :: ts) s ->
    if forallb gd l then exists s', spaced ([c] :: ts) s' /\ length s' <= length s /\ sep_list p s = POk (map val l) s'
    else sep_list p s = PFail.
  Proof.
    intros WF ts s Ln X. unfold sep_list. destruct l as [|x l].
    - cbn [map sep_toks app forallb] in *. rewrite (Hpc ts s Ln X). exists s. auto.
    - cbn [forallb] in WF. apply andb_prop in WF. destruct WF as [WF1 WF2]. assert (Y : spaced (tk x ++ (match l with [] => [] | _ => bs "," :: sep_toks (map tk l) end) ++ [c] :: ts) s).
      { destruct l as [|y l]; [exact X|]. change (sep_toks (map tk (x :: y :: l))) with (tk x ++ bs "," :: sep_toks (map tk (y :: l))) in X.
        rewrite <- app_assoc in X. exact X. }
      assert (Z := Hp x WF1 _ s Ln Y). cbn [forallb]. destruct (gd x); cbn [andb]; [|rewrite Z; reflexivity].
      destruct Z as (s2 & S2 & L2 & E2). rewrite E2.
      assert (W := sep_loop_toks l WF2 ts (S (length s2)) s2 ltac:(lia) ltac:(lia) S2). destruct (forallb gd l).
      + destruct W as (s3 & S3 & L3 & E3). exists s3. rewrite E3. split; [exact S3|]. split; [lia|reflexivity].
      + rewrite W. reflexivity.
  Qed.
End Lists.

(** ** The main lemma: tokens with arbitrary white space parse to the value, or
    fail if some literal contains a character the parser does not accept *)
Lemma quote_tok s : quote ++ s ++ quote = x22 :: s ++ [x22].
Proof. reflexivity. Qed.
Lemma take_lit s r : lit_ok s = true ->
  if lit_good s then parse_str (s ++ x22 :: r) = (s, x22 :: r)
  else exists a b c, parse_str (s ++ x22 :: r) = (a, b :: c) /\ b <> x22 /\ is_ws b = false.
Proof.
  unfold lit_ok, lit_good. induction s as [|b s IH]; intro O.
  - simpl. reflexivity.
  - cbn [forallb] in *. apply andb_prop in O. destruct O as [O1 O2]. apply andb_prop in O1. destruct O1 as [O1 O3].
    apply andb_prop in O1. destruct O1 as [O1 O4]. apply negb_true_iff in O3, O4.
    specialize (IH O2). unfold parse_str in *. cbn [app take_chars]. rewrite O1.
    destruct (str_char (b2n b)) eqn:S; cbn [andb].
    + destruct (forallb (fun b0 => str_char (b2n b0)) s).
      * rewrite IH. reflexivity.
      * destruct IH as (x & y & z & E & N & W). exists (b :: x), y, z. rewrite E. auto.
    + exists [], b, (s ++ x22 :: r). split; [reflexivity|]. split; [|exact O3].
      intros ->. rewrite byte_eqb_refl in O4. discriminate.
Qed.
Lemma parse_toks f : forall x, wfx x = true -> forall ts s, length s < f -> spaced (toks x ++ ts) s ->
  if good x then exists s', spaced ts s' /\ length s' < length s /\ cel_value f s = POk (value x) s' else cel_value f s = PFail.
Proof.
  induction f as [|f IH]; intros x W ts s L X; [lia|].
  destruct x as [l|l|n l|n l]; cbn [toks wfx good value] in *.
  - (* string *) rewrite quote_tok in X. cbn [app] in X.
    assert (NW : is_ws x22 = false) by reflexivity.
    destruct (skip_spaced _ _ _ _ NW X) as (s1 & E & S1 & L1). cbn [cel_value]. rewrite E. cbn [app].
    assert (ID : ident (x22 :: (l ++ [x22]) ++ s1) = ([], x22 :: (l ++ [x22]) ++ s1)) by reflexivity.
    rewrite ID. unfold drop_separators. cbn [skip_ws is_ws pchar]. cbn [byte_eqb].
    change (byte_eqb x22 "{") with false. change (byte_eqb x22 "(") with false. change (byte_eqb x22 "[") with false.
    change (byte_eqb x22 x22) with true. cbn [pmap alt]. rewrite <- app_assoc. cbn [app].
    assert (T := take_lit l s1 W). destruct (lit_good l).
    + rewrite T. cbn [skip_ws is_ws pchar]. change (byte_eqb x22 x22) with true. cbn [cut pmap]. exists s1. auto.
    + destruct T as (a & b & c & T & N & Wb). rewrite T. cbn [skip_ws]. rewrite Wb. cbn [pchar].
      destruct (byte_eqb_spec b x22); [contradiction|]. reflexivity.
  - (* array *) cbn [app] in X. rewrite <- app_assoc in X.
    destruct (ident_empty "[" _ s eq_refl eq_refl eq_refl X) as [E1 E2].
    destruct (pchar_spaced "[" _ s eq_refl X) as (s1 & E & S1 & L1).
    cbn [cel_value]. rewrite E1. unfold drop_separators. rewrite E2.
    rewrite (pchar_other "[" "{" _ s eq_refl ltac:(discriminate) X), (pchar_other "[" "(" _ s eq_refl ltac:(discriminate) X). rewrite E. cbn [pmap alt].
    assert (Z := sep_list_toks (cel_value f) toks value good wfx f "]"
      (fun x Wx ts s L => IH x Wx ts s L) (or_intror (or_intror (or_introl eq_refl)))
      ltac:(intros ts0 s0 L0 X0; destruct f; [lia|]; eapply cel_value_closer; [|exact X0]; right; right; left; reflexivity) l W ts s1 ltac:(lia) S1).
    destruct (forallb good l).
    + destruct Z as (s2 & S2 & L2 & E3). rewrite E3. destruct (pchar_spaced "]" _ s2 eq_refl S2) as (s3 & E4 & S3 & L3).
      rewrite E4. exists s3. split; [exact S3|]. split; [lia|reflexivity].
    + rewrite Z. reflexivity.
  - (* object *) apply andb_prop in W. destruct W as [W1 W2]. cbn [app] in X. rewrite <- app_assoc in X.
    destruct (ident_spaced n "{" _ s W1 eq_refl eq_refl X) as (s0 & E0 & S0 & L0).
    destruct (pchar_spaced "{" _ s0 eq_refl S0) as (s1 & E & S1 & L1).
    cbn [cel_value]. rewrite E0. unfold drop_separators. rewrite E.
    assert (Z := sep_list_toks (key_value (cel_value f)) (fun kv => fst kv :: bs ":" :: toks (snd kv)) (fun kv => (fst kv, value (snd kv)))
      (fun kv => good (snd kv)) (fun kv => ident_ok (fst kv) && wfx (snd kv)) f "}"
      ltac:(intros [k v] Wx tsx sx Lx Xx; cbn [fst snd] in *; apply andb_prop in Wx; destruct Wx as [Wk Wv];
            destruct (ident_spaced k ":" _ sx Wk eq_refl eq_refl Xx) as (sa & Ea & Sa & La);
            destruct (pchar_spaced ":" _ sa eq_refl Sa) as (sb & Eb & Sb & Lb);
            unfold key_value; rewrite Ea, Eb;
            assert (Q := IH v Wv tsx sb ltac:(lia) Sb); destruct (good v);
            [destruct Q as (sc & Sc & Lc & Ec); rewrite Ec; exists sc; split; [exact Sc|]; split; [lia|reflexivity]
            |rewrite Q; reflexivity])
      (or_introl eq_refl)
      ltac:(intros ts1 s2 L2 X2; eapply key_value_closer; [|exact X2]; left; reflexivity) l W2 ts s1 ltac:(lia) S1).
    destruct (forallb (fun kv => good (snd kv)) l).
    + destruct Z as (s2 & S2 & L2 & E3). rewrite E3. destruct (pchar_spaced "}" _ s2 eq_refl S2) as (s3 & E4 & S3 & L3).
      rewrite E4. exists s3. split; [exact S3|]. split; [lia|reflexivity].
    + rewrite Z. reflexivity.
  - (* function *) apply andb_prop in W. destruct W as [W1 W2]. cbn [app] in X. rewrite <- app_assoc in X.
    destruct (ident_spaced n "(" _ s W1 eq_refl eq_refl X) as (s0 & E0 & S0 & L0).
    destruct (pchar_spaced "(" _ s0 eq_refl S0) as (s1 & E & S1 & L1).
    cbn [cel_value]. rewrite E0. unfold drop_separators. rewrite (pchar_other "(" "{" _ s0 eq_refl ltac:(discriminate) S0). rewrite E. cbn [pmap alt].
    assert (Z := sep_list_toks (cel_value f) toks value good wfx f ")"
      (fun x Wx ts s L => IH x Wx ts s L) (or_intror (or_introl eq_refl))
      ltac:(intros ts1 s2 L2 X2; destruct f; [lia|]; eapply cel_value_closer; [|exact X2]; right; left; reflexivity) l W2 ts s1 ltac:(lia) S1).
    destruct (forallb good l).
    + destruct Z as (s2 & S2 & L2 & E3). rewrite E3. destruct (pchar_spaced ")" _ s2 eq_refl S2) as (s3 & E4 & S3 & L3).
      rewrite E4. exists s3. split; [exact S3|]. split; [lia|reflexivity].
    + rewrite Z. reflexivity.
Qed.

(** ** Expressions as concrete syntax *)
Definition syn_names (l : list bytes) : syn := SArr (map SStr l).
Definition syn_response (c : response_cert) : bytes * syn :=
  (bs "response_certification", SObj (bs "ResponseCertification")
    [match c with
     | CertifiedHeaders l => (bs "certified_response_headers", SObj (bs "ResponseHeaderList") [(bs "headers", syn_names l)])
     | HeaderExclusions l => (bs "response_header_exclusions", SObj (bs "ResponseHeaderList") [(bs "headers", syn_names l)])
     end]).
Definition syn_request (c : request_cert) : bytes * syn :=
  (bs "request_certification", SObj (bs "RequestCertification")
     [(bs "certified_request_headers", syn_names (rc_headers c)); (bs "certified_query_parameters", syn_names (rc_query c))]).
Definition syn_of (e : cel) : syn :=
  SFun (bs "default_certification") [SObj (bs "ValidationArgs")
    [match e with
     | CelSkip => (bs "no_certification", SObj (bs "Empty") [])
     | CelResponseOnly rs => (bs "certification", SObj (bs "Certification") [(bs "no_request_certification", SObj (bs "Empty") []); syn_response rs])
     | CelFull rq rs => (bs "certification", SObj (bs "Certification") [syn_request rq; syn_response rs])
     end]].
Lemma name_tokens_syn l : sep_toks (map toks (map SStr l)) = name_tokens l.
Proof.
  induction l as [|n l IH]; [reflexivity|]. destruct l as [|m l]; [reflexivity|].
  change (sep_toks (map toks (map SStr (n :: m :: l)))) with ((quote ++ n ++ quote) :: bs "," :: sep_toks (map toks (map SStr (m :: l)))).
  rewrite IH. reflexivity.
Qed.
Lemma tokens_syn e : toks (syn_of e) = tokens e.
Proof.
  destruct e as [|rs|rq rs]; [reflexivity| |].
  - destruct rs; unfold syn_of, syn_response, syn_names, tokens, response_tokens; cbn [toks map fst snd sep_toks];
      rewrite name_tokens_syn; cbn [app]; rewrite <- ?app_assoc; reflexivity.
  - destruct rs; unfold syn_of, syn_response, syn_request, syn_names, tokens, response_tokens, request_tokens; cbn [toks map fst snd sep_toks];
      rewrite !name_tokens_syn; cbn [app]; repeat (rewrite <- ?app_assoc; cbn [app]); reflexivity.
Qed.
Lemma print_names_tokens l : print_names l = concat (name_tokens l).
Proof.
  destruct l as [|n l]; [reflexivity|]. unfold print_names. revert n. induction l as [|m l IH]; intro n.
  - simpl. rewrite app_nil_r. reflexivity.
  - change (name_tokens (n :: m :: l)) with ((quote ++ n ++ quote) :: bs "," :: name_tokens (m :: l)). cbn [concat].
    rewrite <- (IH m). change (join (quote ++ bs "," ++ quote) (n :: m :: l)) with (n ++ (quote ++ bs "," ++ quote) ++ join (quote ++ bs "," ++ quote) (m :: l)).
    rewrite <- !app_assoc. reflexivity.
Qed.
Lemma print_tokens e : print_cel e = concat (tokens e).
Proof.
  destruct e as [|rs|rq rs]; [reflexivity| |].
  - destruct rs; unfold print_cel, print_response, tokens, response_tokens; rewrite print_names_tokens;
      rewrite !concat_app; cbn [concat]; rewrite ?app_nil_r, <- ?app_assoc; reflexivity.
  - destruct rs; unfold print_cel, print_request, print_response, tokens, request_tokens, response_tokens; rewrite !print_names_tokens;
      rewrite !concat_app; cbn [concat]; rewrite ?app_nil_r, <- ?app_assoc; reflexivity.
Qed.
Lemma strings_map l : strings (map value (map SStr l)) = Some l.
Proof. induction l as [|x l IH]; [reflexivity|]. cbn [map value strings]. rewrite IH. reflexivity. Qed.
Lemma map_value_syn e : map_cel_ast (value (syn_of e)) = Some e.
Proof.
  destruct e as [|rs|[h q] rs]; [reflexivity| |].
  - destruct rs as [l|l]; unfold syn_of, syn_response, syn_names; cbn -[strings]; rewrite strings_map; reflexivity.
  - destruct rs as [l|l]; unfold syn_of, syn_response, syn_request, syn_names; cbn -[strings]; rewrite !strings_map; reflexivity.
Qed.
Lemma forallb_map_SStr (g : syn -> bool) (h : bytes -> bool) l : (forall s, g (SStr s) = h s) -> forallb g (map SStr l) = forallb h l.
Proof. intro E. induction l as [|x l IH]; simpl; [reflexivity|]. rewrite E, IH. reflexivity. Qed.
Lemma wfx_syn e : wfx (syn_of e) = forallb lit_ok (cel_names e).
Proof.
  destruct e as [|rs|[h q] rs]; [reflexivity| |].
  - destruct rs as [l|l]; unfold syn_of, syn_response, syn_names; cbn -[lit_ok]; rewrite (forallb_map_SStr wfx lit_ok) by reflexivity;
      rewrite !andb_true_r; reflexivity.
  - destruct rs as [l|l]; unfold syn_of, syn_response, syn_request, syn_names; cbn -[lit_ok]; rewrite !(forallb_map_SStr wfx lit_ok) by reflexivity;
      rewrite !andb_true_r, !forallb_app, ?andb_assoc; reflexivity.
Qed.
Lemma good_syn e : good (syn_of e) = forallb lit_good (cel_names e).
Proof.
  destruct e as [|rs|[h q] rs]; [reflexivity| |].
  - destruct rs as [l|l]; unfold syn_of, syn_response, syn_names; cbn -[lit_good]; rewrite (forallb_map_SStr good lit_good) by reflexivity;
      rewrite !andb_true_r; reflexivity.
  - destruct rs as [l|l]; unfold syn_of, syn_response, syn_request, syn_names; cbn -[lit_good]; rewrite !(forallb_map_SStr good lit_good) by reflexivity;
      rewrite !andb_true_r, !forallb_app, ?andb_assoc; reflexivity.
Qed.
Lemma spaced_concat ts : spaced ts (concat ts).
Proof. induction ts as [|t ts IH]; [constructor; constructor|]. simpl. apply (spaced_cons [] t); [constructor|exact IH]. Qed.
(** parsing the spaced tokens of an expression *)
Lemma cel_of_spaced e s : forallb lit_ok (cel_names e) = true -> spaced (tokens e) s ->
  cel_of_text s = if forallb lit_good (cel_names e) then Some e else None.
Proof.
  intros W X. rewrite <- tokens_syn, <- (app_nil_r (toks _)) in X. rewrite <- wfx_syn in W.
  assert (Q := parse_toks (S (length s)) _ W [] s ltac:(lia) X). rewrite good_syn in Q. unfold cel_of_text, parse_cel.
  destruct (forallb lit_good (cel_names e)).
  - destruct Q as (s' & _ & _ & E). rewrite E. cbn [opt_bind]. apply map_value_syn.
  - rewrite Q. reflexivity.
Qed.
