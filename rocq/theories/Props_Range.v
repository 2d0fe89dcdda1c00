(** C61: Range header parsing; decimal printing. *)
From Coq Require Import List Arith NArith Lia Bool.
From Coq Require Decimal DecimalN DecimalPos.
From Verif Require Import Bytes Text Cbor Header HeaderSpec HeaderProofs Props_Header AssetRouter RangeSpec.
Import ListNotations.
Local Open Scope N_scope.

(** [usize::to_string] prints the decimal number *)
Definition dstep (a : N) (d : byte) : N := a * 10 + (b2n d - 48).
Lemma dstep_pos p d : dstep (Npos p) d = match b2n d - 48 with N0 => Npos (10 * p) | Npos k => Npos (k + 10 * p) end.
Proof. unfold dstep. destruct (b2n d - 48) as [|k]; lia. Qed.
Lemma fold_uint_acc u : forall p, fold_left dstep (uint_bytes u) (Npos p) = Npos (Pos.of_uint_acc u p).
Proof.
  induction u as [|u IH|u IH|u IH|u IH|u IH|u IH|u IH|u IH|u IH|u IH]; intro p; cbn [uint_bytes fold_left]; [reflexivity|..].
  all: rewrite dstep_pos; match goal with |- fold_left dstep _ (match ?x with _ => _ end) = _ => let y := eval vm_compute in x in change x with y end; cbv iota; rewrite IH; reflexivity.
Qed.
Lemma fold_uint u : fold_left dstep (uint_bytes u) 0 = Pos.of_uint u.
Proof.
  induction u; cbn [uint_bytes fold_left]; [reflexivity|..].
  - change (dstep 0 "0") with 0. exact IHu.
  - change (dstep 0 "1") with 1. apply fold_uint_acc.
  - change (dstep 0 "2") with 2. apply fold_uint_acc.
  - change (dstep 0 "3") with 3. apply fold_uint_acc.
  - change (dstep 0 "4") with 4. apply fold_uint_acc.
  - change (dstep 0 "5") with 5. apply fold_uint_acc.
  - change (dstep 0 "6") with 6. apply fold_uint_acc.
  - change (dstep 0 "7") with 7. apply fold_uint_acc.
  - change (dstep 0 "8") with 8. apply fold_uint_acc.
  - change (dstep 0 "9") with 9. apply fold_uint_acc.
Qed.
Lemma uint_digits u : Forall (fun d => 48 <= b2n d <= 57) (uint_bytes u).
Proof. induction u; cbn [uint_bytes]; constructor; try assumption; vm_compute; split; discriminate. Qed.
Lemma dec_decimal n : decimal (dec n) n.
Proof.
  unfold decimal, dec. split; [|split; [apply uint_digits|]].
  - destruct n as [|p]; [discriminate|]. assert (X := DecimalPos.Unsigned.to_uint_nonnil p). simpl. destruct (Pos.to_uint p); try discriminate. congruence.
  - fold dstep. rewrite fold_uint. change (Pos.of_uint (N.to_uint n)) with (N.of_uint (N.to_uint n)). symmetry. apply DecimalN.Unsigned.of_to.
Qed.
Lemma decimal_fun ds n m : decimal ds n -> decimal ds m -> n = m.
Proof. intros (_ & _ & ->) (_ & _ & ->). reflexivity. Qed.
Lemma dec_inj n m : dec n = dec m -> n = m.
Proof. intro E. apply (decimal_fun (dec n)); [apply dec_decimal|rewrite E; apply dec_decimal]. Qed.

(** parsing numbers *)
Lemma digits_below_spec umod ds : forall a n, a < umod -> (digits_below umod ds a = Some n <->
  Forall (fun d => 48 <= b2n d <= 57) ds /\ n = fold_left (fun a d => a * 10 + (b2n d - 48)) ds a /\ n < umod).
Proof.
  induction ds as [|d ds IH]; intros a n L; cbn [digits_below fold_left].
  - split; [intro X; injection X as <-; auto|intros (_ & -> & _); reflexivity].
  - unfold digit. destruct ((48 <=? b2n d) && (b2n d <=? 57)) eqn:D.
    + apply andb_prop in D. destruct D as [D1 D2]. apply N.leb_le in D1, D2.
      destruct (a * 10 + (b2n d - 48) <? umod) eqn:B; [apply N.ltb_lt in B|apply N.ltb_ge in B].
      * rewrite IH by exact B. split; [intros (F & -> & X); auto|intros (F & -> & X); inversion F; auto].
      * split; [discriminate|]. intros (F & -> & X). assert (G := fold_ge ds (a * 10 + (b2n d - 48))). lia.
    + split; [discriminate|]. intros (F & _). inversion F as [|? ? [A B]]; subst. apply N.leb_le in A, B. rewrite A, B in D. discriminate.
Qed.
Lemma parse_usize_spec umod s n : 0 < umod -> (parse_usize umod s = Some n <-> number s n /\ n < umod).
Proof.
  intro U. unfold parse_usize, number.
  assert (K : forall t : bytes, match t with [] => None | _ => digits_below umod t 0 end = Some n <-> decimal t n /\ n < umod).
  { intro t. unfold decimal. destruct t as [|x t]; [split; [discriminate|intros [[X _] _]; congruence]|].
    rewrite (digits_below_spec umod (x :: t) 0 n) by exact U. split; [intros (A & B & C); split; [split; [discriminate|auto]|exact C]|intros [(_ & A & B) C]; auto]. }
  rewrite K. split.
  - intros [D L]. split; [|exact L]. exists (drop_opt "+" s). split; [|exact D].
    destruct s as [|x s]; [left; reflexivity|]. simpl. destruct (byte_eqb_spec x "+") as [->|]; auto.
  - intros [(ds & [->| ->] & D) L]; (split; [|exact L]).
    + destruct ds as [|x ds]; [exact D|]. simpl. destruct (byte_eqb_spec x "+") as [->|]; [|exact D].
      exfalso. destruct D as (_ & F & _). inversion F as [|? ? [A _]]; subst. vm_compute in A. congruence.
    + exact D.
Qed.
Lemma number_fun s n m : number s n -> number s m -> n = m.
Proof.
  intros A B. assert (X : parse_usize (n + m + 1) s = Some n) by (apply parse_usize_spec; [lia|]; split; [exact A|lia]).
  assert (Y : parse_usize (n + m + 1) s = Some m) by (apply parse_usize_spec; [lia|]; split; [exact B|lia]). congruence.
Qed.
(** a number starts with '+' or a digit and contains only those *)
Lemma number_chars s n : number s n -> s <> [] /\ Forall (fun b => b = "+"%byte \/ 48 <= b2n b <= 57) s.
Proof.
  intros (ds & E & N & F & _).
  assert (G : Forall (fun b => b = "+"%byte \/ 48 <= b2n b <= 57) ds) by (eapply Forall_impl; [|exact F]; auto).
  destruct E as [->| ->]; split; auto; try discriminate. simpl. constructor; auto.
Qed.
Lemma number_char s n b : number s n -> In b s -> b = "+"%byte \/ 48 <= b2n b <= 57.
Proof. intros X I. apply number_chars in X. destruct X as [_ F]. rewrite Forall_forall in F. apply F, I. Qed.
Lemma number_no_dash s n : number s n -> ~ In "-"%byte s.
Proof. intros X I. destruct (number_char _ _ _ X I) as [Y|Y]; [discriminate|]. vm_compute in Y. destruct Y as [Y _]. congruence. Qed.

Definition prefix_code : code [bs "bytes="].
Proof. apply code_b_ok. reflexivity. Qed.
Lemma all_prefix l : Forall (fun w => In w [bs "bytes="]) l -> l = repeat (bs "bytes=") (length l).
Proof. induction 1 as [|w l [<-|[]] F IH]; [reflexivity|]. simpl. f_equal. exact IH. Qed.
Lemma repeat_prefix k : Forall (fun w => In w [bs "bytes="]) (repeat (bs "bytes=") k).
Proof. induction k; simpl; constructor; simpl; auto. Qed.
Lemma number_first s n t : number s n -> strip_any [bs "bytes="] (s ++ t) = None.
Proof.
  intro X. destruct (number_chars _ _ X) as [NE F]. destruct s as [|b s]; [congruence|]. inversion F as [|? ? B]; subst.
  apply strip_any_none. intros w u [<-|[]] E. injection E as E _. subst b.
  destruct B as [B|B]; [discriminate|]. vm_compute in B. destruct B as [_ B]. congruence.
Qed.

(** the core of the parser, on the trimmed text *)
Definition parse_core (umod : N) (s : bytes) : option (N * option N) :=
  match strip_prefix (bs "bytes=") s with
  | None => None
  | Some _ =>
      match split_on "-" (trim_with [bs "bytes="] (length s) s) with
      | [b; e] =>
          match parse_usize umod b with
          | None => None
          | Some rb =>
              match (match e with
                     | [] => Some None
                     | _ => match parse_usize umod e with Some re => Some (Some re) | None => None end
                     end) with
              | None => None
              | Some re => if match re with Some x => x | None => umod - 1 end <? rb then None else Some (rb, re)
              end
          end
      | _ => None
      end
  end.
Lemma parse_core_spec umod s b e : 0 < umod ->
  (parse_core umod s = Some (b, e) <-> range_text s b e /\ b < umod /\ match e with Some n => n < umod | None => True end).
Proof.
  intro U. unfold parse_core. split.
  - destruct (strip_prefix (bs "bytes=") s) as [s'|] eqn:SP; [|discriminate]. apply strip_prefix_spec in SP.
    destruct (trim_with_split _ prefix_code (length s) s (le_n _)) as (l & F & E & NP). apply all_prefix in F. set (k := length l) in F.
    set (u := trim_with [bs "bytes="] (length s) s) in *.
    assert (K : exists k', k = S k').
    { destruct k as [|k']; [|eauto]. exfalso. rewrite F in E. cbn [repeat concat app] in E. rewrite <- E in NP.
      rewrite strip_any_none in NP. exact (NP (bs "bytes=") s' (or_introl eq_refl) SP). }
    destruct K as (k' & K). rewrite K in F. clear SP NP.
    assert (JS := join_split "-" u). assert (PC := split_on_pieces "-" u).
    destruct (split_on "-" u) as [|bt [|et [|? ?]]]; try discriminate. cbn [join] in JS.
    destruct (parse_usize umod bt) as [rb|] eqn:PB; [|discriminate]. apply parse_usize_spec in PB; [|exact U]. destruct PB as [NB LB].
    assert (TX : forall e', (match e' with None => et = [] | Some n => number et n /\ b <= n end) -> rb = b -> range_text s b e').
    { intros e' X <-. exists k', bt, et. split; [|split; [exact NB|exact X]]. rewrite E, F, <- JS. reflexivity. }
    destruct et as [|x et].
    + cbn [join]. destruct (umod - 1 <? rb) eqn:L; [discriminate|]. intro X. injection X as <- <-. split; [apply TX; auto|auto].
    + destruct (parse_usize umod (x :: et)) as [re|] eqn:PE; [|discriminate]. apply parse_usize_spec in PE; [|exact U]. destruct PE as [NE LE].
      destruct (re <? rb) eqn:L; [discriminate|]. apply N.ltb_ge in L. intro X. injection X as <- <-. split; [apply TX; auto|auto].
  - intros ((k & bt & et & -> & NB & X) & LB & LE).
    assert (S1 : strip_prefix (bs "bytes=") (concat (repeat (bs "bytes=") (S k)) ++ bt ++ bs "-" ++ et) = Some (concat (repeat (bs "bytes=") k) ++ bt ++ bs "-" ++ et)).
    { apply strip_prefix_spec. cbn [repeat concat]. rewrite <- app_assoc. reflexivity. }
    rewrite S1. rewrite (trim_with_code _ prefix_code _ _ _ (repeat_prefix (S k)) (number_first _ _ _ NB)).
    2:{ rewrite app_length, repeat_length. assert (Z := concat_length_ge [bs "bytes="] _ ltac:(repeat constructor; discriminate) (repeat_prefix (S k))). rewrite repeat_length in Z. lia. }
    change (bs "-" ++ et) with ("-"%byte :: et). rewrite split_on_app by exact (number_no_dash _ _ NB).
    destruct e as [n|].
    + destruct X as [NE LN]. rewrite (split_on_free "-" et) by exact (number_no_dash _ _ NE).
      rewrite (proj2 (parse_usize_spec umod bt b U)) by auto. destruct (number_chars _ _ NE) as [Z _]. destruct et as [|x et]; [congruence|].
      rewrite (proj2 (parse_usize_spec umod (x :: et) n U)) by auto. apply N.ltb_ge in LN. rewrite LN. reflexivity.
    + subst et. change (split_on "-" []) with [@nil byte]. rewrite (proj2 (parse_usize_spec umod bt b U)) by auto.
      destruct (umod - 1 <? b) eqn:L; [apply N.ltb_lt in L; lia|reflexivity].
Qed.

(** the text of a range neither starts nor ends with white space *)
Lemma text_ends k bt et b : number bt b -> (et = [] \/ exists n, number et n) -> forall s, s = concat (repeat (bs "bytes=") (S k)) ++ bt ++ bs "-" ++ et ->
  s <> [] /\ (forall w t, In w ws_chars -> s <> w ++ t) /\ (forall w t, In w ws_chars -> s <> t ++ w).
Proof.
  intros NB X s ->. split; [discriminate|]. split.
  - intros w t I E. assert (A : forallb (fun w => match w with a :: _ => negb (byte_eqb a "b") | [] => false end) ws_chars = true) by (vm_compute; reflexivity).
    rewrite forallb_forall in A. specialize (A w I). destruct w as [|a w]; [discriminate|]. injection E as <- _. discriminate.
  - intros w t I E.
    assert (A : forallb (fun w => match rev w with a :: _ => negb (byte_eqb a "-" || byte_eqb a "+" || ((48 <=? b2n a) && (b2n a <=? 57))) | [] => false end) ws_chars = true) by (vm_compute; reflexivity).
    rewrite forallb_forall in A. specialize (A w I).
    assert (L : exists p c, concat (repeat (bs "bytes=") (S k)) ++ bt ++ bs "-" ++ et = p ++ [c] /\ (c = "-"%byte \/ c = "+"%byte \/ 48 <= b2n c <= 57)).
    { destruct et as [|c et _] using rev_ind.
      - exists (concat (repeat (bs "bytes=") (S k)) ++ bt), "-"%byte. split; [rewrite <- app_assoc; reflexivity|auto].
      - exists (concat (repeat (bs "bytes=") (S k)) ++ bt ++ bs "-" ++ et), c. split; [rewrite <- !app_assoc; reflexivity|]. right.
        destruct X as [X|(n & NE)]; [destruct et; discriminate|]. apply (number_char _ _ c NE). apply in_or_app. right. left. reflexivity. }
    destruct L as (p & c & L & C). rewrite L in E. destruct w as [|a w _] using rev_ind; [discriminate A|].
    rewrite app_assoc in E. apply app_inj_tail in E. destruct E as [_ <-]. rewrite rev_app_distr in A. cbn [rev app] in A.
    destruct C as [->|[->|[C1 C2]]]; try discriminate A. apply N.leb_le in C1, C2. rewrite C1, C2 in A. rewrite orb_true_r in A. discriminate A.
Qed.

Lemma range_text_ends s b e : range_text s b e ->
  s <> [] /\ (forall w t, In w ws_chars -> s <> w ++ t) /\ (forall w t, In w ws_chars -> s <> t ++ w).
Proof.
  intros (k & bt & et & E & NB & X). apply (text_ends k bt et b NB); [|exact E].
  destruct e as [n|]; [right; exists n; apply X|left; exact X].
Qed.

(** ** C61 *)
Theorem C61_range_header_parsed_iff :
  forall (umod : N) (s : bytes) (b : N) (e : option N), 0 < umod ->
  (parse_range umod s = Some (b, e) <->
   exists t, padded s t /\ range_text t b e /\ b < umod /\ match e with Some n => n < umod | None => True end).
Proof.
  intros umod s b e U. change (parse_range umod s) with (parse_core umod (trim s)). rewrite parse_core_spec by exact U. split.
  - intros (R & LB & LE). exists (trim s). destruct (range_text_ends _ _ _ R) as (NE & _).
    destruct (proj1 (trim_spec s (trim s) NE) eq_refl) as (a & c & A & C & E & _). split; [exists a, c; auto|auto].
  - intros (t & (a & c & A & C & E) & R & LB & LE). destruct (range_text_ends _ _ _ R) as (NE & W1 & W2).
    assert (X : trim s = t) by (apply trim_spec; [exact NE|exists a, c; auto]). rewrite X. auto.
Qed.
Print Assumptions C61_range_header_parsed_iff.
(** what a client normally sends is understood *)
Theorem C61_canonical_range_accepted :
  forall (umod b n : N), b <= n -> n < umod ->
  parse_range umod (bs "bytes=" ++ dec b ++ bs "-") = Some (b, None) /\
  parse_range umod (bs "bytes=" ++ dec b ++ bs "-" ++ dec n) = Some (b, Some n) /\
  (b < n -> parse_range umod (bs "bytes=" ++ dec n ++ bs "-" ++ dec b) = None).
Proof.
  intros umod b n L U. assert (BL : forall t : bytes, padded t t) by (intro t; exists [], []; split; [exists []; split; [reflexivity|constructor]|split; [exists []; split; [reflexivity|constructor]|rewrite app_nil_r; reflexivity]]).
  assert (NU : forall m, number (dec m) m) by (intro m; exists (dec m); split; [left; reflexivity|apply dec_decimal]).
  split; [|split].
  - apply C61_range_header_parsed_iff; [lia|]. eexists. split; [apply BL|]. split; [|split; [lia|exact I]].
    exists 0%nat, (dec b), []. split; [reflexivity|]. split; [apply NU|reflexivity].
  - apply C61_range_header_parsed_iff; [lia|]. eexists. split; [apply BL|]. split; [|split; [lia|exact U]].
    exists 0%nat, (dec b), (dec n). split; [reflexivity|]. split; [apply NU|]. split; [apply NU|exact L].
  - intro LT. change (parse_range umod ?s) with (parse_core umod (trim s)).
    assert (T : trim (bs "bytes=" ++ dec n ++ bs "-" ++ dec b) = bs "bytes=" ++ dec n ++ bs "-" ++ dec b).
    { destruct (text_ends 0 (dec n) (dec b) n (NU n) (or_intror (ex_intro _ b (NU b))) _ eq_refl) as (NE & W1 & W2).
      apply trim_spec; [exact NE|]. exists [], []. split; [exists []; split; [reflexivity|constructor]|]. split; [exists []; split; [reflexivity|constructor]|].
      split; [rewrite app_nil_r; reflexivity|]. auto. }
    rewrite T. unfold parse_core. rewrite (proj2 (strip_prefix_spec (bs "bytes=") _ (dec n ++ bs "-" ++ dec b)) eq_refl).
    assert (Z := trim_with_code _ prefix_code [bs "bytes="] (dec n ++ bs "-" ++ dec b) (length (bs "bytes=" ++ dec n ++ bs "-" ++ dec b))
                   ltac:(repeat constructor) (number_first _ _ _ (NU n)) ltac:(simpl; lia)).
    cbn [concat] in Z. rewrite app_nil_r in Z. rewrite Z. clear Z.
    change (bs "-" ++ dec b) with ("-"%byte :: dec b). rewrite split_on_app by exact (number_no_dash _ _ (NU n)).
    rewrite (split_on_free "-" (dec b)) by exact (number_no_dash _ _ (NU b)).
    assert (PN : parse_usize umod (dec n) = Some n) by (apply parse_usize_spec; [lia|]; split; [apply NU|exact U]). rewrite PN.
    destruct (number_chars _ _ (NU b)) as [Z _]. assert (PB : parse_usize umod (dec b) = Some b) by (apply parse_usize_spec; [lia|]; split; [apply NU|lia]).
    destruct (dec b) as [|x et]; [congruence|]. rewrite PB. apply N.ltb_lt in LT. rewrite LT. reflexivity.
Qed.
Print Assumptions C61_canonical_range_accepted.
Example C61_ex : parse_range (2 ^ 64) (bs " bytes=100-2000000 ") = Some (100, Some 2000000) /\ parse_range (2 ^ 32) (bs "bytes=4294967296-") = None /\ parse_range (2 ^ 64) (bs "bytes=-500") = None /\ parse_range (2 ^ 64) (bs "bytes=0-1,3-4") = None /\ dec 2000001 = bs "2000001".
Proof. vm_compute. repeat split; reflexivity. Qed.
(** texts outside RFC 9110 that are accepted *)
Theorem C61_malformed_range_refuted :
  parse_range (2 ^ 64) (bs "bytes=bytes=bytes=7-") = Some (7, None) /\ parse_range (2 ^ 64) (bs "bytes=+7-+8") = Some (7, Some 8).
Proof. vm_compute. split; reflexivity. Qed.
Print Assumptions C61_malformed_range_refuted.
