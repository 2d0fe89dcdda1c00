(** Properties C43-C45: base64 and the IC-Certificate header. *)
From Coq Require Import List Arith NArith Lia Bool.
From Verif Require Import Bytes Text HashTree Utf8 Cbor CborProofs CborSpec Props_Cbor Base64 Header HeaderSpec HeaderProofs.
Import ListNotations.
Local Open Scope N_scope.

(** C43 *)
Theorem C43_base64_round_trip :
  forall s : bytes, b64_dec (b64_enc true s) = Some s /\ b64_dec (b64_enc false s) = Some s.
Proof. intro s. split; eapply b64_round_trip; apply le_n. Qed.
Print Assumptions C43_base64_round_trip.
(** Incomplete padding is accepted as well. *)
Theorem C43_partial_padding :
  forall s : bytes, (length s mod 3 = 1)%nat -> b64_dec (b64_enc false s ++ bs "=") = Some s.
Proof.
  intro s. assert (G : forall n s, (length s <= n)%nat -> (length s mod 3 = 1)%nat -> b64_dec (b64_enc false s ++ bs "=") = Some s).
  { clear s. induction n as [|n IH]; intros s L M; [destruct s; [discriminate|simpl in L; lia]|].
    destruct s as [|a [|b [|c r]]]; try discriminate.
    - destruct (bytes_of a x00 x00) as (_ & B1 & _). change (b2n x00) with 0 in B1. rewrite N.mul_0_l, !N.add_0_r in B1.
      assert (Q := quad2 a). cbn [b64_enc]. unfold b64_group. cbv zeta in *. cbn [app bs]. rewrite b64_dec_last by (simpl; lia). cbn [b64_last].
      change (is_pad "=") with true. cbn iota. rewrite Q. cbn [option_map]. rewrite B1. reflexivity.
    - destruct r as [|x r]; [discriminate|].
      change (b64_enc false (a :: b :: c :: x :: r)) with (b64_group false [a; b; c] ++ b64_enc false (x :: r)).
      rewrite <- app_assoc. destruct (bytes_of a b c) as (Ln & B1 & B2 & B3). unfold b64_group. cbv zeta in *.
      set (m := b2n a * 65536 + b2n b * 256 + b2n c) in *. cbn [app].
      rewrite b64_dec_group by (intro E; apply app_eq_nil in E; destruct E; discriminate). rewrite quad4 by exact Ln.
      rewrite IH; [rewrite B1, B2, B3; reflexivity|simpl in *; lia|].
      change (length (a :: b :: c :: x :: r)) with (3 + length (x :: r))%nat in M.
      replace (3 + length (x :: r))%nat with (length (x :: r) + 1 * 3)%nat in M by lia. rewrite Nat.mod_add in M by lia. exact M. }
  intro M. eapply G; [apply le_n|exact M].
Qed.
Print Assumptions C43_partial_padding.

(** ** C45 *)
Section First.
  (** first value for [n] *)
  Fixpoint first (n : bytes) (fs : list bytes) : option bytes :=
    match fs with
    | [] => None
    | f :: r => match header_field f with
                | Some (m, v) => if bytes_eqb m n then Some v else first n r
                | None => first n r
                end
    end.
  Lemma first_some n fs v : first n fs = Some v <->
    exists l f r, fs = l ++ f :: r /\ says f n v /\ forall g u, In g l -> ~ says g n u.
  Proof.
    induction fs as [|f fs IH]; simpl; [split; [discriminate|intros (l & f & r & E & _); destruct l; discriminate]|].
    assert (K : (forall u, ~ says f n u) ->
      (first n fs = Some v <-> exists l g r, f :: fs = l ++ g :: r /\ says g n v /\ forall h u, In h l -> ~ says h n u)).
    { intro NS. rewrite IH. split.
      - intros (l & g & r & -> & S & A). exists (f :: l), g, r. split; [reflexivity|]. split; [exact S|]. intros h u [<-|I]; auto.
      - intros (l & g & r & E & S & A). destruct l as [|x l]; [injection E as <- <-; exfalso; exact (NS v S)|].
        injection E as <- ->. exists l, g, r. split; [reflexivity|]. split; [exact S|]. intros h u I. apply A. right. exact I. }
    destruct (header_field f) as [[m u]|] eqn:E.
    - assert (Sf := proj1 (header_field_says f m u) E). destruct (bytes_eqb_spec m n) as [->|N].
      + split; [intro X; injection X as <-; exists [], f, fs; repeat split; auto|].
        intros (l & g & r & X & S & A). destruct l as [|x l].
        * injection X as <- <-. apply header_field_says in S. congruence.
        * injection X as <- ->. exfalso. exact (A f u (or_introl eq_refl) Sf).
      + apply K. intros w S. apply header_field_says in S. congruence.
    - apply K. intros w S. apply header_field_says in S. congruence.
  Qed.
  Lemma first_none n fs : first n fs = None <-> forall g v, In g fs -> ~ says g n v.
  Proof.
    induction fs as [|f fs IH]; simpl; [split; [intros _ g v []|reflexivity]|].
    assert (K : (forall u, ~ says f n u) -> (first n fs = None <-> forall g v, f = g \/ In g fs -> ~ says g n v)).
    { intro NS. rewrite IH. split; [intros A g v [<-|I]; auto|intros A g v I; apply A; auto]. }
    destruct (header_field f) as [[m u]|] eqn:E.
    - assert (Sf := proj1 (header_field_says f m u) E). destruct (bytes_eqb_spec m n) as [->|N].
      + split; [discriminate|]. intro A. exfalso. exact (A f u (or_introl eq_refl) Sf).
      + apply K. intros w S. apply header_field_says in S. congruence.
    - apply K. intros w S. apply header_field_says in S. congruence.
  Qed.

  Variables umod cap : N.
  Definition slot_ok {A} (s : option A) (dec : bytes -> out A) (o : option bytes) (s' : option A) : Prop :=
    match s, o with
    | Some x, _ => s' = Some x
    | None, None => s' = None
    | None, Some v => exists x, dec v = OOk x /\ s' = Some x
    end.
  Lemma fill_ok {A} (s : option A) dec v s1 : fill s dec v = OOk s1 -> slot_ok s dec (Some v) s1 /\ s1 <> None.
  Proof.
    unfold fill, slot_ok. destruct s as [x|]; [intro X; injection X as <-; split; [reflexivity|discriminate]|].
    destruct (dec v) as [a| | |]; try discriminate. intro X; injection X as <-. split; [eauto|discriminate].
  Qed.
  Lemma fill_do {A} (s : option A) dec v s1 : slot_ok s dec (Some v) s1 -> fill s dec v = OOk s1.
  Proof. unfold fill, slot_ok. destruct s as [x|]; [intros ->; reflexivity|]. intros (x & -> & ->). reflexivity. Qed.
  Lemma slot_step {A} (s s' : option A) dec v o : 
    (exists s1, slot_ok s dec (Some v) s1 /\ slot_ok s1 dec o s') <-> slot_ok s dec (Some v) s'.
  Proof.
    unfold slot_ok. destruct s as [x|].
    - split; [intros (s1 & -> & E); exact E|intros ->; exists (Some x); auto].
    - split; [intros (s1 & (x & D & ->) & E); eauto|intros (x & D & ->); exists (Some x); split; [eauto|reflexivity]].
  Qed.
  Definition slots_ok (s : slots) (fs : list bytes) (s' : slots) : Prop :=
    slot_ok (s_cert s) (decode_certificate umod cap) (first (bs "certificate") fs) (s_cert s') /\
    slot_ok (s_tree s) (decode_tree umod cap) (first (bs "tree") fs) (s_tree s') /\
    slot_ok (s_version s) decode_version (first (bs "version") fs) (s_version s') /\
    slot_ok (s_path s) (decode_expr_path umod cap) (first (bs "expr_path") fs) (s_path s').
  Lemma slot_none {A} (s : option A) dec s' : slot_ok s dec None s' <-> s' = s.
  Proof. unfold slot_ok. destruct s; tauto. Qed.
  Lemma add_fields_ok fs : forall s s', add_fields umod cap s fs = OOk s' <-> slots_ok s fs s'.
  Proof.
    induction fs as [|f fs IH]; intros s s'.
    - simpl. unfold slots_ok. cbn [first]. rewrite !slot_none. destruct s, s'. cbn. split; [intro X; injection X as <- <- <- <-; auto|intros (-> & -> & -> & ->); reflexivity].
    - cbn [add_fields]. unfold add_field. unfold slots_ok. cbn [first].
      destruct (header_field f) as [[m v]|]; [|cbn [out_bind]; apply IH].
      destruct (bytes_eqb_spec m (bs "certificate")) as [->|N1]; [|destruct (bytes_eqb_spec m (bs "tree")) as [->|N2]; [|destruct (bytes_eqb_spec m (bs "version")) as [->|N3]; [|destruct (bytes_eqb_spec m (bs "expr_path")) as [->|N4]]]].
      + change (bytes_eqb (bs "certificate") (bs "tree")) with false. change (bytes_eqb (bs "certificate") (bs "version")) with false. change (bytes_eqb (bs "certificate") (bs "expr_path")) with false. cbn iota.
        rewrite <- (slot_step _ _ _ v (first (bs "certificate") fs)). split.
        * destruct (fill (s_cert s) (decode_certificate umod cap) v) as [s1| | |] eqn:E; try discriminate. cbn [out_bind]. intro X. apply IH in X.
          destruct X as (A & B & C & D). split; [exists s1; split; [apply fill_ok; exact E|exact A]|auto].
        * intros ((s1 & X & A) & B & C & D). apply fill_do in X. rewrite X. cbn [out_bind]. apply IH. split; [exact A|auto].
      + change (bytes_eqb (bs "tree") (bs "version")) with false. change (bytes_eqb (bs "tree") (bs "expr_path")) with false. cbn iota.
        rewrite <- (slot_step _ _ _ v (first (bs "tree") fs)). split.
        * destruct (fill (s_tree s) (decode_tree umod cap) v) as [s1| | |] eqn:E; try discriminate. cbn [out_bind]. intro X. apply IH in X.
          destruct X as (A & B & C & D). split; [exact A|]. split; [exists s1; split; [apply fill_ok; exact E|exact B]|auto].
        * intros (A & (s1 & X & B) & C & D). apply fill_do in X. rewrite X. cbn [out_bind]. apply IH. split; [exact A|]. split; [exact B|auto].
      + change (bytes_eqb (bs "version") (bs "expr_path")) with false. cbn iota.
        rewrite <- (slot_step _ _ _ v (first (bs "version") fs)). split.
        * destruct (fill (s_version s) decode_version v) as [s1| | |] eqn:E; try discriminate. cbn [out_bind]. intro X. apply IH in X.
          destruct X as (A & B & C & D). split; [exact A|]. split; [exact B|]. split; [exists s1; split; [apply fill_ok; exact E|exact C]|auto].
        * intros (A & B & (s1 & X & C) & D). apply fill_do in X. rewrite X. cbn [out_bind]. apply IH. split; [exact A|]. split; [exact B|]. split; [exact C|auto].
      + rewrite <- (slot_step _ _ _ v (first (bs "expr_path") fs)). split.
        * destruct (fill (s_path s) (decode_expr_path umod cap) v) as [s1| | |] eqn:E; try discriminate. cbn [out_bind]. intro X. apply IH in X.
          destruct X as (A & B & C & D). split; [exact A|]. split; [exact B|]. split; [exact C|]. exists s1. split; [apply fill_ok; exact E|exact D].
        * intros (A & B & C & (s1 & X & D)). apply fill_do in X. rewrite X. cbn [out_bind]. apply IH. split; [exact A|]. split; [exact B|]. split; [exact C|exact D].
      + cbn [out_bind]. apply IH.
  Qed.
End First.

(** C45: a header is accepted with result [r] exactly if its first
    "certificate" and "tree" fields decode to those of [r], its first
    "version" field, if any, to the version (otherwise 1), and its first
    "expr_path" field, if any, to the expression path. *)
Theorem C45_first_field_wins :
  forall (umod cap_max : N) (h : bytes) (r : header),
  header_from umod cap_max h = OOk r <->
  (exists v, first_field h (bs "certificate") v /\ decode_certificate umod cap_max v = OOk (h_cert r)) /\
  (exists v, first_field h (bs "tree") v /\ decode_tree umod cap_max v = OOk (h_tree r)) /\
  ((no_field h (bs "version") /\ h_version r = 1) \/
   (exists v, first_field h (bs "version") v /\ decode_version v = OOk (h_version r))) /\
  ((no_field h (bs "expr_path") /\ h_expr_path r = None) \/
   (exists v p, first_field h (bs "expr_path") v /\ decode_expr_path umod cap_max v = OOk p /\ h_expr_path r = Some p)).
Proof.
  intros umod cap h r. unfold header_from. set (fs := split_on "," h).
  assert (FF : forall n v, first_field h n v <-> first n fs = Some v) by (intros; unfold first_field; rewrite first_some; reflexivity).
  assert (NF : forall n, no_field h n <-> first n fs = None) by (intros; unfold no_field; rewrite first_none; reflexivity).
  split.
  - destruct (add_fields umod cap (mk_slots None None None None) fs) as [s| | |] eqn:E; try discriminate. cbn [out_bind].
    apply add_fields_ok in E. destruct E as (A & B & C & D). cbn [s_cert s_tree s_version s_path] in *.
    destruct (s_cert s) as [c|]; [|discriminate]. destruct (s_tree s) as [t|]; [|discriminate]. intro X; injection X as <-. cbn [h_cert h_tree h_version h_expr_path].
    unfold slot_ok in *. setoid_rewrite FF. rewrite !NF.
    split; [|split; [|split]].
    + destruct (first (bs "certificate") fs) as [v|]; [|discriminate]. destruct A as (x & E & X). injection X as <-. eauto.
    + destruct (first (bs "tree") fs) as [v|]; [|discriminate]. destruct B as (x & E & X). injection X as <-. eauto.
    + destruct (first (bs "version") fs) as [v|]; [right|left]; [destruct C as (x & E & ->); eauto|rewrite C; auto].
    + destruct (first (bs "expr_path") fs) as [v|]; [right|left]; [destruct D as (x & E & ->); eauto|auto].
  - setoid_rewrite FF. rewrite !NF. intros ((v1 & F1 & D1) & (v2 & F2 & D2) & C & D).
    set (s' := mk_slots (Some (h_cert r)) (Some (h_tree r)) (match first (bs "version") fs with None => None | Some _ => Some (h_version r) end) (h_expr_path r)).
    assert (E : add_fields umod cap (mk_slots None None None None) fs = OOk s').
    { apply add_fields_ok. unfold slots_ok, slot_ok, s'. cbn [s_cert s_tree s_version s_path]. rewrite F1, F2.
      split; [eauto|]. split; [eauto|]. split.
      - destruct C as [[C _]|(v & C & V)]; rewrite C; eauto.
      - destruct D as [[D ->]|(v & p & D & V & ->)]; rewrite D; eauto. }
    rewrite E. cbn [out_bind s' s_cert s_tree s_version s_path].
    destruct r as [rc rt rv rp]. cbn in *. f_equal. f_equal. destruct C as [[C ->]|(v & C & V)]; rewrite C; reflexivity.
Qed.
Print Assumptions C45_first_field_wins.

(** Corollary: a field with another name, or one that is malformed, and a field
    whose name has occurred before do not change an accepted header. *)
Theorem C45_extra_field_ignored :
  forall (umod cap_max : N) (h1 f h2 : bytes) (r : header),
  ~ In ","%byte f ->
  (forall n v, says f n v -> ~ In n [bs "certificate"; bs "tree"; bs "version"; bs "expr_path"] \/
     exists g u, In g (split_on "," h1) /\ says g n u) ->
  header_from umod cap_max (h1 ++ bs "," ++ h2) = OOk r ->
  header_from umod cap_max (h1 ++ bs "," ++ f ++ bs "," ++ h2) = OOk r.
Proof.
  intros umod cap h1 f h2 r NC EX E.
  assert (SP : forall a b, split_on "," (a ++ bs "," ++ b) = split_on "," a ++ split_on "," b).
  { clear. intros a b. change (bs "," ++ b) with (","%byte :: b). induction a as [|x a IH]; simpl; [reflexivity|].
    destruct (byte_eqb x ","); [rewrite IH; reflexivity|]. rewrite IH. assert (X := split_on_ne "," a). destruct (split_on "," a); [congruence|reflexivity]. }
  unfold header_from in *. rewrite SP in E. rewrite !SP, (split_on_free "," f NC).
  set (fs1 := split_on "," h1) in *. set (fs2 := split_on "," h2) in *.
  destruct (add_fields umod cap (mk_slots None None None None) (fs1 ++ fs2)) as [s| | |] eqn:A; try discriminate.
  assert (FA : forall n l m, first n (l ++ m) = match first n l with Some v => Some v | None => first n m end).
  { clear. intros n l m. induction l as [|x l IH]; [reflexivity|]. cbn [app first]. destruct (header_field x) as [[k v]|]; [|exact IH]. destruct (bytes_eqb k n); [reflexivity|exact IH]. }
  assert (Z : forall n, In n [bs "certificate"; bs "tree"; bs "version"; bs "expr_path"] -> first n (fs1 ++ [f] ++ fs2) = first n (fs1 ++ fs2)).
  { intros n I. rewrite !FA. destruct (first n fs1) as [v|] eqn:F1; [reflexivity|]. cbn [first].
    destruct (header_field f) as [[m v]|] eqn:HF; [|reflexivity]. destruct (bytes_eqb_spec m n) as [->|]; [|reflexivity].
    apply header_field_says in HF. destruct (EX n v HF) as [X|(g & u & G & S)]; [contradiction|].
    exfalso. exact (proj1 (first_none n fs1) F1 g u G S). }
  assert (A' : add_fields umod cap (mk_slots None None None None) (fs1 ++ [f] ++ fs2) = OOk s).
  { apply add_fields_ok. apply add_fields_ok in A. unfold slots_ok in *. rewrite !Z by (simpl; auto 10). exact A. }
  rewrite A'. exact E.
Qed.
Print Assumptions C45_extra_field_ignored.

(** The version is the decimal number written in the field, up to 255. *)
Lemma fold_ge ds : forall a, a <= fold_left (fun a d => a * 10 + (b2n d - 48)) ds a.
Proof. induction ds as [|d ds IH]; intro a; simpl; [lia|]. specialize (IH (a * 10 + (b2n d - 48))). lia. Qed.
Lemma digits_u8_spec ds : forall a n, a <= 255 -> (digits_u8 ds a = Some n <->
  Forall (fun d => 48 <= b2n d <= 57) ds /\ n = fold_left (fun a d => a * 10 + (b2n d - 48)) ds a /\ n <= 255).
Proof.
  induction ds as [|d ds IH]; intros a n L; cbn [digits_u8 fold_left].
  - split; [intro X; injection X as <-; auto|intros (_ & -> & _); reflexivity].
  - unfold digit. destruct ((48 <=? b2n d) && (b2n d <=? 57)) eqn:D.
    + apply andb_prop in D. destruct D as [D1 D2]. apply N.leb_le in D1, D2.
      destruct (a * 10 + (b2n d - 48) <=? 255) eqn:B; [apply N.leb_le in B|apply N.leb_gt in B].
      * rewrite IH by exact B. split; [intros (F & -> & X); auto|intros (F & -> & X); inversion F; auto].
      * split; [discriminate|]. intros (F & -> & X). assert (G := fold_ge ds (a * 10 + (b2n d - 48))). lia.
    + split; [discriminate|]. intros (F & _). inversion F as [|? ? [A B]]; subst. apply N.leb_le in A, B. rewrite A, B in D. discriminate.
Qed.
Theorem C45_version_is_decimal :
  forall (s : bytes) (n : N), decode_version s = OOk n <-> (exists ds, (s = ds \/ s = bs "+" ++ ds) /\ decimal ds n) /\ n <= 255.
Proof.
  intros s n. unfold decode_version, parse_u8.
  assert (O : forall o, of_opt o = OOk n <-> o = Some n) by (intros [x|]; simpl; split; congruence). rewrite O. clear O.
  assert (K : forall t : bytes, match t with [] => None | _ => digits_u8 t 0 end = Some n <-> decimal t n /\ n <= 255).
  { intro t. unfold decimal. destruct t as [|x t]; [split; [discriminate|intros [[X _] _]; congruence]|].
    rewrite (digits_u8_spec (x :: t) 0 n) by lia. split; [intros (A & B & C); split; [split; [discriminate|auto]|exact C]|intros [(_ & A & B) C]; auto]. }
  rewrite K. split.
  - intros [D L]. split; [|exact L]. exists (drop_opt "+" s). split; [|exact D].
    destruct s as [|x s]; [left; reflexivity|]. simpl. destruct (byte_eqb_spec x "+") as [->|]; auto.
  - intros [(ds & [->| ->] & D) L]; (split; [|exact L]).
    + destruct ds as [|x ds]; [exact D|]. simpl. destruct (byte_eqb_spec x "+") as [->|]; [|exact D].
      exfalso. destruct D as (_ & F & _). inversion F as [|? ? [A _]]; subst. vm_compute in A. congruence.
    + exact D.
Qed.
Print Assumptions C45_version_is_decimal.

(** ** C44 *)
Lemma parse_nil umod cap : cert_from_cbor umod cap [] <> OOk (mk_cert HEmpty [] None) /\ forall c, cert_from_cbor umod cap [] <> OOk c.
Proof. split; [|intro c]; unfold cert_from_cbor, parse_cbor; cbn; discriminate. Qed.
Lemma b64_no c s pad : b64_char c = false -> ~ In c (b64_enc pad s).
Proof. intros N I. assert (F := b64_enc_chars pad (length s) s (le_n _)). rewrite Forall_forall in F. specialize (F c I). congruence. Qed.
Lemma field_says f pre n x : f = pre ++ n ++ bs "=:" ++ x ++ bs ":" -> pre = [] \/ pre = bs " " ->
  (exists b r, n = b :: r /\ lead b = false) -> ~ In "="%byte n -> x <> [] -> ~ In ":"%byte x -> says f n x.
Proof.
  intros -> P (b & r & -> & LB) N X C. exists pre, [], (bs ":"), (bs ":"). 
  split; [destruct P as [->| ->]; [exists []; split; [reflexivity|constructor]|exists [bs " "]; split; [reflexivity|constructor; [vm_compute; auto 10|constructor]]]|].
  split; [exists []; split; [reflexivity|constructor]|]. split; [rewrite app_nil_r; reflexivity|].
  split; [auto|]. split; [auto|]. split; [discriminate|]. split; [exact X|]. split; [exact N|]. split; [exact C|]. split.
  - intros w s I E. assert (NE := proj1 ws_code). rewrite Forall_forall in NE. specialize (NE w I). destruct w as [|a w]; [congruence|].
    cbn [app] in E. injection E as <- _. assert (L : lead b = true) by (unfold lead; apply existsb_exists; exists (b :: w); split; [exact I|apply byte_eqb_refl]). congruence.
  - intros w s I E. assert (NE := proj1 ws_code). rewrite Forall_forall in NE. specialize (NE w I). destruct w as [|a w _] using rev_ind; [congruence|].
    replace ((b :: r) ++ bs "=" ++ bs ":" ++ x ++ bs ":") with (((b :: r) ++ bs "=" ++ bs ":" ++ x) ++ bs ":") in E by (rewrite <- !app_assoc; reflexivity).
    rewrite (app_assoc s w [a]) in E. change (bs ":") with [":"%byte] in E. apply app_inj_tail in E. destruct E as [_ <-].
    assert (Z : forallb (fun v => negb (byte_eqb (last v "a"%byte) ":")) ws_chars = true) by (vm_compute; reflexivity).
    rewrite forallb_forall in Z. specialize (Z _ I). rewrite last_last in Z. discriminate.
Qed.
Lemma version_field : header_field (bs " version=2") = Some (bs "version", bs "2").
Proof. vm_compute. reflexivity. Qed.

(** the text [v2_certificate_header] writes, with any three byte strings, and its fields *)
Definition v2_text (x y z : bytes) : bytes :=
  bs "certificate=:" ++ b64_enc true x ++ bs ":, tree=:" ++ b64_enc true y ++ bs ":, expr_path=:" ++ b64_enc true z ++ bs ":, version=2".
Lemma v2_text_fields x y z : x <> [] -> y <> [] -> z <> [] -> exists f1 f2 f3 f4,
  split_on "," (v2_text x y z) = [f1; f2; f3; f4] /\ header_field f1 = Some (bs "certificate", b64_enc true x) /\
  header_field f2 = Some (bs "tree", b64_enc true y) /\ header_field f3 = Some (bs "expr_path", b64_enc true z) /\
  header_field f4 = Some (bs "version", bs "2").
Proof.
  intros NX NY NZ. unfold v2_text.
  set (X := b64_enc true x). set (Y := b64_enc true y). set (Z := b64_enc true z).
  apply (b64_enc_ne true) in NX, NY, NZ. fold X in NX. fold Y in NY. fold Z in NZ.
  assert (CX : ~ In ":"%byte X) by (apply b64_no; reflexivity). assert (CY : ~ In ":"%byte Y) by (apply b64_no; reflexivity). assert (CZ : ~ In ":"%byte Z) by (apply b64_no; reflexivity).
  assert (KX : ~ In ","%byte X) by (apply b64_no; reflexivity). assert (KY : ~ In ","%byte Y) by (apply b64_no; reflexivity). assert (KZ : ~ In ","%byte Z) by (apply b64_no; reflexivity).
  set (f1 := [] ++ bs "certificate" ++ bs "=:" ++ X ++ bs ":"). set (f2 := bs " " ++ bs "tree" ++ bs "=:" ++ Y ++ bs ":").
  set (f3 := bs " " ++ bs "expr_path" ++ bs "=:" ++ Z ++ bs ":").
  assert (NC : forall p x, ~ In ","%byte p -> ~ In ","%byte x -> ~ In ","%byte (p ++ x ++ bs ":")).
  { intros p u A B I. apply in_app_or in I. destruct I as [I|I]; [auto|]. apply in_app_or in I. destruct I as [I|I]; [auto|]. destruct I as [I|[]]. discriminate. }
  assert (E : bs "certificate=:" ++ X ++ bs ":, tree=:" ++ Y ++ bs ":, expr_path=:" ++ Z ++ bs ":, version=2" =
    f1 ++ ","%byte :: f2 ++ ","%byte :: f3 ++ ","%byte :: bs " version=2").
  { unfold f1, f2, f3. rewrite <- !app_assoc. reflexivity. }
  rewrite E.
  assert (D1 : ~ In ","%byte f1).
  { unfold f1. rewrite !app_assoc, <- app_assoc. apply (NC (([] ++ bs "certificate") ++ bs "=:")); [|exact KX]. vm_compute. intuition discriminate. }
  assert (D2 : ~ In ","%byte f2).
  { unfold f2. rewrite !app_assoc, <- app_assoc. apply (NC ((bs " " ++ bs "tree") ++ bs "=:")); [|exact KY]. vm_compute. intuition discriminate. }
  assert (D3 : ~ In ","%byte f3).
  { unfold f3. rewrite !app_assoc, <- app_assoc. apply (NC ((bs " " ++ bs "expr_path") ++ bs "=:")); [|exact KZ]. vm_compute. intuition discriminate. }
  rewrite (split_on_app "," f1) by exact D1. rewrite (split_on_app "," f2) by exact D2. rewrite (split_on_app "," f3) by exact D3.
  rewrite (split_on_free "," (bs " version=2")) by (vm_compute; intuition discriminate).
  exists f1, f2, f3, (bs " version=2"). split; [reflexivity|]. split; [|split; [|split; [|exact version_field]]].
  - apply header_field_says. eapply field_says; [reflexivity|auto|exists "c"%byte, (bs "ertificate"); split; reflexivity|vm_compute; intuition discriminate|exact NX|exact CX].
  - apply header_field_says. eapply field_says; [reflexivity|auto|exists "t"%byte, (bs "ree"); split; reflexivity|vm_compute; intuition discriminate|exact NY|exact CY].
  - apply header_field_says. eapply field_says; [reflexivity|auto|exists "e"%byte, (bs "xpr_path"); split; reflexivity|vm_compute; intuition discriminate|exact NZ|exact CZ].
Qed.
Lemma v2_text_reads umod cap x y z c w ep : cert_from_cbor umod cap x = OOk c -> tree_from_cbor umod cap y = OOk w -> strings_from_cbor umod cap z = OOk ep ->
  header_from umod cap (v2_text x y z) = OOk (mk_header c w 2 (Some ep)).
Proof.
  intros DX DY DZ.
  destruct (v2_text_fields x y z) as (f1 & f2 & f3 & f4 & SP & S1 & S2 & S3 & S4).
  { intros ->. exact (proj2 (parse_nil umod cap) c DX). }
  { intros ->. discriminate DY. }
  { intros ->. discriminate DZ. }
  assert (T1 : decode_certificate umod cap (b64_enc true x) = OOk c). { unfold decode_certificate. rewrite (proj1 (C43_base64_round_trip _)). exact DX. }
  assert (T2 : decode_tree umod cap (b64_enc true y) = OOk w). { unfold decode_tree. rewrite (proj1 (C43_base64_round_trip _)). exact DY. }
  assert (T3 : decode_expr_path umod cap (b64_enc true z) = OOk ep). { unfold decode_expr_path. rewrite (proj1 (C43_base64_round_trip _)). exact DZ. }
  unfold header_from. rewrite SP. clear SP. cbn [add_fields]. unfold add_field at 1. rewrite S1. change (bytes_eqb (bs "certificate") (bs "certificate")) with true. cbn [fill s_cert s_tree s_version s_path]. rewrite T1. cbn [out_bind].
  unfold add_field at 1. rewrite S2. change (bytes_eqb (bs "tree") (bs "certificate")) with false. change (bytes_eqb (bs "tree") (bs "tree")) with true. cbn [fill s_cert s_tree s_version s_path]. rewrite T2. cbn [out_bind].
  unfold add_field at 1. rewrite S3. change (bytes_eqb (bs "expr_path") (bs "certificate")) with false. change (bytes_eqb (bs "expr_path") (bs "tree")) with false.
  change (bytes_eqb (bs "expr_path") (bs "version")) with false. change (bytes_eqb (bs "expr_path") (bs "expr_path")) with true. cbn [fill s_cert s_tree s_version s_path]. rewrite T3. cbn [out_bind].
  unfold add_field at 1. rewrite S4. change (bytes_eqb (bs "version") (bs "certificate")) with false. change (bytes_eqb (bs "version") (bs "tree")) with false. change (bytes_eqb (bs "version") (bs "version")) with true.
  cbn [fill s_cert s_tree s_version s_path]. change (decode_version (bs "2")) with (OOk 2). reflexivity.
Qed.

(** C44 *)
Theorem C44_certificate_header_round_trip :
  forall (umod cap_max : N) (data_certificate : bytes) (c : certificate) (w : htree) (expr_path : list bytes),
  32 < umod <= 2 ^ 64 ->
  cert_from_cbor umod cap_max data_certificate = OOk c ->
  CborSpec.hashes32 w -> Forall (short umod) (strings_of w) ->
  Forall (fun s => utf8_valid s = true /\ short umod s) expr_path -> N.of_nat (length expr_path) < umod ->
  header_from umod cap_max (v2_certificate_header data_certificate w expr_path) = OOk (mk_header c w 2 (Some expr_path)).
Proof.
  intros umod cap dc c w ep U DC HW SW SE LE. apply (v2_text_reads umod cap dc (self_describe ++ enc_tree w) (self_describe ++ enc_strings ep)).
  - exact DC.
  - apply C20_hash_tree_cbor_round_trip; assumption.
  - destruct U as [U1 U2]. destruct (strings_roundtrip umod cap U2 ep SE LE) as [Q1 Q2]. unfold strings_from_cbor.
    rewrite (encodes_parse umod cap _ _ (encodes_self umod cap _ _ Q1)). exact Q2.
Qed.
Print Assumptions C44_certificate_header_round_trip.

(** ** Concrete cases *)
Example ex_says : says (bs "  tree = ") (bs "tree ") (bs " x") -> False.
Proof. intro S. apply header_field_says in S. vm_compute in S. discriminate. Qed.
Example ex_says2 : says (bs " tree=:AQID: ") (bs "tree") (bs "AQID").
Proof. apply header_field_says. vm_compute. reflexivity. Qed.
(** duplicate "version", unknown field: accepted with the first version *)
Example ex_header :
  header_from (2 ^ 64) (2 ^ 60) (bs "version=7, foo=:%%:, certificate=:" ++ b64_enc false (enc_cert (mk_cert (HLeaf (bs "x")) (bs "s") None)) ++
     bs ":,tree=" ++ b64_enc true (enc_tree HEmpty) ++ bs ",version=oops") = OOk (mk_header (mk_cert (HLeaf (bs "x")) (bs "s") None) HEmpty 7 None).
Proof. vm_compute. reflexivity. Qed.
