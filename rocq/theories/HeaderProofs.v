(** Proofs about the certificate header parser. *)
From Coq Require Import List Arith NArith Lia Bool.
From Verif Require Import Bytes Text HashTree Cbor Base64 Header HeaderSpec.
Import ListNotations.

Lemma strip_prefix_spec p : forall s t, strip_prefix p s = Some t <-> s = p ++ t.
Proof.
  induction p as [|a p IH]; intros s t.
  - simpl. split; [intro X; injection X as ->; reflexivity|intros ->; reflexivity].
  - destruct s as [|b s]; simpl; [split; discriminate|]. destruct (byte_eqb_spec a b) as [->|N].
    + rewrite IH. split; [intros ->; reflexivity|intro X; injection X as ->; reflexivity].
    + split; [discriminate|]. intro X. injection X as X _. congruence.
Qed.
Lemma strip_any_some ps : forall s t, strip_any ps s = Some t -> exists w, In w ps /\ s = w ++ t.
Proof.
  induction ps as [|p ps IH]; intros s t; simpl; [discriminate|]. destruct (strip_prefix p s) as [u|] eqn:E.
  - intro X; injection X as ->. apply strip_prefix_spec in E. exists p. auto.
  - intro X. apply IH in X. destruct X as (w & A & B). eauto.
Qed.
Lemma strip_any_none ps s : strip_any ps s = None <-> forall w t, In w ps -> s <> w ++ t.
Proof.
  induction ps as [|p ps IH]; simpl; [split; [intros _ w t []|reflexivity]|].
  destruct (strip_prefix p s) as [u|] eqn:E.
  - apply strip_prefix_spec in E. split; [discriminate|]. intro X. exfalso. exact (X p u (or_introl eq_refl) E).
  - rewrite IH. split.
    + intros X w t [<-|I] EQ; [|exact (X w t I EQ)]. apply strip_prefix_spec in EQ. congruence.
    + intros X w t I. apply X. auto.
Qed.
Lemma app_comparable {A} (a b c d : list A) : a ++ b = c ++ d -> (exists x, a = c ++ x) \/ (exists x, c = a ++ x).
Proof.
  revert c. induction a as [|x a IH]; intros c E; [right; exists c; reflexivity|].
  destruct c as [|y c]; [left; exists (x :: a); reflexivity|]. injection E as -> E. destruct (IH c E) as [(z & ->)|(z & ->)]; [left|right]; exists z; reflexivity.
Qed.
Definition code (ps : list bytes) : Prop :=
  Forall (fun w => w <> []) ps /\ forall p w s, In p ps -> In w ps -> w = p ++ s -> s = [].
Lemma strip_any_code ps w t : code ps -> In w ps -> strip_any ps (w ++ t) = Some t.
Proof.
  intros [_ C] I. destruct (strip_any ps (w ++ t)) as [u|] eqn:E.
  - apply strip_any_some in E. destruct E as (p & P & E). destruct (app_comparable _ _ _ _ E) as [(x & X)|(x & X)].
    + assert (Z := C p w x P I X). subst x. rewrite app_nil_r in X. subst p. apply app_inv_head in E. congruence.
    + assert (Z := C w p x I P X). subst x. rewrite app_nil_r in X. subst p. apply app_inv_head in E. congruence.
  - exfalso. rewrite strip_any_none in E. exact (E w t I eq_refl).
Qed.
Lemma trim_with_code ps : code ps -> forall l t fuel, Forall (fun w => In w ps) l -> strip_any ps t = None ->
  (length l <= fuel)%nat -> trim_with ps fuel (concat l ++ t) = t.
Proof.
  intros C l. induction l as [|w l IH]; intros t fuel F N L.
  - simpl. destruct fuel; simpl; [reflexivity|]. rewrite N. reflexivity.
  - inversion F; subst. destruct fuel as [|fuel]; [simpl in L; lia|]. cbn [trim_with concat]. rewrite <- app_assoc, strip_any_code by assumption.
    apply IH; auto. simpl in L. lia.
Qed.
Lemma concat_length_ge ps (l : list bytes) : Forall (fun w => w <> []) ps -> Forall (fun w => In w ps) l -> (length l <= length (concat l))%nat.
Proof.
  intros N. induction 1 as [|w l I F IH]; [simpl; lia|]. simpl. rewrite app_length. rewrite Forall_forall in N. specialize (N w I).
  destruct w; [congruence|]. simpl. lia.
Qed.
Lemma trim_with_split ps : code ps -> forall fuel s, (length s <= fuel)%nat -> exists l, Forall (fun w => In w ps) l /\
  s = concat l ++ trim_with ps fuel s /\ strip_any ps (trim_with ps fuel s) = None.
Proof.
  intros [NE C]. induction fuel as [|fuel IH]; intros s L.
  - destruct s; [|simpl in L; lia]. exists []. split; [constructor|]. split; [reflexivity|]. simpl. apply strip_any_none.
    intros w t I E. rewrite Forall_forall in NE. specialize (NE w I). destruct w; [congruence|discriminate].
  - cbn [trim_with]. destruct (strip_any ps s) as [t|] eqn:E.
    + apply strip_any_some in E. destruct E as (w & I & ->). rewrite Forall_forall in NE. assert (Nw := NE w I).
      destruct (IH t) as (l & F & E & N).
      { rewrite app_length in L. destruct w; [congruence|]. simpl in L. lia. }
      exists (w :: l). split; [constructor; assumption|]. split; [|exact N]. simpl. rewrite <- app_assoc, <- E. reflexivity.
    + exists []. split; [constructor|]. split; [reflexivity|exact E].
Qed.
Definition code_b (ps : list bytes) : bool :=
  forallb (fun w => negb (bytes_eqb w [])) ps &&
  forallb (fun p => forallb (fun w => match strip_prefix p w with Some (_ :: _) => false | _ => true end) ps) ps.
Lemma code_b_ok ps : code_b ps = true -> code ps.
Proof.
  intro E. apply andb_prop in E. destruct E as [A B]. split.
  - apply Forall_forall. intros w I ->. rewrite forallb_forall in A. specialize (A [] I). discriminate.
  - intros p w s P I ->. rewrite forallb_forall in B. specialize (B p P). rewrite forallb_forall in B. specialize (B _ I).
    assert (X : strip_prefix p (p ++ s) = Some s) by (apply strip_prefix_spec; reflexivity). rewrite X in B. destruct s; [reflexivity|discriminate].
Qed.
Lemma ws_code : code ws_chars. Proof. apply code_b_ok. vm_compute. reflexivity. Qed.
Lemma rev_ws_code : code (map (@rev byte) ws_chars). Proof. apply code_b_ok. vm_compute. reflexivity. Qed.
(** a byte that starts a white-space character never continues one *)
Definition lead (b : byte) : bool := existsb (fun w => match w with a :: _ => byte_eqb a b | [] => false end) ws_chars.
Lemma lead_only : forall w a r b, In w ws_chars -> w = a :: r -> In b r -> lead b = false.
Proof.
  assert (A : forallb (fun w => match w with _ :: r => forallb (fun b => negb (lead b)) r | [] => true end) ws_chars = true) by (vm_compute; reflexivity).
  intros w a r b I -> B. rewrite forallb_forall in A. specialize (A _ I). cbv beta iota in A. rewrite forallb_forall in A. specialize (A b B).
  destruct (lead b); [discriminate|reflexivity].
Qed.
Lemma blank_cases s : blank s -> s = [] \/ exists b r, s = b :: r /\ lead b = true.
Proof.
  intros (l & -> & F). destruct l as [|w l]; [left; reflexivity|]. inversion F; subst. right.
  assert (N := proj1 ws_code). rewrite Forall_forall in N. specialize (N w H1). destruct w as [|b w]; [congruence|].
  exists b, (w ++ concat l). split; [reflexivity|]. unfold lead. apply existsb_exists. exists (b :: w). split; [assumption|apply byte_eqb_refl].
Qed.
(** appending white space does not create a white-space character at the front *)
Lemma no_ws_front g b : g <> [] -> blank b -> strip_any ws_chars g = None -> strip_any ws_chars (g ++ b) = None.
Proof.
  intros G B N. apply strip_any_none. intros w t I E. rewrite strip_any_none in N.
  destruct (app_comparable _ _ _ _ E) as [(x & X)|(x & X)]; [exact (N w x I X)|].
  destruct x as [|y x]; [rewrite app_nil_r in X; apply (N w [] I); rewrite app_nil_r; congruence|].
  subst w. rewrite <- app_assoc in E. apply app_inv_head in E. destruct (blank_cases b B) as [->|(z & r & -> & LD)]; [discriminate|].
  injection E as -> _. destruct g as [|a g]; [congruence|].
  assert (L := lead_only _ a (g ++ y :: x) y I eq_refl ltac:(apply in_or_app; right; left; reflexivity)). congruence.
Qed.
Lemma concat_rev_map (l : list bytes) : rev (concat l) = concat (map (@rev byte) (rev l)).
Proof.
  induction l as [|w l IH]; [reflexivity|]. simpl. rewrite rev_app_distr, IH, map_app, concat_app. simpl. rewrite app_nil_r. reflexivity.
Qed.
Lemma suffix_none g : strip_any (map (@rev byte) ws_chars) (rev g) = None <-> forall w s, In w ws_chars -> g <> s ++ w.
Proof.
  rewrite strip_any_none. split.
  - intros X w s I ->. apply (X (rev w) (rev s)); [apply in_map; exact I|]. apply rev_app_distr.
  - intros X w t I E. apply in_map_iff in I. destruct I as (u & <- & I). apply (X u (rev t) I).
    apply (f_equal (@rev byte)) in E. rewrite rev_involutive, rev_app_distr, rev_involutive in E. exact E.
Qed.

Lemma trim_spec f g : g <> [] ->
  (trim f = g <-> exists a b, blank a /\ blank b /\ f = a ++ g ++ b /\
     (forall w s, In w ws_chars -> g <> w ++ s) /\ (forall w s, In w ws_chars -> g <> s ++ w)).
Proof.
  intro G. split.
  - intro E. unfold trim in E.
    destruct (trim_with_split ws_chars ws_code (length f) f (le_n _)) as (la & Fa & Ea & Na).
    set (s1 := trim_with ws_chars (length f) f) in *.
    destruct (trim_with_split _ rev_ws_code (length s1) (rev s1) ltac:(rewrite rev_length; lia)) as (lb & Fb & Eb & Nb).
    set (s2 := trim_with (map (@rev byte) ws_chars) (length s1) (rev s1)) in *.
    assert (Es : s1 = g ++ rev (concat lb)).
    { rewrite <- (rev_involutive s1), Eb, rev_app_distr, E. reflexivity. }
    exists (concat la), (rev (concat lb)). split; [exists la; auto|]. split.
    + exists (map (@rev byte) (rev lb)). split; [apply concat_rev_map|]. apply Forall_forall. intros w I. apply in_map_iff in I. destruct I as (u & <- & I).
      apply in_rev in I. rewrite Forall_forall in Fb. specialize (Fb u I). apply in_map_iff in Fb. destruct Fb as (x & <- & Fb). rewrite rev_involutive. exact Fb.
    + split; [rewrite Ea, Es at 1; reflexivity|]. split.
      * intros w s I X. rewrite strip_any_none in Na. apply (Na w (s ++ rev (concat lb)) I). rewrite Es, X, <- app_assoc. reflexivity.
      * apply suffix_none. rewrite <- E, rev_involutive. exact Nb.
  - intros (a & b & (la & -> & Fa) & Bb & -> & P & S).
    assert (Pn : strip_any ws_chars g = None) by (apply strip_any_none; exact P).
    unfold trim. rewrite (trim_with_code ws_chars ws_code la (g ++ b)); [|exact Fa|apply no_ws_front; assumption|].
    2:{ rewrite app_length. assert (X := concat_length_ge ws_chars la (proj1 ws_code) Fa). lia. }
    destruct Bb as (lb & -> & Fb). rewrite rev_app_distr, concat_rev_map.
    rewrite (trim_with_code _ rev_ws_code).
    + apply rev_involutive.
    + apply Forall_forall. intros w I. apply in_map_iff in I. destruct I as (u & <- & I). apply in_rev in I. apply in_map. rewrite Forall_forall in Fb. auto.
    + apply suffix_none. exact S.
    + rewrite map_length, rev_length, app_length. assert (X := concat_length_ge ws_chars lb (proj1 ws_code) Fb). lia.
Qed.

Lemma until_spec c s a b : until c s = Some (a, b) <-> s = a ++ c :: b /\ ~ In c a.
Proof.
  revert a. induction s as [|x s IH]; intro a; simpl; [split; [discriminate|intros [E _]; destruct a; discriminate]|].
  destruct (byte_eqb_spec x c) as [->|N].
  - split; [intro X; injection X as <- <-; split; [reflexivity|intros []]|]. intros [E I]. destruct a as [|y a]; [injection E as ->; reflexivity|].
    injection E as -> _. exfalso. apply I. left. reflexivity.
  - destruct (until c s) as [[u v]|] eqn:E; simpl.
    + split.
      * intro X. injection X as <- <-. destruct (proj1 (IH u) eq_refl) as [-> I]. split; [reflexivity|]. intros [->|X]; auto.
      * intros [X I]. destruct a as [|y a]; [injection X as -> _; congruence|]. injection X as <- X.
        assert (Y : Some (u, v) = Some (a, b)) by (apply IH; split; [exact X|intro Z; apply I; right; exact Z]). injection Y as -> ->. reflexivity.
    + split; [discriminate|]. intros [X I]. destruct a as [|y a]; [injection X as -> _; congruence|]. injection X as <- X.
      assert (Y : None = Some (a, b)) by (apply IH; split; [exact X|intro Z; apply I; right; exact Z]). discriminate.
Qed.
Lemma take_while_spec c s a b : take_while_not c s = (a, b) <-> s = a ++ b /\ ~ In c a /\ (b = [] \/ exists r, b = c :: r).
Proof.
  revert a. induction s as [|x s IH]; intro a; simpl.
  - split; [intro X; injection X as <- <-; auto|]. intros (E & _ & _). destruct a; [|discriminate]. simpl in E. subst. reflexivity.
  - destruct (byte_eqb_spec x c) as [->|N].
    + split; [intro X; injection X as <- <-; split; [reflexivity|split; [intros []|right; eauto]]|].
      intros (E & I & _). destruct a as [|y a]; [simpl in E; subst; reflexivity|]. injection E as -> _. exfalso; apply I; left; reflexivity.
    + destruct (take_while_not c s) as [u v] eqn:E. split.
      * intro X. injection X as <- <-. destruct (proj1 (IH u) eq_refl) as (-> & I & Q). split; [reflexivity|]. split; [|exact Q]. intros [->|X]; auto.
      * intros (X & I & Q). destruct a as [|y a].
        -- simpl in X. subst b. destruct Q as [Q|[r Q]]; [discriminate|]. injection Q as -> _. congruence.
        -- injection X as <- X. assert (Y : (u, v) = (a, b)) by (apply IH; split; [exact X|split; [intro Z; apply I; right; exact Z|exact Q]]). injection Y as -> ->. reflexivity.
Qed.

Definition name_value (n l v r : bytes) : bytes := n ++ bs "=" ++ l ++ v ++ r.
Theorem header_field_says f n v : header_field f = Some (n, v) <-> says f n v.
Proof.
  unfold header_field. split.
  - destruct (until "=" (trim f)) as [[name i]|] eqn:U; [|discriminate]. destruct (take_while_not ":" (drop_opt ":" i)) as [value i2] eqn:T.
    destruct (drop_opt ":" i2) eqn:D; [|discriminate]. destruct name as [|n0 n1] eqn:En; [discriminate|]. destruct value as [|v0 v1] eqn:Ev; [discriminate|].
    intro X; injection X as <- <-. rewrite <- En, <- Ev in *. apply until_spec in U. destruct U as [U NE].
    apply take_while_spec in T. destruct T as (T & NC & Q).
    assert (I2 : i2 = [] \/ i2 = bs ":").
    { destruct Q as [->|[r ->]]; [left; reflexivity|right]. simpl in D. subst r. reflexivity. }
    assert (L : exists l, (l = [] \/ l = bs ":") /\ i = l ++ drop_opt ":" i).
    { destruct i as [|x i']; [exists []; auto|]. simpl. destruct (byte_eqb_spec x ":") as [->|]; [exists (bs ":"); auto|exists []; auto]. }
    destruct L as (l & Ll & Ei). rewrite T in Ei.
    assert (G : trim f = name ++ bs "=" ++ l ++ value ++ i2) by (rewrite U, Ei; reflexivity).
    assert (GN : name ++ bs "=" ++ l ++ value ++ i2 <> []) by (rewrite En; discriminate).
    destruct (proj1 (trim_spec f _ GN) G) as (a & b & Ba & Bb & E & P & S).
    exists a, b, l, i2. repeat split; auto; congruence.
  - intros (a & b & l & r & Ba & Bb & E & Ll & Lr & Nn & Nv & NE & NC & P & S).
    assert (G : trim f = name_value n l v r) by (apply trim_spec; [destruct n; [congruence|discriminate]|]; exists a, b; auto).
    unfold name_value in G. rewrite G.
    assert (U : until "=" (n ++ bs "=" ++ l ++ v ++ r) = Some (n, l ++ v ++ r)) by (apply until_spec; auto). rewrite U.
    assert (D : drop_opt ":" (l ++ v ++ r) = v ++ r).
    { destruct Ll as [->| ->]; [|reflexivity]. simpl. destruct v as [|x v]; [congruence|]. simpl. destruct (byte_eqb_spec x ":") as [->|]; [exfalso; apply NC; left; reflexivity|reflexivity]. }
    rewrite D. assert (T : take_while_not ":" (v ++ r) = (v, r)).
    { apply take_while_spec. split; [reflexivity|]. split; [exact NC|]. destruct Lr as [->| ->]; [auto|right; exists []; reflexivity]. }
    rewrite T. assert (DR : drop_opt ":" r = []) by (destruct Lr as [->| ->]; reflexivity). rewrite DR.
    destruct n; [congruence|]. destruct v; [congruence|]. reflexivity.
Qed.
