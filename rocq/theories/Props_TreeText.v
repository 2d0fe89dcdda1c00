(** C151: the debug text of hash trees. *)
From Coq Require Import List NArith Bool Lia.
From Verif Require Import Bytes Toy Utf8 HashTree HashTreeSpec Serde SerdeSpec HeaderSpec Props_Header Props_Range Labels Props_Labels AssetRouter JsonText Messages Props_Messages TreeText.
Import ListNotations.
Local Open Scope N_scope.

(** ** Specification *)
(** [s] writes the bytes [v] in lower-case hexadecimal *)
Definition low_hex (s v : bytes) : Prop := writes_hex s v /\ Forall (fun c => In c (bs "0123456789abcdef")) s.
(** [s] is what is shown for the bytes [v] *)
Inductive shown_as (v : bytes) : bytes -> Prop :=
| ShownText : Forall graphic v -> shown_as v v
| ShownHex h : ~ Forall graphic v -> (length v <= 32)%nat -> low_hex h v -> shown_as v (bs "0x" ++ h)
| ShownLength : ~ Forall graphic v -> (32 < length v)%nat -> shown_as v (dec (N.of_nat (length v)) ++ bs " bytes").
Definition look_alike (a b : bytes) : Prop := exists s, shown_as a s /\ shown_as b s.
(** the same tree, up to labels and values that are shown alike *)
Inductive alike : htree -> htree -> Prop :=
| AlikeEmpty : alike HEmpty HEmpty
| AlikeFork l l' r r' : alike l l' -> alike r r' -> alike (HFork l r) (HFork l' r')
| AlikeLabeled k k' t t' : look_alike k k' -> alike t t' -> alike (HLabeled k t) (HLabeled k' t')
| AlikeLeaf v v' : look_alike v v' -> alike (HLeaf v) (HLeaf v')
| AlikePruned h : alike (HPruned h) (HPruned h).

(** ** What is shown for a byte string *)
Lemma hex_encode_low v : low_hex (hex_encode v) v.
Proof.
  split.
  - induction v as [|b v IH]; [constructor|]. cbn [hex_encode flat_map app].
    assert (L1 : b2n b / 16 < 16) by (assert (X := b2n_lt b); apply N.div_lt_upper_bound; lia). assert (L2 : b2n b mod 16 < 16) by (apply N.mod_lt; lia).
    apply (WByte _ _ (b2n b / 16) (b2n b mod 16)); [| |apply N.div_mod; lia|exact IH].
    + unfold digit_of. clear - L1. generalize dependent (b2n b / 16). intros n L. assert (I : In n [0;1;2;3;4;5;6;7;8;9;10;11;12;13;14;15]) by (cbn; lia). repeat (destruct I as [<-|I]; [vm_compute; tauto|]). destruct I.
    + unfold digit_of. clear - L2. generalize dependent (b2n b mod 16). intros n L. assert (I : In n [0;1;2;3;4;5;6;7;8;9;10;11;12;13;14;15]) by (cbn; lia). repeat (destruct I as [<-|I]; [vm_compute; tauto|]). destruct I.
  - apply Forall_forall. intros c I. apply in_flat_map in I. destruct I as (b & _ & I). destruct b; vm_compute in I; destruct I as [<-|[<-|[]]]; vm_compute; tauto.
Qed.
Lemma digit_low a b x : digit_of a x -> digit_of b x -> In a (bs "0123456789abcdef") -> In b (bs "0123456789abcdef") -> a = b.
Proof. intros D D' I I'. apply hex_val_iff in D, D'. vm_compute in I. repeat (destruct I as [<-|I]; [vm_compute in D; injection D as <-; vm_compute in I'; repeat (destruct I' as [<-|I']; [first [reflexivity|discriminate D']|]); destruct I'|]). destruct I. Qed.
Lemma low_hex_fun v s s' : low_hex s v -> low_hex s' v -> s = s'.
Proof.
  intros [W F] [W' F']. revert s' W' F'. induction W as [|a b x y z s h D1 D2 Z W IH]; intros s' W' F'; inversion W' as [|a' b' x' y' z' t h' D1' D2' Z' V]; subst; [reflexivity|].
  assert (L1 := digit_small _ _ D1). assert (L2 := digit_small _ _ D2). assert (L1' := digit_small _ _ D1'). assert (L2' := digit_small _ _ D2').
  assert (x' = x /\ y' = y) as [-> ->] by lia. inversion F as [|? ? F1 F2]; subst. inversion F2 as [|? ? F3 F4]; subst. inversion F' as [|? ? G1 G2]; subst. inversion G2 as [|? ? G3 G4]; subst.
  rewrite (digit_low _ _ _ D1 D1' F1 G1), (digit_low _ _ _ D2 D2' F3 G3), (IH F4 t V G4). reflexivity.
Qed.
Lemma readable_shown v s : readable_print v = s <-> shown_as v s.
Proof.
  assert (K : shown_as v (readable_print v)).
  { unfold readable_print. destruct (forallb ascii_graphic v) eqn:E.
    - apply graphic_iff in E. rewrite (graphic_utf8 v E). cbn [andb]. constructor. exact E.
    - rewrite andb_false_r. assert (N : ~ Forall graphic v) by (intro F; apply graphic_iff in F; congruence).
      destruct (N.of_nat (length v) <=? 32) eqn:L; [apply N.leb_le in L|apply N.leb_gt in L].
      + apply ShownHex; [exact N|lia|apply hex_encode_low].
      + apply ShownLength; [exact N|lia]. }
  split; [intros <-; exact K|]. intro S. destruct K as [F|h N L W|N L]; inversion S as [F' E|h' N' L' W' E|N' L' E]; subst; try contradiction; try lia; try reflexivity.
  rewrite (low_hex_fun _ _ _ W W'). reflexivity.
Qed.
Lemma look_alike_iff a b : look_alike a b <-> readable_print a = readable_print b.
Proof.
  split.
  - intros (s & A & B). apply readable_shown in A, B. congruence.
  - intro E. exists (readable_print b). split; apply readable_shown; [exact E|reflexivity].
Qed.
Lemma hex_encode_inj a b : hex_encode a = hex_encode b -> a = b.
Proof.
  intro E. assert (A := proj1 (hex_encode_low a)). assert (B := proj1 (hex_encode_low b)). rewrite E in A. clear E. revert a A.
  induction B as [|c d x y z s h D1 D2 Z W IH]; intros a A; inversion A as [|c' d' x' y' z' s' h' D1' D2' Z' W']; subst; [reflexivity|].
  apply hex_val_iff in D1, D2, D1', D2'. assert (x' = x) by congruence. assert (y' = y) by congruence. subst. f_equal; [apply b2n_inj; congruence|apply IH; assumption].
Qed.

(** ** Reading the text back *)
Definition nospace (w : bytes) : Prop := ~ In " "%byte w.
Lemma cut_space w : forall w' r r', nospace w -> nospace w' -> w ++ " "%byte :: r = w' ++ " "%byte :: r' -> w = w' /\ r = r'.
Proof.
  induction w as [|a w IH]; intros [|b w'] r r' N N' E; cbn [app] in E.
  - injection E as E. auto.
  - exfalso. injection E as <- _. apply N'. left. reflexivity.
  - exfalso. injection E as -> _. apply N. left. reflexivity.
  - injection E as -> E. apply IH in E; [destruct E as [-> ->]; auto|intro I; apply N; right; exact I|intro I; apply N'; right; exact I].
Qed.
Lemma nospace_app a b : nospace a -> nospace b -> nospace (a ++ b).
Proof. intros A B I. apply in_app_or in I. destruct I as [I|I]; [exact (A I)|exact (B I)]. Qed.
Lemma digits_nospace n : nospace (dec n).
Proof. intro I. assert (F := dec_digits n). rewrite Forall_forall in F. specialize (F _ I). vm_compute in F. destruct F as [F _]. exact (F eq_refl). Qed.
Lemma hex_nospace v : nospace (hex_encode v).
Proof. intro I. destruct (hex_encode_low v) as [_ F]. rewrite Forall_forall in F. specialize (F _ I). vm_compute in F. repeat (destruct F as [F|F]; [discriminate F|]). destruct F. Qed.
Lemma readable_cases v : nospace (readable_print v) \/ exists n, readable_print v = dec n ++ " "%byte :: bs "bytes".
Proof.
  destruct (proj1 (readable_shown v _) eq_refl) as [F|h N L W|N L].
  - left. intro I. rewrite Forall_forall in F. specialize (F _ I). vm_compute in F. destruct F as [F _]. exact (F eq_refl).
  - left. rewrite (low_hex_fun _ _ _ W (hex_encode_low v)). apply nospace_app; [intro I; vm_compute in I; intuition discriminate|apply hex_nospace].
  - right. eexists. reflexivity.
Qed.
Lemma readable_text v : text (readable_print v).
Proof.
  unfold text. destruct (proj1 (readable_shown v _) eq_refl) as [F|h N L W|N L].
  - apply graphic_utf8. exact F.
  - apply graphic_utf8. apply Forall_app. split; [repeat constructor; vm_compute; discriminate|]. destruct W as [_ F]. eapply Forall_impl; [|exact F]. intros c I. vm_compute in I. repeat (destruct I as [<-|I]; [split; vm_compute; discriminate|]). destruct I.
  - apply ascii_utf8. unfold is_ascii. rewrite forallb_app. apply andb_true_iff. split; [|vm_compute; reflexivity]. apply forallb_forall. intros c I. assert (F := dec_digits (N.of_nat (length v))). rewrite Forall_forall in F. specialize (F c I). apply N.ltb_lt. lia.
Qed.
(** [y]: what closes the parentheses up to the next space *)
Lemma readable_cut v v' y x x' : nospace y -> readable_print v ++ ")"%byte :: y ++ " "%byte :: x = readable_print v' ++ ")"%byte :: y ++ " "%byte :: x' -> readable_print v = readable_print v' /\ x = x'.
Proof.
  intros NY E. assert (NY' : nospace (")"%byte :: y)) by (intros [Z|Z]; [discriminate Z|exact (NY Z)]).
  assert (NP : forall n w z, dec n = w ++ ")"%byte :: z -> False).
  { intros n w z Q. assert (F := dec_digits n). rewrite Q in F. apply Forall_app in F. destruct F as [_ F]. apply Forall_inv in F. vm_compute in F. destruct F as [F _]. exact (F eq_refl). }
  change (")"%byte :: y ++ " "%byte :: x) with ((")"%byte :: y) ++ " "%byte :: x) in E. change (")"%byte :: y ++ " "%byte :: x') with ((")"%byte :: y) ++ " "%byte :: x') in E. rewrite !app_assoc in E.
  destruct (readable_cases v) as [W|(n & W)]; destruct (readable_cases v') as [W'|(n' & W')].
  - apply cut_space in E; [|apply nospace_app; assumption|apply nospace_app; assumption]. destruct E as [E ->]. apply app_inv_tail in E. auto.
  - exfalso. rewrite W' in E. rewrite <- (app_assoc (dec n' ++ _)), <- (app_assoc (dec n')) in E. cbn [app] in E. apply cut_space in E; [|apply nospace_app; assumption|apply digits_nospace]. destruct E as [E _]. symmetry in E. exact (NP _ _ _ E).
  - exfalso. rewrite W in E. rewrite <- (app_assoc (dec n ++ _)), <- (app_assoc (dec n)) in E. cbn [app] in E. apply cut_space in E; [|apply digits_nospace|apply nospace_app; assumption]. destruct E as [E _]. exact (NP _ _ _ E).
  - rewrite W, W' in *. rewrite <- !app_assoc in E. cbn [app] in E. apply cut_space in E; [|apply digits_nospace|apply digits_nospace]. destruct E as [-> E]. split; [reflexivity|].
    repeat (injection E as E). apply app_inv_head in E. injection E as E. exact E.
Qed.
Section Text.
  Variable plain : N -> bool.
  Notation nd := (node_debug plain).
  Lemma node_cut t : forall t' y x x', nospace y -> nd t ++ y ++ " "%byte :: x = nd t' ++ y ++ " "%byte :: x' -> alike t t' /\ x = x'.
  Proof.
    induction t as [|l IHl r IHr|k n IH|v|h]; intros [|l' r'|k' n'|v'|h'] y x x' NY E; cbn [node_debug] in E; rewrite <- ?app_assoc in E; try discriminate E.
    - apply app_inv_head in E. apply app_inv_head in E. injection E as E. split; [constructor|exact E].
    - apply app_inv_head in E. change (bs ", ") with ([","%byte] ++ " "%byte :: []) in E. rewrite <- !app_assoc in E. cbn [app] in E.
      apply (IHl l' [","%byte]) in E; [|intros [Z|[]]; discriminate Z]. destruct E as [Al E].
      apply (IHr r' (bs ")" ++ y)) in E; [destruct E as [Ar ->]; split; [constructor; assumption|reflexivity]|]. apply nospace_app; [intros [Z|[]]; discriminate Z|exact NY].
    - apply app_inv_head in E. apply str_prefix_free in E; [|apply readable_text|apply readable_text]. destruct E as [EK E]. apply app_inv_head in E. cbn [app] in E.
      apply (IH n' (bs ")" ++ y)) in E; [destruct E as [An ->]; split; [constructor; [apply look_alike_iff; exact EK|exact An]|reflexivity]|]. apply nospace_app; [intros [Z|[]]; discriminate Z|exact NY].
    - apply app_inv_head in E. cbn [app] in E. apply readable_cut in E; [|exact NY]. destruct E as [EV ->]. split; [constructor; apply look_alike_iff; exact EV|reflexivity].
    - apply app_inv_head in E. assert (E' : (hex_encode h ++ (")"%byte :: y)) ++ " "%byte :: x = (hex_encode h' ++ (")"%byte :: y)) ++ " "%byte :: x') by (rewrite <- !app_assoc; exact E). clear E. rename E' into E.
      assert (NY' : nospace (")"%byte :: y)) by (intros [Z|Z]; [discriminate Z|exact (NY Z)]).
      apply cut_space in E; [|apply nospace_app; [apply hex_nospace|exact NY']|apply nospace_app; [apply hex_nospace|exact NY']]. destruct E as [E ->]. apply app_inv_tail in E. apply hex_encode_inj in E. subst h'. split; [constructor|reflexivity].
  Qed.
End Text.
(** Labels and values are shown as text if printable, else in hexadecimal, long ones by their length. The text of
    a tree tells its shape, the hashes in it, and its labels and values as far as these are told apart. *)
Theorem C151_text_shows_the_tree :
  forall (plain : N -> bool),
  (forall v s, readable_print v = s <-> shown_as v s) /\
  (forall t t' : htree, tree_debug plain t = tree_debug plain t' <-> alike t t').
Proof.
  intro plain. split; [exact readable_shown|]. intros t t'. split.
  - unfold tree_debug. intro E. apply app_inv_head in E. apply (node_cut plain t t' [] (bs "}") (bs "}")) in E; [exact (proj1 E)|intros []].
  - intro A. unfold tree_debug. f_equal. f_equal. induction A as [|l l' r r' _ IHl _ IHr|k k' t t' L _ IH|v v' L|h]; cbn [node_debug].
    + reflexivity.
    + rewrite IHl, IHr. reflexivity.
    + apply look_alike_iff in L. rewrite L, IH. reflexivity.
    + apply look_alike_iff in L. rewrite L. reflexivity.
    + reflexivity.
Qed.
Print Assumptions C151_text_shows_the_tree.
(** A label or value of visible characters that do not start with 0x is unlike any other. *)
Theorem C151_readable_contents_are_told_apart :
  forall (a b : bytes), Forall graphic a -> (forall r, a <> bs "0x" ++ r) -> look_alike a b -> a = b.
Proof.
  intros a b F N (s & A & B). assert (s = a). { destruct A as [_|h X|X]; [reflexivity|contradiction|contradiction]. } subst s.
  inversion B as [F' E|h N' L W E|N' L E]; [reflexivity|exfalso; exact (N h (eq_sym E))|]. exfalso.
  assert (I : In " "%byte a) by (rewrite <- E; apply in_or_app; right; left; reflexivity). rewrite Forall_forall in F. specialize (F _ I). vm_compute in F. destruct F as [F _]. exact (F eq_refl).
Qed.
Print Assumptions C151_readable_contents_are_told_apart.
(** Trees with different values, and different root hashes, can have the same text. *)
Theorem C151_some_trees_share_a_text :
  let t := HLabeled (bs "a") (HLeaf (bs "0x00")) in let t' := HLabeled (bs "a") (HLeaf [x00]) in
  let u := HLeaf (repeat x00 33) in let u' := HLeaf (repeat x01 33) in
  forall plain, tree_debug plain t = tree_debug plain t' /\ digest toy t <> digest toy t' /\ tree_debug plain u = tree_debug plain u' /\ digest toy u <> digest toy u'.
Proof.
  intros t t' u u' plain.
  assert (R : readable_print (bs "0x00") = readable_print [x00]) by (vm_compute; reflexivity). assert (R' : readable_print (repeat x00 33) = readable_print (repeat x01 33)) by (vm_compute; reflexivity).
  split; [apply C151_text_shows_the_tree; constructor; [apply look_alike_iff; reflexivity|constructor; apply look_alike_iff; exact R]|]. split; [intro E; vm_compute in E; discriminate E|].
  split; [apply C151_text_shows_the_tree; constructor; apply look_alike_iff; exact R'|intro E; vm_compute in E; discriminate E].
Qed.
Print Assumptions C151_some_trees_share_a_text.
(** The text, piece by piece: the rules of [#[derive(Debug)]] and of the hand-written [Debug] of the nodes; labels are quoted. *)
Inductive written_node (plain : N -> bool) : htree -> bytes -> Prop :=
| WrittenEmpty : written_node plain HEmpty (bs "Empty")
| WrittenFork l r a b : written_node plain l a -> written_node plain r b -> written_node plain (HFork l r) (bs "Fork(" ++ a ++ bs ", " ++ b ++ bs ")")
| WrittenLeaf v s : shown_as v s -> written_node plain (HLeaf v) (bs "Leaf(" ++ s ++ bs ")")
| WrittenLabel k s t a : shown_as k s -> written_node plain t a -> written_node plain (HLabeled k t) (bs "Label(" ++ debug_str plain s ++ bs ", " ++ a ++ bs ")")
| WrittenPruned h s : low_hex s h -> written_node plain (HPruned h) (bs "Pruned(" ++ s ++ bs ")").
Theorem C151_text_is_written_by_the_rules :
  forall (plain : N -> bool) (t : htree) (s : bytes),
  tree_debug plain t = s <-> exists a, written_node plain t a /\ s = bs "HashTree { root: " ++ a ++ bs " }".
Proof.
  intros plain t s. assert (K : forall u a, written_node plain u a <-> node_debug plain u = a).
  { split.
    - induction 1 as [|l r a b _ IHl _ IHr|v a S|k a u b S _ IH|h a L]; cbn [node_debug]; [reflexivity|rewrite IHl, IHr; reflexivity|apply readable_shown in S; rewrite S; reflexivity|apply readable_shown in S; rewrite S, IH; reflexivity|].
      rewrite (low_hex_fun _ _ _ (hex_encode_low h) L). reflexivity.
    - intros <-. induction u as [|l IHl r IHr|k u IH|v|h]; cbn [node_debug]; constructor; try assumption; try (apply readable_shown; reflexivity). apply hex_encode_low. }
  unfold tree_debug. split; [intros <-; exists (node_debug plain t); split; [apply K; reflexivity|reflexivity]|]. intros (a & A & ->). apply K in A. rewrite A. reflexivity.
Qed.
Print Assumptions C151_text_is_written_by_the_rules.
Example C151_ex :
  tree_debug (fun c => (32 <=? c) && (c <=? 126)) (HFork (HLabeled (bs "a") (HFork (HLeaf (bs "world")) (HPruned [xab; x01]))) (HFork HEmpty (HLabeled [x00; xff] (HLeaf (repeat x07 40))))) =
  bs "HashTree { root: Fork(Label(""a"", Fork(Leaf(world), Pruned(ab01))), Fork(Empty, Label(""0x00ff"", Leaf(40 bytes)))) }".
Proof. vm_compute. reflexivity. Qed.
