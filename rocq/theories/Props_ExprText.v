(** C128: an expression stands for one policy. C129: the two headers the library writes are one line of printable characters. *)
From Coq Require Import List Arith Lia NArith Bool.
From Verif Require Import Bytes Sha256 Text HashTree Cbor Base64 Header HttpTypes HttpHash Cel CelSpec HttpTree.
Import ListNotations.
Local Open Scope N_scope.

(** text without a double quote *)
Definition no_quote (s : bytes) : Prop := Forall (fun c => b2n c <> 34) s.
Lemma quote_split (a b s r : bytes) : no_quote a -> no_quote b -> a ++ quote ++ s = b ++ quote ++ r -> a = b /\ s = r.
Proof.
  unfold quote. intro A. revert b. induction A as [|x a X A IH]; intros b B E; destruct B as [|y b Y B].
  - injection E as ->. auto.
  - exfalso. cbn in E. injection E as <- _. apply Y. reflexivity.
  - exfalso. cbn in E. injection E as -> _. apply X. reflexivity.
  - cbn [app] in E. injection E as -> E. destruct (IH b B E) as [-> ->]. auto.
Qed.
Lemma names_text x l : print_names (x :: l) = quote ++ x ++ quote ++ flat_map (fun y => bs "," ++ quote ++ y ++ quote) l.
Proof.
  unfold print_names. f_equal. revert x. induction l as [|y l IH]; intro x; [reflexivity|].
  change (join (quote ++ bs "," ++ quote) (x :: y :: l)) with (x ++ (quote ++ bs "," ++ quote) ++ join (quote ++ bs "," ++ quote) (y :: l)).
  rewrite <- !app_assoc, IH. cbn [flat_map]. rewrite <- !app_assoc. reflexivity.
Qed.
Lemma names_inj l l' r r' : Forall no_quote l -> Forall no_quote l' -> print_names l ++ bs "]" ++ r = print_names l' ++ bs "]" ++ r' -> l = l' /\ r = r'.
Proof.
  assert (G : forall l l', Forall no_quote l -> Forall no_quote l' ->
    flat_map (fun y => bs "," ++ quote ++ y ++ quote) l ++ bs "]" ++ r = flat_map (fun y => bs "," ++ quote ++ y ++ quote) l' ++ bs "]" ++ r' -> l = l' /\ r = r').
  { clear l l'. intros l l' A. revert l'. induction A as [|x l X A IH]; intros l' B E; destruct B as [|y l' Y B]; cbn [flat_map] in E.
    - apply (app_inv_head (bs "]")) in E. auto.
    - discriminate E.
    - discriminate E.
    - rewrite <- !app_assoc in E. do 2 apply app_inv_head in E. destruct (quote_split _ _ _ _ X Y E) as [-> E']. destruct (IH l' B E') as [-> ->]. auto. }
  intros A B E. destruct A as [|x l X A], B as [|y l' Y B].
  - apply (app_inv_head (bs "]")) in E. auto.
  - rewrite names_text in E. discriminate E.
  - rewrite names_text in E. discriminate E.
  - rewrite !names_text, <- !app_assoc in E. apply app_inv_head in E. destruct (quote_split _ _ _ _ X Y E) as [-> E']. destruct (G l l' A B E') as [-> ->]. auto.
Qed.
Definition rs_names (c : response_cert) : list bytes := match c with CertifiedHeaders l => l | HeaderExclusions l => l end.
Lemma response_inj c c' r r' : Forall no_quote (rs_names c) -> Forall no_quote (rs_names c') -> print_response c ++ r = print_response c' ++ r' -> c = c' /\ r = r'.
Proof.
  unfold print_response. change (bs "]}}") with (bs "]" ++ bs "}}"). intros A B E. rewrite <- !app_assoc in E. apply app_inv_head in E.
  destruct c as [l|l], c' as [l'|l']; cbn [rs_names] in A, B; rewrite <- !app_assoc in E; try (intros; discriminate E).
  - do 2 apply app_inv_head in E. destruct (names_inj _ _ _ _ A B E) as [-> E']. apply app_inv_head in E'. auto.
  - do 2 apply app_inv_head in E. destruct (names_inj _ _ _ _ A B E) as [-> E']. apply app_inv_head in E'. auto.
Qed.
Lemma request_inj q q' r r' : Forall no_quote (rc_headers q ++ rc_query q) -> Forall no_quote (rc_headers q' ++ rc_query q') ->
  print_request q ++ r = print_request q' ++ r' -> q = q' /\ r = r'.
Proof.
  unfold print_request. change (bs "],certified_query_parameters:[") with (bs "]" ++ bs ",certified_query_parameters:["). change (bs "]},") with (bs "]" ++ bs "},").
  intros A B E. rewrite <- !app_assoc in E. apply app_inv_head in E. apply Forall_app in A, B. destruct A as [A1 A2], B as [B1 B2].
  destruct (names_inj _ _ _ _ A1 B1 E) as [E1 E']. apply app_inv_head in E'. destruct (names_inj _ _ _ _ A2 B2 E') as [E2 E'']. apply app_inv_head in E''.
  split; [|exact E'']. destruct q, q'. cbn in E1, E2. subst. reflexivity.
Qed.

Theorem C128_one_policy_per_expression_partial :
  forall e e' : cel, Forall no_quote (cel_names e) -> Forall no_quote (cel_names e') -> print_cel e = print_cel e' -> e = e'.
Proof.
  intros e e' A B E. unfold print_cel in E. destruct e as [|c|q c], e' as [|c'|q' c']; cbn [cel_names] in A, B; cbv zeta in A, B; try reflexivity; try discriminate E.
  - do 3 apply app_inv_head in E. destruct (response_inj _ _ _ _ A B E) as [-> _]. reflexivity.
  - do 2 apply app_inv_head in E. rewrite app_assoc in A, B. apply Forall_app in A, B. destruct A as [A1 A2], B as [B1 B2]. destruct (request_inj _ _ _ _ A1 B1 E) as [-> E'].
    destruct (response_inj _ _ _ _ A2 B2 E') as [-> _]. reflexivity.
Qed.
Print Assumptions C128_one_policy_per_expression_partial.
Example C128_hypotheses : Forall no_quote (cel_names (CelFull (mk_request_cert [bs "a.b"] [bs ""; bs "q,]"]) (CertifiedHeaders [bs "x y"]))).
Proof. unfold no_quote. cbn. repeat (apply Forall_cons || apply Forall_nil || (intro Z; discriminate Z)). Qed.
(** the builders copy the names without looking at them: names with a quote give the text, hence the hash, of another policy *)
Theorem C128_one_policy_per_expression_refuted :
  exists e e' : cel, e <> e' /\ print_cel e = print_cel e' /\ cel_of_text (print_cel e) = Some e' /\
    (exists names, e = CelResponseOnly (HeaderExclusions names) /\ length names = 1%nat) /\
    (exists names, e' = CelResponseOnly (HeaderExclusions names) /\ length names = 2%nat).
Proof.
  exists (CelResponseOnly (HeaderExclusions [bs "a"",""b"])), (CelResponseOnly (HeaderExclusions [bs "a"; bs "b"])).
  split; [discriminate|]. split; [reflexivity|]. split; [vm_compute; reflexivity|]. split; eexists; split; reflexivity.
Qed.
Print Assumptions C128_one_policy_per_expression_refuted.

(** a visible ASCII character or a space: what a header value may contain (RFC 9110 5.5, without the tab and obsolete bytes) *)
Definition line_char (c : byte) : Prop := 32 <= b2n c <= 126.
Definition line_text (s : bytes) : Prop := Forall line_char s.
Lemma line_check s : forallb (fun c => (32 <=? b2n c) && (b2n c <=? 126)) s = true -> line_text s.
Proof. intro F. rewrite forallb_forall in F. apply Forall_forall. intros c I. apply F, andb_true_iff in I. unfold line_char. destruct I as [A B]. apply N.leb_le in A, B. auto. Qed.
Lemma b64_line s : line_text (b64_enc true s).
Proof.
  assert (X := b64_enc_chars true (length s) s (le_n _)). eapply Forall_impl; [|exact X]. intros c E. unfold line_char.
  assert (F : forall c : byte, b64_char c = true -> (32 <=? b2n c) && (b2n c <=? 126) = true) by (intros []; vm_compute; intro Z; first [reflexivity|discriminate Z]).
  apply F, andb_true_iff in E. destruct E as [A B]. apply N.leb_le in A, B. auto.
Qed.
Lemma line_app a b : line_text (a ++ b) <-> line_text a /\ line_text b.
Proof. apply Forall_app. Qed.
Lemma line_names l : line_text (print_names l) <-> Forall line_text l.
Proof.
  destruct l as [|x l]; [split; constructor|]. rewrite names_text. rewrite !line_app.
  assert (Q : line_text quote) by (apply line_check; reflexivity).
  assert (G : line_text (flat_map (fun y => bs "," ++ quote ++ y ++ quote) l) <-> Forall line_text l).
  { induction l as [|y l IH]; cbn [flat_map]; [split; constructor|]. rewrite !line_app, IH. assert (C : line_text (bs ",")) by (apply line_check; reflexivity). rewrite Forall_cons_iff. tauto. }
  rewrite G, Forall_cons_iff. tauto.
Qed.
Ltac fixed := repeat match goal with |- context [line_text (bs ?s)] => let X := fresh in assert (X : line_text (bs s)) by (apply line_check; reflexivity); generalize X; clear X; generalize (line_text (bs s)) end; intros.
Theorem C129_headers_are_one_line :
  (* the certificate header, whatever the certificate, the witness and the path *)
  (forall (data_certificate : bytes) (witness : htree) (path : cert_path),
     line_text (v2_certificate_header data_certificate witness (expr_path path))) /\
  (* the expression, exactly when the names in it are *)
  (forall e : cel, line_text (print_cel e) <-> Forall line_text (cel_names e)) /\
  (* names as RFC 9110 has them are *)
  (forall e : cel, Forall token (cel_names e) -> line_text (print_cel e)).
Proof.
  assert (I : forall e : cel, line_text (print_cel e) <-> Forall line_text (cel_names e)).
  { assert (R : forall c, line_text (print_response c) <-> Forall line_text (rs_names c)).
    { intro c. unfold print_response. destruct c as [l|l]; cbn [rs_names]; rewrite !line_app, line_names; fixed; tauto. }
    intro e. unfold print_cel. destruct e as [|c|q c]; cbn [cel_names]; cbv zeta; rewrite ?line_app, ?R.
    - split; [intros _; constructor|]. intros _. fixed; tauto.
    - fold (rs_names c). fixed; tauto.
    - unfold print_request. fold (rs_names c). rewrite !line_app, !line_names, !Forall_app. fixed; tauto. }
  split; [|split; [exact I|]].
  - intros dc w p. unfold v2_certificate_header. rewrite !line_app. assert (B1 := b64_line dc). assert (B2 := b64_line (self_describe ++ enc_tree w)). assert (B3 := b64_line (self_describe ++ enc_strings (expr_path p))).
    revert B1 B2 B3. generalize (line_text (b64_enc true dc)) (line_text (b64_enc true (self_describe ++ enc_tree w))) (line_text (b64_enc true (self_describe ++ enc_strings (expr_path p)))). intros. fixed; tauto.
  - intros e F. apply I. eapply Forall_impl; [|exact F]. intros s [_ T]. eapply Forall_impl; [|exact T]. clear.
    intros c T. unfold tchar in T. unfold line_char. cbv zeta in T. cbn in T. revert T. destruct c; vm_compute; intros T; try (split; intro Z; discriminate Z); exfalso; intuition discriminate.
Qed.
Print Assumptions C129_headers_are_one_line.
(** a line break in a name reaches the header *)
Theorem C129_any_name_refuted :
  exists e : cel, ~ line_text (print_cel e) /\ exists a b, print_cel e = a ++ [n2b 13; n2b 10] ++ bs "Set-Cookie: x" ++ b.
Proof.
  exists (CelResponseOnly (CertifiedHeaders [bs "a" ++ [n2b 13; n2b 10] ++ bs "Set-Cookie: x"])). split.
  - rewrite (proj1 (proj2 C129_headers_are_one_line)). cbn [cel_names rs_names]. intro F. apply Forall_inv in F. rewrite !line_app in F. destruct F as (_ & F & _). apply Forall_inv in F. unfold line_char in F. vm_compute in F. destruct F as [F _]. apply F. reflexivity.
  - eexists (bs "default_certification(ValidationArgs{certification:Certification{no_request_certification:Empty{},response_certification:ResponseCertification{certified_response_headers:ResponseHeaderList{headers:[""a"), (bs """]}}}})"). vm_compute. reflexivity.
Qed.
Print Assumptions C129_any_name_refuted.
Example C129_hypotheses : exists e, Forall token (cel_names e) /\ cel_names e <> [].
Proof.
  exists (CelResponseOnly (CertifiedHeaders [bs "a"])). split; [|discriminate]. cbn [cel_names]. apply Forall_cons; [|constructor]. split; [discriminate|].
  apply Forall_cons; [|constructor]. left. right. right. vm_compute. split; intro Z; discriminate Z.
Qed.
