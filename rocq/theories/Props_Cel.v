(** Properties C30-C33: CEL expressions. *)
From Coq Require Import List Arith NArith Lia Bool.
From Verif Require Import Bytes Text Utf8 HttpTypes Cbor Cel CelSpec CelProofs.
Import ListNotations.

Lemma plain_lit_ok s : plain_name s -> lit_ok s = true /\ lit_good s = true.
Proof.
  intro P. unfold lit_ok, lit_good. rewrite !forallb_forall. unfold plain_name in P. rewrite Forall_forall in P.
  split; intros b I; specialize (P b I); clear I; unfold plain_char in P.
  - destruct b; first [reflexivity|exfalso; vm_compute in P; intuition congruence].
  - destruct b; first [reflexivity|exfalso; vm_compute in P; intuition congruence].
Qed.
Lemma lit_good_plain s : token s -> lit_good s = true -> plain_name s.
Proof.
  intros [_ T] G. unfold lit_good in G. rewrite forallb_forall in G. unfold plain_name. rewrite Forall_forall in *.
  intros b I. specialize (G b I). clear I T. unfold plain_char. destruct b; first [discriminate G|vm_compute; intuition congruence].
Qed.
Lemma token_lit_ok s : token s -> lit_ok s = true.
Proof.
  intros [_ T]. unfold lit_ok. rewrite forallb_forall. rewrite Forall_forall in T. intros b I. specialize (T b I). clear I.
  unfold tchar in T. destruct b; first [reflexivity|exfalso; destruct T as [T|T]; [vm_compute in T; intuition congruence|simpl in T; intuition discriminate]].
Qed.

(** C30 *)
Theorem C30_cel_round_trip :
  forall e : cel, Forall plain_name (cel_names e) -> cel_of_text (print_cel e) = Some e.
Proof.
  intros e F. rewrite print_tokens, (cel_of_spaced e _).
  - replace (forallb lit_good (cel_names e)) with true; [reflexivity|]. symmetry. apply forallb_forall. intros s I.
    rewrite Forall_forall in F. apply plain_lit_ok, F, I.
  - apply forallb_forall. intros s I. rewrite Forall_forall in F. apply plain_lit_ok, F, I.
  - apply spaced_concat.
Qed.
Print Assumptions C30_cel_round_trip.

(** C31 (refuted): "X_Y" is a valid header name, but the verifier rejects the
    expression the builder prints for it. *)
Theorem C31_every_header_name_refuted :
  exists n, token n /\ cel_of_text (print_cel (CelResponseOnly (CertifiedHeaders [n]))) = None.
Proof.
  exists (bs "X_Y"). split; [|vm_compute; reflexivity]. split; [discriminate|].
  apply Forall_forall. intros b [<-|[<-|[<-|[]]]]; unfold tchar; [left|right|left]; [vm_compute|simpl; tauto|vm_compute]; intuition congruence.
Qed.
Print Assumptions C31_every_header_name_refuted.
(** Exactly the expressions all of whose names consist of letters, digits and
    '-' survive; all others are rejected. *)
Theorem C31_header_names_partial :
  forall e : cel, Forall token (cel_names e) ->
  (Forall plain_name (cel_names e) /\ cel_of_text (print_cel e) = Some e) \/
  (~ Forall plain_name (cel_names e) /\ cel_of_text (print_cel e) = None).
Proof.
  intros e F. rewrite print_tokens, (cel_of_spaced e _).
  - destruct (forallb lit_good (cel_names e)) eqn:G; [left|right]; split; auto.
    + rewrite forallb_forall in G. rewrite Forall_forall in *. intros s I. apply lit_good_plain; auto.
    + intro P. assert (X : forallb lit_good (cel_names e) = true); [|congruence]. apply forallb_forall. intros s I.
      rewrite Forall_forall in P. apply plain_lit_ok, P, I.
  - apply forallb_forall. intros s I. rewrite Forall_forall in F. apply token_lit_ok, F, I.
  - apply spaced_concat.
Qed.
Print Assumptions C31_header_names_partial.

(** C32 *)
Theorem C32_whitespace_insignificant :
  forall (e : cel) (s : bytes), Forall plain_name (cel_names e) -> spaced (tokens e) s ->
  print_cel e = concat (tokens e) /\ cel_of_text s = cel_of_text (print_cel e) /\ cel_of_text s = Some e.
Proof.
  intros e s F S. assert (A : cel_of_text s = Some e).
  { rewrite (cel_of_spaced e s).
    - replace (forallb lit_good (cel_names e)) with true; [reflexivity|]. symmetry. apply forallb_forall. intros n I.
      rewrite Forall_forall in F. apply plain_lit_ok, F, I.
    - apply forallb_forall. intros n I. rewrite Forall_forall in F. apply plain_lit_ok, F, I.
    - exact S. }
  split; [apply print_tokens|]. split; [|exact A]. rewrite A. symmetry. apply C30_cel_round_trip. exact F.
Qed.
Print Assumptions C32_whitespace_insignificant.

(** C33 *)
Lemma map_get_in {A} k m (v : A) : map_get k m = Some v -> In (k, v) m.
Proof.
  induction m as [|[k' v'] m IH]; simpl; [discriminate|]. destruct (bytes_eqb_spec k k') as [->|].
  - intro E; injection E as <-. auto.
  - auto.
Qed.
Lemma map_get_none {A} k (m : list (bytes * A)) : map_get k m = None <-> ~ In k (map fst m).
Proof.
  induction m as [|[k' v'] m IH]; simpl; [tauto|]. destruct (bytes_eqb_spec k k') as [->|N]; [split; [discriminate|tauto]|].
  rewrite IH. split; intros X; [intros [Y|Y]; [congruence|tauto]|tauto].
Qed.
Lemma map_get_has {A} k (m : list (bytes * A)) v : map_get k m = Some v -> In k (map fst m).
Proof. intro E. apply map_get_in in E. apply (in_map fst) in E. exact E. Qed.
Lemma nodup_in {A} k (m : list (bytes * A)) v w : NoDup (map fst m) -> In (k, v) m -> In (k, w) m -> v = w.
Proof.
  induction m as [|[k' v'] m IH]; simpl; [tauto|]. intros N. inversion N as [|? ? N1 N2]; subst.
  intros [E1|I1] [E2|I2]; try congruence; auto.
  - injection E1 as <- <-. exfalso. apply N1. apply (in_map fst) in I2. exact I2.
  - injection E2 as <- <-. exfalso. apply N1. apply (in_map fst) in I1. exact I1.
Qed.
Lemma map_set_keys {A} k (v : A) m : forall x, In x (map fst (map_set k v m)) <-> x = k \/ In x (map fst m).
Proof.
  intro x. induction m as [|[k' v'] m IH]; simpl; [intuition|]. destruct (bytes_eqb_spec k k') as [->|N]; simpl; [intuition|].
  rewrite IH. intuition.
Qed.
Lemma map_set_nodup {A} k (v : A) m : NoDup (map fst m) -> NoDup (map fst (map_set k v m)).
Proof.
  induction m as [|[k' v'] m IH]; simpl; intro N; [constructor; [intros []|constructor]|]. inversion N as [|? ? N1 N2]; subst.
  destruct (bytes_eqb_spec k k') as [->|NE]; simpl; constructor; auto. rewrite map_set_keys. intros [X|X]; [congruence|contradiction].
Qed.
Fixpoint dk_all (l : list cv) : Prop := match l with [] => True | x :: r => distinct_keys x /\ dk_all r end.
Fixpoint dk_fields (l : list (bytes * cv)) : Prop := match l with [] => True | x :: r => distinct_keys (snd x) /\ dk_fields r end.
Lemma dk_all_forall l : dk_all l <-> Forall distinct_keys l.
Proof. induction l; simpl; split; intro X; [constructor|exact I|constructor; tauto|inversion X; tauto]. Qed.
Lemma dk_fields_forall l : dk_fields l <-> Forall (fun kv => distinct_keys (snd kv)) l.
Proof. induction l; simpl; split; intro X; [constructor|exact I|constructor; tauto|inversion X; tauto]. Qed.
Lemma map_set_forall {A} (P : A -> Prop) k v m : P v -> Forall (fun kv => P (snd kv)) m -> Forall (fun kv => P (snd kv)) (map_set k v m).
Proof.
  intros Pv F. induction F as [|[k' v'] m X F IH]; simpl; [repeat constructor; exact Pv|].
  destruct (bytes_eqb k k'); constructor; auto.
Qed.
Lemma collect_ok l : Forall (fun kv => distinct_keys (snd kv)) l -> NoDup (map fst (collect l)) /\ Forall (fun kv => distinct_keys (snd kv)) (collect l).
Proof.
  intro F. unfold collect. assert (G : NoDup (map fst (@nil (bytes * cv))) /\ Forall (fun kv => distinct_keys (snd kv)) (@nil (bytes * cv))) by (split; constructor).
  revert G. generalize (@nil (bytes * cv)). induction F as [|[k v] l X F IH]; intros acc [A B]; simpl; [auto|].
  apply IH. split; [apply map_set_nodup; exact A|apply map_set_forall; assumption].
Qed.
Definition yields {A} (P : A -> Prop) (p : bytes -> pres A) : Prop := forall s v r, p s = POk v r -> P v.
Lemma drop_yields {A} (P : A -> Prop) o c p : yields P p -> yields P (drop_separators o c p).
Proof.
  intros Y s v r E. unfold drop_separators in E. destruct (pchar o (skip_ws s)) as [s1|]; [|discriminate].
  destruct (p s1) as [a s2| | |] eqn:Q; simpl in E; try discriminate. destruct (pchar c (skip_ws s2)); [|discriminate].
  simpl in E. injection E as <- <-. eapply Y; exact Q.
Qed.
Lemma sep_yields {A} (P : A -> Prop) p : yields P p -> yields (Forall P) (sep_list p).
Proof.
  intro Y. assert (L : forall g, yields (Forall P) (sep_loop p g)).
  { induction g as [|g IH]; intros s v r E; [discriminate|]. cbn [sep_loop] in E.
    destruct (pchar "," (skip_ws s)) as [s1|]; [|injection E as <- <-; constructor].
    destruct (p s1) as [a s2| | |] eqn:Q; try discriminate; [|injection E as <- <-; constructor].
    destruct (sep_loop p g s2) as [vs s3| | |] eqn:Z; try discriminate. injection E as <- <-.
    constructor; [eapply Y; exact Q|eapply IH; exact Z]. }
  intros s v r E. unfold sep_list in E. destruct (p s) as [a s1| | |] eqn:Q; try discriminate; [|injection E as <- <-; constructor].
  destruct (sep_loop p (S (length s1)) s1) as [vs s3| | |] eqn:Z; try discriminate. injection E as <- <-.
  constructor; [eapply Y; exact Q|eapply L; exact Z].
Qed.
Lemma cel_value_distinct f : yields distinct_keys (cel_value f).
Proof.
  induction f as [|f IH]; intros s v r E; [discriminate|]. cbn [cel_value] in E.
  assert (KV : yields (fun kv => distinct_keys (snd kv)) (key_value (cel_value f))).
  { intros s1 [k w] r1 E1. unfold key_value in E1. destruct (ident (skip_ws s1)) as [k' s2]. destruct (pchar ":" (skip_ws s2)) as [s3|]; [|discriminate].
    destruct (cel_value f s3) eqn:Q; try discriminate. injection E1 as <- <- <-. eapply IH. exact Q. }
  destruct (ident (skip_ws s)) as [n s1].
  destruct (drop_separators "{" "}" (sep_list (key_value (cel_value f))) s1) as [l r1| | |] eqn:E1; try discriminate E.
  { injection E as <- <-. apply (drop_yields _ _ _ _ (sep_yields _ _ KV)) in E1. destruct (collect_ok l E1) as [A B].
    split; [exact A|]. apply dk_fields_forall. exact B. }
  cbn [pmap alt] in E.
  destruct (drop_separators "(" ")" (sep_list (cel_value f)) s1) as [l r1| | |] eqn:E2; try discriminate E.
  { injection E as <- <-. apply (drop_yields _ _ _ _ (sep_yields _ _ IH)) in E2. apply dk_all_forall. exact E2. }
  cbn [pmap alt] in E.
  destruct (drop_separators "[" "]" (sep_list (cel_value f)) (skip_ws s)) as [l r1| | |] eqn:E3; try discriminate E.
  { injection E as <- <-. apply (drop_yields _ _ _ _ (sep_yields _ _ IH)) in E3. apply dk_all_forall. exact E3. }
  cbn [pmap alt] in E.
  destruct (drop_separators x22 x22 _ (skip_ws s)) as [l r1| | |] eqn:E4; try discriminate E.
  injection E as <- <-. exact I.
Qed.
Lemma strings_spec l hs : strings l = Some hs -> l = map CvString hs.
Proof.
  revert hs. induction l as [|x l IH]; intros hs E; [injection E as <-; reflexivity|]. destruct x; try discriminate. simpl in E.
  destruct (strings l) as [ss|]; [|discriminate]. simpl in E. injection E as <-. simpl. f_equal. apply IH. reflexivity.
Qed.
Lemma validate_object_spec v n m : validate_object v n = Some m -> v = CvObject n m.
Proof. destruct v as [| |n' m'|]; try discriminate. simpl. destruct (bytes_eqb_spec n' n) as [->|]; [|discriminate]. intro E; injection E as <-. reflexivity. Qed.
Lemma string_array_spec v l : validate_string_array v = Some l -> string_list v l.
Proof. destruct v; try discriminate. simpl. intro E. apply strings_spec in E. unfold string_list. congruence. Qed.
Lemma string_list_fun v l l' : string_list v l -> string_list v l' -> l = l'.
Proof.
  unfold string_list. intros A B. rewrite A in B. injection B as B. revert l' B. clear A. induction l as [|x l IH]; intros [|y l'] E; try discriminate; [reflexivity|].
  simpl in E. injection E as -> E. f_equal. auto.
Qed.
Lemma response_list_spec m k o : response_list m k = Some o -> NoDup (map fst m) -> Forall (fun kv => distinct_keys (snd kv)) m ->
  match o with Some l => header_list m k l | None => ~ exists l, header_list m k l end.
Proof.
  unfold response_list. destruct (map_get k m) as [v|] eqn:G.
  - intros E N D. destruct (validate_object v (bs "ResponseHeaderList")) as [lm|] eqn:V; [|discriminate]. cbn [opt_bind] in E.
    apply validate_object_spec in V. subst v. apply map_get_in in G.
    destruct (map_get (bs "headers") lm) as [h|] eqn:Gh.
    + destruct (validate_string_array h) as [hs|] eqn:S; [|discriminate]. cbn [opt_bind] in E. injection E as <-.
      apply map_get_in in Gh. apply string_array_spec in S. exists lm, h. auto.
    + injection E as <-. intros (l & lm' & h & I1 & I2 & _). assert (X := nodup_in _ _ _ _ N G I1). injection X as <-.
      apply map_get_none in Gh. apply Gh. apply (in_map fst) in I2. exact I2.
  - intros E N D. injection E as <-. intros (l & lm & h & I1 & _). apply map_get_none in G. apply G. apply (in_map fst) in I1. exact I1.
Qed.

(** Acceptance: the text is default_certification(ValidationArgs{...}) with
    exactly one of no_certification / certification; within certification
    exactly one of no_request_certification / request_certification and exactly
    one of the two response lists carries a [headers] list; the resulting
    expression is what these properties state. *)
Theorem C33_accepted_says_one_thing_partial :
  forall (s : bytes) (e : cel), cel_of_text s = Some e ->
  exists m rest, parse_cel s = Some (CvFunction (bs "default_certification") (CvObject (bs "ValidationArgs") m :: rest)) /\
  NoDup (map fst m) /\ one_of (has m (bs "no_certification")) (has m (bs "certification")) /\
  (e = CelSkip <-> has m (bs "no_certification")) /\
  (e <> CelSkip -> exists cm rm c,
     In (bs "certification", CvObject (bs "Certification") cm) m /\ NoDup (map fst cm) /\
     one_of (has cm (bs "no_request_certification")) (has cm (bs "request_certification")) /\
     In (bs "response_certification", CvObject (bs "ResponseCertification") rm) cm /\ NoDup (map fst rm) /\
     one_of (exists l, header_list rm (bs "certified_response_headers") l) (exists l, header_list rm (bs "response_header_exclusions") l) /\
     match c with
     | CertifiedHeaders l => header_list rm (bs "certified_response_headers") l
     | HeaderExclusions l => header_list rm (bs "response_header_exclusions") l
     end /\
     match e with
     | CelSkip => False
     | CelResponseOnly c' => c' = c /\ has cm (bs "no_request_certification")
     | CelFull rq c' => c' = c /\ exists qm h q, In (bs "request_certification", CvObject (bs "RequestCertification") qm) cm /\
         In (bs "certified_request_headers", h) qm /\ string_list h (rc_headers rq) /\
         In (bs "certified_query_parameters", q) qm /\ string_list q (rc_query rq)
     end).
Proof.
  intros s e E. unfold cel_of_text in E. destruct (parse_cel s) as [v|] eqn:P; [|discriminate]. cbn [opt_bind] in E.
  assert (D : distinct_keys v).
  { unfold parse_cel in P. destruct (cel_value (S (length s)) s) as [v' r| | |] eqn:Q; try discriminate. injection P as <-. eapply cel_value_distinct. exact Q. }
  unfold map_cel_ast in E. destruct v as [| |n l|n l]; try discriminate. simpl in E.
  destruct (bytes_eqb_spec n (bs "default_certification")) as [->|]; [|discriminate]. cbn [opt_bind] in E.
  destruct l as [|arg rest]; [discriminate|]. destruct (validate_object arg (bs "ValidationArgs")) as [m|] eqn:V; [|discriminate].
  cbn [opt_bind] in E. apply validate_object_spec in V. subst arg. exists m, rest. split; [reflexivity|].
  cbn [distinct_keys] in D. destruct D as [D _]. destruct D as [N D]. change (dk_fields m) in D. apply dk_fields_forall in D. split; [exact N|].
  destruct (map_get (bs "no_certification") m) as [nc|] eqn:G1; destruct (map_get (bs "certification") m) as [c|] eqn:G2; try discriminate.
  - injection E as <-. apply map_get_has in G1. apply map_get_none in G2. split; [left; auto|]. split; [split; auto|]. intro X; congruence.
  - apply map_get_none in G1. assert (G2' := map_get_has _ _ _ G2). split; [right; auto|].
    destruct (validate_object c (bs "Certification")) as [cm|] eqn:V; [|discriminate]. cbn [opt_bind] in E. apply validate_object_spec in V. subst c.
    apply map_get_in in G2. rewrite Forall_forall in D. assert (DC := D _ G2). cbn [snd distinct_keys] in DC. destruct DC as [NC DC].
    change (dk_fields cm) in DC. apply dk_fields_forall in DC.
    destruct (validate_request_certification cm) as [rq|] eqn:RQ; [|discriminate]. cbn [opt_bind] in E.
    destruct (validate_response_certification cm) as [rs|] eqn:RS; [|discriminate]. cbn [opt_bind] in E.
    assert (NS : e <> CelSkip) by (destruct rq; injection E as <-; discriminate).
    split; [split; intro X; [contradiction|exfalso; exact (G1 X)]|]. intros _.
    unfold validate_response_certification in RS. destruct (map_get (bs "response_certification") cm) as [v|] eqn:G3; [|discriminate]. cbn [opt_bind] in RS.
    destruct (validate_object v (bs "ResponseCertification")) as [rm|] eqn:V; [|discriminate]. cbn [opt_bind] in RS. apply validate_object_spec in V. subst v.
    apply map_get_in in G3. rewrite Forall_forall in DC. assert (DR := DC _ G3). cbn [snd distinct_keys] in DR. destruct DR as [NR DR].
    change (dk_fields rm) in DR. apply dk_fields_forall in DR.
    destruct (response_list rm (bs "certified_response_headers")) as [a|] eqn:A; [|discriminate]. cbn [opt_bind] in RS.
    destruct (response_list rm (bs "response_header_exclusions")) as [b|] eqn:B; [|discriminate]. cbn [opt_bind] in RS.
    apply response_list_spec in A, B; try assumption.
    exists cm, rm, rs. split; [exact G2|]. split; [exact NC|].
    assert (OR : one_of (exists l, header_list rm (bs "certified_response_headers") l) (exists l, header_list rm (bs "response_header_exclusions") l) /\
       match rs with CertifiedHeaders l => header_list rm (bs "certified_response_headers") l | HeaderExclusions l => header_list rm (bs "response_header_exclusions") l end).
    { destruct a as [la|], b as [lb|]; try discriminate; injection RS as <-; split; auto; [left|right]; split; eauto. }
    unfold validate_request_certification in RQ.
    destruct (map_get (bs "no_request_certification") cm) as [x|] eqn:G4; destruct (map_get (bs "request_certification") cm) as [y|] eqn:G5; try discriminate.
    + injection RQ as <-. apply map_get_has in G4. apply map_get_none in G5. injection E as <-.
      destruct OR as [O1 O2]. split; [left; auto|]. auto 8.
    + destruct (validate_object y (bs "RequestCertification")) as [qm|] eqn:V; [|discriminate]. cbn [opt_bind] in RQ. apply validate_object_spec in V. subst y.
      destruct (map_get (bs "certified_request_headers") qm) as [h|] eqn:G6; [|discriminate]. cbn [opt_bind] in RQ.
      destruct (validate_string_array h) as [hs|] eqn:S1; [|discriminate]. cbn [opt_bind] in RQ.
      destruct (map_get (bs "certified_query_parameters") qm) as [q|] eqn:G7; [|discriminate]. cbn [opt_bind] in RQ.
      destruct (validate_string_array q) as [qs|] eqn:S2; [|discriminate]. cbn [opt_bind] in RQ. injection RQ as <-. injection E as <-.
      apply map_get_none in G4. assert (G5' := map_get_has _ _ _ G5). apply map_get_in in G5, G6, G7. apply string_array_spec in S1, S2.
      destruct OR as [O1 O2]. split; [right; auto|]. repeat (split; [assumption|]). split; [reflexivity|].
      exists qm, h, q. auto 8.
Qed.
Print Assumptions C33_accepted_says_one_thing_partial.
(** The full claim is false: both response lists may be present if one of them
    has no [headers]; and a property given twice is accepted, the last one counts. *)
Theorem C33_both_lists_accepted_refuted :
  cel_of_text (bs "default_certification(ValidationArgs{certification:Certification{no_request_certification:Empty{},response_certification:ResponseCertification{certified_response_headers:ResponseHeaderList{headers:[]},response_header_exclusions:ResponseHeaderList{}}}})")
    = Some (CelResponseOnly (CertifiedHeaders [])) /\
  cel_of_text (bs "default_certification(ValidationArgs{certification:Certification{no_request_certification:Empty{},response_certification:ResponseCertification{response_header_exclusions:ResponseHeaderList{headers:[]},response_header_exclusions:ResponseHeaderList{headers:[""a""]}}}})")
    = Some (CelResponseOnly (HeaderExclusions [bs "a"])).
Proof. split; vm_compute; reflexivity. Qed.
Print Assumptions C33_both_lists_accepted_refuted.

(** The parser always answers: no input makes it loop. *)
Theorem C33_parser_terminates : forall s, cel_value (S (length s)) s <> PFuel.
Proof. apply cel_value_fuel. Qed.
Print Assumptions C33_parser_terminates.

(** ** Concrete cases *)
Definition ex_cel : cel := CelFull (mk_request_cert [bs "Host"; bs "Accept-Language"] [bs "q"]) (HeaderExclusions [bs "Date"]).
Example ex_cel_plain : Forall plain_name (cel_names ex_cel).
Proof. unfold plain_name. repeat match goal with |- Forall _ _ => constructor end; unfold plain_char; vm_compute; intuition congruence. Qed.
Example ex_cel_spaced : exists s, spaced (tokens ex_cel) s /\ s <> print_cel ex_cel.
Proof. exists (bs " " ++ concat (tokens ex_cel)). split; [|vm_compute; discriminate]. apply (spaced_cons (bs " ")); [repeat constructor|]. apply spaced_concat. Qed.
Example ex_cel_print : print_cel (CelResponseOnly (CertifiedHeaders [bs "a"; bs "b"])) =
  bs "default_certification(ValidationArgs{certification:Certification{no_request_certification:Empty{},response_certification:ResponseCertification{certified_response_headers:ResponseHeaderList{headers:[""a"",""b""]}}}})".
Proof. reflexivity. Qed.
(** the cast to u8 also lets non-ASCII characters through: "š" (U+0161) in a name *)
Example ex_cast : cel_of_text (print_cel (CelResponseOnly (CertifiedHeaders [unhex "c5a1"]))) = Some (CelResponseOnly (CertifiedHeaders [unhex "c5a1"])).
Proof. vm_compute. reflexivity. Qed.
