(** Properties C141 and C142: the errors for certification expressions. *)
From Coq Require Import List NArith Bool String.
From Verif Require Import Bytes Utf8Spec HttpTypes Cbor Cel CelSpec CelGrammar Errors CelErrors CelErrorSpec CelProofs Props_Cel Props_CelGrammar.
Import ListNotations.
Local Open Scope list_scope.

Definition opt_of {A} (r : cres A) : option A := match r with ROk a => Some a | _ => None end.
Definition result {A} (r : cres A) : Prop := (exists a, r = ROk a) \/ exists e, r = RErr e.
Lemma opt_bind_e {A B} (r : cres A) (f : A -> cres B) : opt_of (rbind r f) = opt_bind (opt_of r) (fun a => opt_of (f a)).
Proof. destruct r; reflexivity. Qed.
Lemma opt_bind_ext {A B} (o o' : option A) (f g : A -> option B) : o = o' -> (forall a, f a = g a) -> opt_bind o f = opt_bind o' g.
Proof. intros -> E. destruct o'; cbn; auto. Qed.
Lemma object_opt v n : opt_of (validate_object_e v n) = validate_object v n.
Proof. destruct v; cbn; try reflexivity. destruct (bytes_eqb n0 n); reflexivity. Qed.
Lemma function_opt v n : opt_of (validate_function_e v n) = validate_function v n.
Proof. destruct v; cbn; try reflexivity. destruct (bytes_eqb n0 n); reflexivity. Qed.
Lemma strings_opt n w l : opt_of (strings_e n w l) = strings l.
Proof. induction l as [|[| | |] l IH]; cbn; try reflexivity. rewrite opt_bind_e, IH. reflexivity. Qed.
Lemma array_opt v n : opt_of (validate_string_array_e v n) = validate_string_array v.
Proof. destruct v; cbn; try reflexivity. apply strings_opt. Qed.
Lemma or_opt {A} (o : option A) e : opt_of (or_err o e) = o.
Proof. destruct o; reflexivity. Qed.
Lemma request_opt m : opt_of (validate_request_certification_e m) = validate_request_certification m.
Proof.
  unfold validate_request_certification_e, validate_request_certification. destruct (map_get _ m), (map_get _ m); try reflexivity.
  rewrite opt_bind_e. apply opt_bind_ext; [apply object_opt|intro rm]. rewrite opt_bind_e. apply opt_bind_ext; [apply or_opt|intro h].
  rewrite opt_bind_e. apply opt_bind_ext; [apply array_opt|intro hs]. rewrite opt_bind_e. apply opt_bind_ext; [apply or_opt|intro q].
  rewrite opt_bind_e. apply opt_bind_ext; [apply array_opt|intro qs]. reflexivity.
Qed.
Lemma list_opt m k : opt_of (response_list_e m k) = response_list m k.
Proof.
  unfold response_list_e, response_list. destruct (map_get k m); [|reflexivity]. rewrite opt_bind_e. apply opt_bind_ext; [apply object_opt|intro lm].
  destruct (map_get _ lm); [|reflexivity]. rewrite opt_bind_e. apply opt_bind_ext; [apply array_opt|reflexivity].
Qed.
Lemma response_opt m : opt_of (validate_response_certification_e m) = validate_response_certification m.
Proof.
  unfold validate_response_certification_e, validate_response_certification. rewrite opt_bind_e. apply opt_bind_ext; [apply or_opt|intro v].
  rewrite opt_bind_e. apply opt_bind_ext; [apply object_opt|intro rm]. rewrite opt_bind_e. apply opt_bind_ext; [apply list_opt|intro a].
  rewrite opt_bind_e. apply opt_bind_ext; [apply list_opt|intro b]. destruct a, b; reflexivity.
Qed.
Lemma map_opt v : opt_of (map_cel_ast_e v) = map_cel_ast v.
Proof.
  unfold map_cel_ast_e, map_cel_ast. rewrite opt_bind_e. apply opt_bind_ext; [apply function_opt|intros [|arg r]]; [reflexivity|].
  rewrite opt_bind_e. apply opt_bind_ext; [apply object_opt|intro m]. destruct (map_get _ m), (map_get _ m); try reflexivity.
  rewrite opt_bind_e. apply opt_bind_ext; [apply object_opt|intro cm]. rewrite opt_bind_e. apply opt_bind_ext; [apply request_opt|intro rq].
  rewrite opt_bind_e. apply opt_bind_ext; [apply response_opt|intro rs]. destruct rq; reflexivity.
Qed.
(** no panic *)
Lemma result_bind {A B} (r : cres A) (f : A -> cres B) : result r -> (forall a, result (f a)) -> result (rbind r f).
Proof. intros [[a ->]|[e ->]] F; cbn; [apply F|right; eauto]. Qed.
Lemma result_ok {A} (a : A) : result (ROk a). Proof. left; eauto. Qed.
Lemma result_err {A} e : result (@RErr cel_error A e). Proof. right; eauto. Qed.
#[local] Hint Resolve result_bind result_ok result_err : core.
Lemma object_result v n : result (validate_object_e v n).
Proof. destruct v; cbn; auto. destruct (bytes_eqb n0 n); auto. Qed.
Lemma or_result {A} (o : option A) e : result (or_err o e).
Proof. destruct o; cbn; auto. Qed.
Lemma array_result v n : result (validate_string_array_e v n).
Proof. destruct v; cbn; auto. generalize (CvArray l) as w. intro w. induction l as [|[| | |] l IH]; cbn; auto. Qed.
#[local] Hint Resolve object_result or_result array_result : core.
Lemma list_result m k : result (response_list_e m k).
Proof. unfold response_list_e. destruct (map_get k m); auto. apply result_bind; auto. intro lm. destruct (map_get _ lm); auto. Qed.
#[local] Hint Resolve list_result : core.
Lemma map_result v : result (map_cel_ast_e v).
Proof.
  unfold map_cel_ast_e. apply result_bind.
  { destruct v; cbn; auto. destruct (bytes_eqb n _); auto. }
  intros [|arg r]; auto. apply result_bind; auto. intro m. destruct (map_get _ m), (map_get _ m); auto.
  apply result_bind; auto. intro cm. apply result_bind.
  { unfold validate_request_certification_e. destruct (map_get _ cm), (map_get _ cm); auto. repeat (apply result_bind; auto; intro). }
  intro rq. apply result_bind; [|intro; destruct rq; auto].
  unfold validate_response_certification_e. repeat (apply result_bind; auto; intro). destruct a1, a2; auto.
Qed.

(** ** Each function's error is the fault *)
Lemma object_err v k e : validate_object_e v (bs k) = RErr e <-> object_fault v k e.
Proof.
  split.
  - destruct v; cbn; try (intro E; injection E as <-; apply object_other_type; intros; discriminate).
    destruct (bytes_eqb_spec n (bs k)) as [_|N]; [discriminate|]. intro E; injection E as <-. eapply object_other_name; eauto.
  - intros [N|n m -> N]; [destruct v; cbn; try reflexivity; exfalso; eapply N; reflexivity|].
    cbn. destruct (bytes_eqb_spec n (bs k)); [contradiction|reflexivity].
Qed.
Lemma object_fine v k m : validate_object_e v (bs k) = ROk m <-> v = CvObject (bs k) m.
Proof.
  split; [|intros ->; cbn; destruct (bytes_eqb_spec (bs k) (bs k)); [reflexivity|congruence]].
  intro E. apply (f_equal opt_of) in E. rewrite object_opt in E. apply validate_object_spec in E. exact E.
Qed.
Lemma array_fine v k l : validate_string_array_e v k = ROk l <-> v = CvArray (map CvString l).
Proof.
  assert (Z := array_opt v k). split.
  - intro E. rewrite E in Z. cbn in Z. symmetry in Z. apply string_array_spec in Z. exact Z.
  - intros ->. rewrite string_array_of_map in Z. destruct (validate_string_array_e _ k); cbn in Z; congruence.
Qed.
Lemma strings_err k w l e : strings_e k w l = RErr e <-> e = UnexpectedNodeType k (bs "String") w /\ exists x, In x l /\ forall s, x <> CvString s.
Proof.
  induction l as [|x l IH]; cbn; [split; [discriminate|intros (_ & x & [] & _)]|].
  assert (O : (forall s, x <> CvString s) -> (@RErr cel_error (list bytes) (UnexpectedNodeType k (bs "String") w) = RErr e <-> e = UnexpectedNodeType k (bs "String") w /\ exists y, (x = y \/ In y l) /\ forall s, y <> CvString s)).
  { intro N. split; [intro E; injection E as <-; eauto|intros [-> _]; reflexivity]. }
  destruct x as [s| | |]; try (apply O; intros; discriminate).
  assert (B : rbind (strings_e k w l) (fun ss => ROk (s :: ss)) = RErr e <-> strings_e k w l = RErr e).
  { destruct (strings_e k w l); cbn; split; congruence. }
  rewrite B, IH. split; intros [-> (x & I & N)]; (split; [reflexivity|]); exists x; (split; [|exact N]); auto.
  destruct I as [<-|I]; [destruct (N s); reflexivity|exact I].
Qed.
Lemma array_err v k e : validate_string_array_e v (bs k) = RErr e <-> list_fault v k e.
Proof.
  split.
  - destruct v; cbn; try (intro E; injection E as <-; apply list_other_type; intros; discriminate).
    intro E. apply strings_err in E. destruct E as [-> (x & I & N)]. eapply list_element; eauto.
  - intros [N|l x -> I N]; [destruct v; cbn; try reflexivity; exfalso; eapply N; reflexivity|].
    cbn. apply strings_err. eauto.
Qed.
Lemma bind_err {A B} (r : cres A) (f : A -> cres B) e : rbind r f = RErr e <-> r = RErr e \/ exists a, r = ROk a /\ f a = RErr e.
Proof.
  destruct r; cbn; split; intro E; try discriminate; eauto; try (destruct E as [E|(a0 & E & F)]; try discriminate; try congruence).
  left. congruence.
Qed.
Lemma or_err_err {A} (o : option A) x e : or_err o x = RErr e <-> o = None /\ e = x.
Proof. destruct o; cbn; split; intro E; try discriminate; try (destruct E; congruence). injection E as <-. auto. Qed.
Lemma or_err_ok {A} (o : option A) x a : or_err o x = ROk a <-> o = Some a.
Proof. destruct o; cbn; split; congruence. Qed.
Lemma list_fine m k o : dk_map m -> (response_list_e m (bs k) = ROk o <-> hlist m k o).
Proof.
  intro D. rewrite <- response_list_iff by exact D. rewrite <- list_opt. destruct (response_list_e m (bs k)); cbn; split; congruence.
Qed.
Lemma list_err m k e : dk_map m -> (response_list_e m (bs k) = RErr e <-> hlist_fault m k e).
Proof.
  intro D. unfold response_list_e. split.
  - destruct (map_get (bs k) m) as [v|] eqn:G; [|discriminate]. apply get_field in G; [|exact D]. intro E. apply bind_err in E. destruct E as [E|(lm & O & E)].
    + apply object_err in E. eapply hlist_object; eauto.
    + apply (object_fine v "ResponseHeaderList") in O. subst v. destruct (map_get (bs "headers") lm) as [h|] eqn:Gh; [|discriminate].
      apply bind_err in E. destruct E as [E|(a & _ & E)]; [|discriminate]. apply array_err in E. eapply hlist_list; eauto. apply map_get_in. exact Gh.
  - intros [v x F O|lm h x F Fh L].
    + apply get_field in F; [|exact D]. rewrite F. apply bind_err. left. apply (object_err v "ResponseHeaderList"). exact O.
    + assert (DL := dk_field _ _ _ _ D F). apply get_field in F; [|exact D]. rewrite F. apply bind_err. right. exists lm. split; [apply (object_fine _ "ResponseHeaderList"); reflexivity|].
      apply get_field in Fh; [|exact DL]. rewrite Fh. apply bind_err. left. apply array_err. exact L.
Qed.
Lemma response_err m e : dk_map m -> (validate_response_certification_e m = RErr e <-> response_fault m e).
Proof.
  intro D. unfold validate_response_certification_e. split.
  - intro E. apply bind_err in E. destruct E as [E|(v & G & E)].
    { apply or_err_err in E. destruct E as [G ->]. apply response_none. apply none_field. exact G. }
    apply or_err_ok in G. apply get_field in G; [|exact D]. apply bind_err in E. destruct E as [E|(rm & O & E)].
    { apply (object_err v "ResponseCertification") in E. eapply response_object; eauto. }
    apply (object_fine v "ResponseCertification") in O. subst v. assert (DR := dk_field _ _ _ _ D G). apply bind_err in E. destruct E as [E|(a & A & E)].
    { apply (list_err rm "certified_response_headers") in E; [|exact DR]. eapply response_headers; eauto. }
    apply (list_fine rm "certified_response_headers") in A; [|exact DR]. apply bind_err in E. destruct E as [E|(b & B & E)].
    { apply (list_err rm "response_header_exclusions") in E; [|exact DR]. eapply response_exclusions; eauto. }
    apply (list_fine rm "response_header_exclusions") in B; [|exact DR].
    destruct a as [la|], b as [lb|]; try discriminate; injection E as <-; [eapply response_both|eapply response_neither]; eauto.
  - intro F. destruct F as [N|v e F O|rm e F A|rm o e F A B|rm l l' F A B|rm F A B]; apply bind_err.
    { left. apply or_err_err. split; [apply none_field; exact N|reflexivity]. }
    all: right; assert (G := F); apply get_field in G; [|exact D]; eexists; (split; [apply or_err_ok; exact G|]); apply bind_err.
    { left. apply (object_err v "ResponseCertification"). exact O. }
    all: right; assert (DR := dk_field _ _ _ _ D F); exists rm; (split; [apply (object_fine _ "ResponseCertification"); reflexivity|]); apply bind_err.
    { left. apply (list_err rm "certified_response_headers"); assumption. }
    all: right; eexists; (split; [apply (list_fine rm "certified_response_headers"); eassumption|]); apply bind_err.
    { left. apply (list_err rm "response_header_exclusions"); assumption. }
    all: right; eexists; (split; [apply (list_fine rm "response_header_exclusions"); eassumption|reflexivity]).
Qed.
Lemma request_err m e : dk_map m -> (validate_request_certification_e m = RErr e <-> request_fault m e).
Proof.
  intro D. unfold validate_request_certification_e. split.
  - destruct (map_get (bs "no_request_certification") m) as [x|] eqn:G1; destruct (map_get (bs "request_certification") m) as [v|] eqn:G2; try discriminate.
    { intro E. injection E as <-. apply request_both; apply some_get; eauto. }
    2:{ intro E. injection E as <-. apply request_neither; apply none_field; assumption. }
    apply none_field in G1. apply get_field in G2; [|exact D]. intro E. apply bind_err in E. destruct E as [E|(qm & O & E)].
    { apply (object_err v "RequestCertification") in E. eapply request_object; eauto. }
    apply (object_fine v "RequestCertification") in O. subst v. assert (DQ := dk_field _ _ _ _ D G2).
    apply bind_err in E. destruct E as [E|(h & G & E)].
    { apply or_err_err in E. destruct E as [G ->]. eapply request_no_headers; eauto. apply none_field. exact G. }
    apply or_err_ok in G. apply get_field in G; [|exact DQ]. apply bind_err in E. destruct E as [E|(hs & Hs & E)].
    { apply (array_err h "certified_request_headers") in E. eapply request_headers; eauto. }
    apply array_fine in Hs. subst h. apply bind_err in E. destruct E as [E|(q & G' & E)].
    { apply or_err_err in E. destruct E as [G' ->]. eapply request_no_query; eauto. apply none_field. exact G'. }
    apply or_err_ok in G'. apply get_field in G'; [|exact DQ]. apply bind_err in E. destruct E as [E|(qs & _ & E)]; [|discriminate].
    apply (array_err q "certified_query_parameters") in E. eapply request_query; eauto.
  - intro F. destruct F as [S S'|N N'|v e N F O|qm N F X|qm h e N F X L|qm hs N F X Y|qm hs q e N F X Y L].
    { apply some_get in S, S'. destruct S as [? ->], S' as [? ->]. reflexivity. }
    { apply none_field in N, N'. rewrite N, N'. reflexivity. }
    all: apply none_field in N; assert (G := F); apply get_field in G; [|exact D]; rewrite N, G; apply bind_err.
    { left. apply (object_err v "RequestCertification"). exact O. }
    all: right; assert (DQ := dk_field _ _ _ _ D F); exists qm; (split; [apply (object_fine _ "RequestCertification"); reflexivity|]); apply bind_err.
    { left. apply or_err_err. split; [apply none_field; exact X|reflexivity]. }
    all: right; apply get_field in X; [|exact DQ]; eexists; (split; [apply or_err_ok; exact X|]); apply bind_err.
    { left. apply (array_err h "certified_request_headers"). exact L. }
    all: right; exists hs; (split; [apply array_fine; reflexivity|]); apply bind_err.
    { left. apply or_err_err. split; [apply none_field; exact Y|reflexivity]. }
    right. apply get_field in Y; [|exact DQ]. eexists. split; [apply or_err_ok; exact Y|]. apply bind_err. left. apply (array_err q "certified_query_parameters"). exact L.
Qed.
Lemma request_fine_iff m : dk_map m -> ((exists o, validate_request_certification_e m = ROk o) <-> request_fine m).
Proof.
  intro D. split.
  - intros [o E]. apply (f_equal opt_of) in E. rewrite request_opt in E. cbn [opt_of] in E. unfold validate_request_certification in E.
    destruct (map_get (bs "no_request_certification") m) as [x|] eqn:G4; destruct (map_get (bs "request_certification") m) as [y|] eqn:G5; try discriminate.
    + apply fine_none; [apply some_get; eauto|apply none_field; exact G5].
    + destruct (validate_object y (bs "RequestCertification")) as [qm|] eqn:V; [|discriminate]. cbn [opt_bind] in E. apply validate_object_spec in V. subst y.
      apply none_field in G4. apply get_field in G5; [|exact D]. assert (DQ := dk_field _ _ _ _ D G5).
      destruct (map_get (bs "certified_request_headers") qm) as [h|] eqn:G6; [|discriminate]. cbn [opt_bind] in E.
      destruct (validate_string_array h) as [hs|] eqn:S1; [|discriminate]. cbn [opt_bind] in E.
      destruct (map_get (bs "certified_query_parameters") qm) as [q|] eqn:G7; [|discriminate]. cbn [opt_bind] in E.
      destruct (validate_string_array q) as [qs|] eqn:S2; [|discriminate].
      apply string_array_spec in S1, S2. unfold string_list in S1, S2. subst h q. apply get_field in G6, G7; try exact DQ. eapply fine_lists; eassumption.
  - intros [S N|qm hs qs N F X Y].
    + apply some_get in S. destruct S as [v S]. apply none_field in N. unfold validate_request_certification_e. rewrite S, N. eauto.
    + assert (DQ := dk_field _ _ _ _ D F). apply none_field in N. apply get_field in F; [|exact D]. apply get_field in X, Y; try exact DQ.
      unfold validate_request_certification_e. rewrite N, F. rewrite (proj2 (object_fine _ "RequestCertification" qm) eq_refl). cbn [rbind]. rewrite X, Y. cbn [or_err rbind].
      rewrite !(proj2 (array_fine _ _ _) eq_refl). cbn [rbind]. eauto.
Qed.
Lemma map_err v e : distinct_keys v -> (map_cel_ast_e v = RErr e <-> cel_fault v e).
Proof.
  intro D. unfold map_cel_ast_e. split.
  - intro E. apply bind_err in E. destruct E as [E|(l & V & E)].
    { destruct v as [| |n l|n l]; cbn [validate_function_e] in E; try (injection E as <-; apply no_function; intros; discriminate).
      destruct (bytes_eqb_spec n (bs "default_certification")) as [_|N]; [discriminate|]. injection E as <-. apply other_function. exact N. }
    destruct v as [| |n l'|n l']; try discriminate V. cbn [validate_function_e] in V. destruct (bytes_eqb_spec n (bs "default_certification")) as [->|]; [|discriminate]. injection V as ->.
    destruct l as [|arg rest]; [injection E as <-; apply no_argument|]. apply bind_err in E. destruct E as [E|(m & V & E)].
    { apply (object_err arg "ValidationArgs") in E. apply argument. exact E. }
    apply (object_fine arg "ValidationArgs") in V. subst arg. cbn [distinct_keys] in D. destruct D as [D _]. apply (dk_object (bs "ValidationArgs")) in D.
    destruct (map_get (bs "no_certification") m) as [x|] eqn:G1; destruct (map_get (bs "certification") m) as [c|] eqn:G2; try discriminate.
    { injection E as <-. apply both_properties; apply some_get; eauto. }
    2:{ injection E as <-. apply neither_property; apply none_field; assumption. }
    apply none_field in G1. apply get_field in G2; [|exact D]. apply bind_err in E. destruct E as [E|(cm & V & E)].
    { apply (object_err c "Certification") in E. eapply certification_object; eauto. }
    apply (object_fine c "Certification") in V. subst c. assert (DC := dk_field _ _ _ _ D G2). apply bind_err in E. destruct E as [E|(rq & R & E)].
    { apply request_err in E; [|exact DC]. eapply in_request; eauto. }
    apply bind_err in E. destruct E as [E|(rs & _ & E)]; [|destruct rq; discriminate].
    apply response_err in E; [|exact DC]. eapply in_response; eauto. apply request_fine_iff; eauto.
  - assert (FN : forall l, validate_function_e (CvFunction (bs "default_certification") l) (bs "default_certification") = ROk l).
    { intro l. cbn. reflexivity. }
    intro F. destruct F as [v N|n l N| |x rest e O|m rest S S'|m rest N N'|m rest v e N G O|m rest cm e N G O|m rest cm e N G R O]; apply bind_err.
    { left. destruct v; cbn; try reflexivity. exfalso. eapply N. reflexivity. }
    { left. cbn [validate_function_e]. destruct (bytes_eqb_spec n (bs "default_certification")); [contradiction|reflexivity]. }
    all: right; eexists; (split; [apply FN|]); try reflexivity; apply bind_err.
    { left. apply (object_err x "ValidationArgs"). exact O. }
    all: right; cbn [distinct_keys] in D; destruct D as [D _]; apply (dk_object (bs "ValidationArgs")) in D; exists m; (split; [apply (object_fine _ "ValidationArgs"); reflexivity|]).
    { apply some_get in S, S'. destruct S as [? ->], S' as [? ->]. reflexivity. }
    { apply none_field in N, N'. rewrite N, N'. reflexivity. }
    all: apply none_field in N; assert (G' := G); apply get_field in G'; [|exact D]; rewrite N, G'; apply bind_err.
    { left. apply (object_err v "Certification"). exact O. }
    all: right; assert (DC := dk_field _ _ _ _ D G); exists cm; (split; [apply (object_fine _ "Certification"); reflexivity|]); apply bind_err.
    { left. apply request_err; assumption. }
    right. apply request_fine_iff in R; [|exact DC]. destruct R as [rq R]. exists rq. split; [exact R|]. apply bind_err. left. apply response_err; assumption.
Qed.

(** The error values do not change the verdict, and there is always a verdict. *)
Theorem C141_same_verdict :
  forall (s : bytes),
  (forall c, cel_of_text_e s = ROk c <-> cel_of_text s = Some c) /\
  (cel_of_text s = None <-> exists e, cel_of_text_e s = RErr e) /\
  cel_of_text_e s <> RPanic /\ cel_of_text_e s <> RFuel.
Proof.
  intro s. assert (Z : opt_of (cel_of_text_e s) = cel_of_text s).
  { unfold cel_of_text_e, cel_of_text. rewrite opt_bind_e. apply opt_bind_ext; [apply or_opt|apply map_opt]. }
  assert (R : result (cel_of_text_e s)).
  { unfold cel_of_text_e. apply result_bind; auto. apply map_result. }
  rewrite <- Z. destruct R as [[c ->]|[e ->]]; cbn; (split; [intro; split; congruence|]); (split; [split; [try discriminate; eauto|intros [? X]; try discriminate X; reflexivity]|split; discriminate]).
Qed.
Print Assumptions C141_same_verdict.

(** The error is that of what is wrong first; [CelSyntaxException] exactly if no initial part of the text is an expression. *)
Theorem C141_reported_error :
  forall (s : bytes) (e : cel_error), (exists cs, utf8_text cs s) ->
  (cel_of_text_e s = RErr e <->
   (e = CelSyntaxException /\ ~ exists t rest v, s = t ++ rest /\ expr t v) \/
   exists t rest v, s = t ++ rest /\ expr t v /\ cel_fault v e).
Proof.
  intros s e T. unfold cel_of_text_e.
  assert (DK : forall v, parse_cel s = Some v -> distinct_keys v).
  { intros v P. unfold parse_cel in P. destruct (cel_value (S (List.length s)) s) as [v' r| | |] eqn:Q; try discriminate. injection P as <-. eapply cel_value_distinct. exact Q. }
  destruct (parse_cel s) as [v|] eqn:P; cbn [or_err rbind].
  - assert (P' := P). apply C122_syntax_exactly in P'; [|exact T]. destruct P' as (t & rest & S & X). rewrite map_err by (apply DK; reflexivity). split.
    + intro F. right. exists t, rest, v. auto.
    + intros [[_ N]|(t' & rest' & v' & S' & X' & F)]; [exfalso; apply N; eauto|].
      assert (Q : parse_cel s = Some v') by (apply C122_syntax_exactly; eauto). rewrite P in Q. injection Q as ->. exact F.
  - assert (N : ~ exists t rest v, s = t ++ rest /\ expr t v).
    { intros (t & rest & v & S & X). assert (Q : parse_cel s = Some v) by (apply C122_syntax_exactly; eauto). congruence. }
    split; [intro E; injection E as <-; left; auto|]. intros [[-> _]|(t & rest & v & S & X & _)]; [reflexivity|]. exfalso. apply N. eauto.
Qed.
Print Assumptions C141_reported_error.
(** Nothing is wrong in two ways: the error is determined by the expression. *)
Theorem C141_one_error :
  forall (s t rest : bytes) (v : cv) (e e' : cel_error), (exists cs, utf8_text cs s) ->
  s = t ++ rest -> expr t v -> cel_fault v e -> cel_fault v e' -> e = e'.
Proof.
  intros s t rest v e e' T S X F F'. assert (A : cel_of_text_e s = RErr e) by (apply C141_reported_error; [exact T|right; eauto 6]).
  assert (B : cel_of_text_e s = RErr e') by (apply C141_reported_error; [exact T|right; eauto 6]). congruence.
Qed.
Print Assumptions C141_one_error.

(** ** C142 *)
(** Two of the documented errors are never reported: a call of another function is reported by its name, an argument
    of another type as an unexpected node. *)
Theorem C142_unused_errors_refuted :
  (forall s n, cel_of_text_e s <> RErr (UnrecognizedFunction n)) /\
  (forall s f p t u i, cel_of_text_e s <> RErr (IncorrectFunctionParameterType f p t u i)) /\
  cel_of_text_e (bs "other()") = RErr (UnexpectedNodeName (bs "Function") (bs "default_certification") (bs "other")) /\
  cel_of_text_e (bs "default_certification([])") = RErr (UnexpectedNodeType (bs "ValidationArgs") (bs "Object") (CvArray [])).
Proof.
  assert (OE : forall v n e, validate_object_e v n = RErr e -> (forall x, e <> UnrecognizedFunction x) /\ forall f p t u i, e <> IncorrectFunctionParameterType f p t u i).
  { intros v n e. destruct v; cbn; try (intro E; injection E as <-; split; discriminate). destruct (bytes_eqb n0 n); [discriminate|]. intro E; injection E as <-; split; discriminate. }
  assert (SE : forall k w l e, strings_e k w l = RErr e -> (forall x, e <> UnrecognizedFunction x) /\ forall f p t u i, e <> IncorrectFunctionParameterType f p t u i).
  { intros k w l e E. apply strings_err in E. destruct E as [-> _]. split; discriminate. }
  assert (AE : forall v n e, validate_string_array_e v n = RErr e -> (forall x, e <> UnrecognizedFunction x) /\ forall f p t u i, e <> IncorrectFunctionParameterType f p t u i).
  { intros v n e. destruct v; cbn; try (intro E; injection E as <-; split; discriminate). apply SE. }
  assert (LE : forall m k e, response_list_e m k = RErr e -> (forall x, e <> UnrecognizedFunction x) /\ forall f p t u i, e <> IncorrectFunctionParameterType f p t u i).
  { intros m k e. unfold response_list_e. destruct (map_get k m); [|discriminate]. intro E. apply bind_err in E. destruct E as [E|(lm & _ & E)]; [eapply OE; exact E|].
    destruct (map_get _ lm); [|discriminate]. apply bind_err in E. destruct E as [E|(x & _ & E)]; [eapply AE; exact E|discriminate]. }
  assert (ALL : forall s e, cel_of_text_e s = RErr e -> (forall x, e <> UnrecognizedFunction x) /\ forall f p t u i, e <> IncorrectFunctionParameterType f p t u i).
  { intros s e E. unfold cel_of_text_e in E. apply bind_err in E. destruct E as [E|(v & _ & E)]; [apply or_err_err in E; destruct E as [_ ->]; split; discriminate|].
    unfold map_cel_ast_e in E. apply bind_err in E. destruct E as [E|(l & _ & E)].
    { destruct v; cbn in E; try (injection E as <-; split; discriminate). destruct (bytes_eqb n _); [discriminate|]. injection E as <-; split; discriminate. }
    destruct l as [|arg r]; [injection E as <-; split; discriminate|]. apply bind_err in E. destruct E as [E|(m & _ & E)]; [eapply OE; exact E|].
    destruct (map_get _ m), (map_get _ m); try discriminate; try (injection E as <-; split; discriminate).
    apply bind_err in E. destruct E as [E|(cm & _ & E)]; [eapply OE; exact E|]. apply bind_err in E. destruct E as [E|(rq & _ & E)].
    - unfold validate_request_certification_e in E. destruct (map_get _ cm), (map_get _ cm); try discriminate; try (injection E as <-; split; discriminate).
      apply bind_err in E. destruct E as [E|(qm & _ & E)]; [eapply OE; exact E|].
      apply bind_err in E. destruct E as [E|(h & _ & E)]; [apply or_err_err in E; destruct E as [_ ->]; split; discriminate|].
      apply bind_err in E. destruct E as [E|(hs & _ & E)]; [eapply AE; exact E|].
      apply bind_err in E. destruct E as [E|(q & _ & E)]; [apply or_err_err in E; destruct E as [_ ->]; split; discriminate|].
      apply bind_err in E. destruct E as [E|(qs & _ & E)]; [eapply AE; exact E|discriminate].
    - apply bind_err in E. destruct E as [E|(rs & _ & E)]; [|destruct rq; discriminate].
      unfold validate_response_certification_e in E.
      apply bind_err in E. destruct E as [E|(h & _ & E)]; [apply or_err_err in E; destruct E as [_ ->]; split; discriminate|].
      apply bind_err in E. destruct E as [E|(rm & _ & E)]; [eapply OE; exact E|].
      apply bind_err in E. destruct E as [E|(a & _ & E)]; [eapply LE; exact E|].
      apply bind_err in E. destruct E as [E|(b & _ & E)]; [eapply LE; exact E|].
      destruct a, b; try discriminate; injection E as <-; split; discriminate. }
  split; [|split; [|split; vm_compute; reflexivity]].
  - intros s n E. apply ALL in E. destruct E as [E _]. exact (E n eq_refl).
  - intros s f p t u i E. apply ALL in E. destruct E as [_ E]. exact (E f p t u i eq_refl).
Qed.
Print Assumptions C142_unused_errors_refuted.

(** the object that should have the property is called something else in the expression *)
Definition without_response : bytes := bs "default_certification(ValidationArgs{certification:Certification{no_request_certification:Empty{}}})".
(** [name] is the name of an object in [v] *)
Fixpoint names_object (name : bytes) (v : cv) : bool :=
  match v with
  | CvString _ => false
  | CvArray l | CvFunction _ l => existsb (names_object name) l
  | CvObject n m => bytes_eqb n name || existsb (fun kv => names_object name (snd kv)) m
  end.
Theorem C142_object_named_refuted :
  exists (s : bytes) (v : cv) (o p : bytes), parse_cel s = Some v /\ cel_of_text_e s = RErr (MissingObjectProperty o p) /\ names_object o v = false.
Proof. exists without_response. do 3 eexists. split; [vm_compute; reflexivity|split; vm_compute; reflexivity]. Qed.
Print Assumptions C142_object_named_refuted.
(** an element that is not a string is reported as if the array should be a string *)
Theorem C142_element_shown_refuted :
  exists (s n : bytes) (l : list cv), cel_of_text_e s = RErr (UnexpectedNodeType n (bs "String") (CvArray l)).
Proof.
  exists (bs "default_certification(ValidationArgs{certification:Certification{request_certification:RequestCertification{certified_request_headers:[f()],certified_query_parameters:[]}}})").
  do 2 eexists. vm_compute. reflexivity.
Qed.
Print Assumptions C142_element_shown_refuted.

(** ** Concrete cases *)
Example c141_ex :
  cel_of_text_e (bs "[") = RErr CelSyntaxException /\
  cel_of_text_e (bs "default_certification()") = RErr (MissingFunctionParameter (bs "default_certification") (bs "Object") (bs "ValidationArgs") 0) /\
  cel_of_text_e (bs "default_certification(Args{})") = RErr (UnexpectedNodeName (bs "Object") (bs "ValidationArgs") (bs "Args")) /\
  cel_of_text_e (bs "default_certification(ValidationArgs{})") = RErr MissingValidationArgsProperty /\
  cel_of_text_e without_response = RErr (MissingObjectProperty (bs "RequestCertification") (bs "response_certification")).
Proof. repeat split; vm_compute; reflexivity. Qed.
