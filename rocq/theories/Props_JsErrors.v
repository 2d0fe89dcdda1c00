(** C108: the error codes JavaScript sees. *)
From Coq Require Import List NArith ZArith Bool Lia.
From Verif Require Import Bytes HashTree Cbor HttpTypes CertVerify CertSpec Header HeaderSpec Verify VerifySpec Errors ErrorSpec JsBindings JsErrors.
From Verif Require Import WildcardSpec Props_Wildcard Props_Cert Props_Verify Props_Errors Props_Js.
Import ListNotations.
Local Open Scope N_scope.

(** the names of ResponseVerificationErrorCode, in the order of their numbers *)
Definition code_names : list bytes :=
  [bs "IoError"; bs "UnsupportedVerificationVersion"; bs "RequestedVerificationVersionMismatch"; bs "CelError";
   bs "Base64DecodingError"; bs "ParseIntError"; bs "InvalidTree"; bs "InvalidExpressionPath";
   bs "UnexpectedExpressionPathPrefix"; bs "UnexpectedExpressionPathSuffix"; bs "ExactExpressionPathNotFoundInTree"; bs "ExactExpressionPathMismatch";
   bs "ExactExpressionPathMightExistInTree"; bs "WildcardExpressionPathNotFoundInTree"; bs "WildcardExpressionPathMismatch"; bs "MoreSpecificWildcardExpressionMightExistInTree";
   bs "InvalidResponseBody"; bs "InvalidResponseHashes"; bs "MissingCertificate"; bs "MissingTree";
   bs "MissingCertificateExpressionPath"; bs "MissingCertificateExpression"; bs "MissingCertification"; bs "CborDecodingFailed";
   bs "CertificateVerificationFailed"; bs "HttpCertificationError"].
(** the kind of an error, by name *)
Definition kind_of (e : rv_error) : bytes :=
  match e with
  | IoError => bs "IoError"
  | UnsupportedVerificationVersion _ _ _ => bs "UnsupportedVerificationVersion"
  | RequestedVerificationVersionMismatch _ _ => bs "RequestedVerificationVersionMismatch"
  | CelError => bs "CelError"
  | Base64DecodingError => bs "Base64DecodingError"
  | ParseIntError => bs "ParseIntError"
  | InvalidTree => bs "InvalidTree"
  | InvalidExpressionPath => bs "InvalidExpressionPath"
  | UnexpectedExpressionPathPrefix _ => bs "UnexpectedExpressionPathPrefix"
  | UnexpectedExpressionPathSuffix _ => bs "UnexpectedExpressionPathSuffix"
  | ExactExpressionPathNotFoundInTree _ => bs "ExactExpressionPathNotFoundInTree"
  | ExactExpressionPathMismatch _ _ => bs "ExactExpressionPathMismatch"
  | ExactExpressionPathMightExistInTree _ _ _ => bs "ExactExpressionPathMightExistInTree"
  | WildcardExpressionPathNotFoundInTree _ _ => bs "WildcardExpressionPathNotFoundInTree"
  | WildcardExpressionPathMismatch _ _ => bs "WildcardExpressionPathMismatch"
  | MoreSpecificWildcardExpressionMightExistInTree _ _ _ => bs "MoreSpecificWildcardExpressionMightExistInTree"
  | InvalidResponseBody => bs "InvalidResponseBody"
  | InvalidResponseHashes => bs "InvalidResponseHashes"
  | MissingCertificate => bs "MissingCertificate"
  | MissingTree => bs "MissingTree"
  | MissingCertificateExpressionPath => bs "MissingCertificateExpressionPath"
  | MissingCertificateExpression => bs "MissingCertificateExpression"
  | MissingCertification => bs "MissingCertification"
  | CborDecodingFailed => bs "CborDecodingFailed"
  | CertificateVerificationFailed _ => bs "CertificateVerificationFailed"
  | HttpCertificationError _ => bs "HttpCertificationError"
  end.
Definition code_named (n : N) (name : bytes) : Prop := nth_error code_names (N.to_nat n) = Some name.
Lemma code_is e : code_named (discriminant (js_code_of e)) (kind_of e).
Proof. destruct e; reflexivity. Qed.
Lemma names_distinct : NoDup code_names.
Proof.
  assert (K : forall l : list bytes, (fix f (l : list bytes) := match l with [] => true | x :: r => negb (existsb (bytes_eqb x) r) && f r end) l = true -> NoDup l).
  { induction l as [|x r IH]; [constructor|]. intro E. apply andb_true_iff in E. destruct E as [A B]. constructor; [|exact (IH B)].
    intro I. assert (X : existsb (bytes_eqb x) r = true) by (apply existsb_exists; exists x; split; [exact I|apply bytes_eqb_refl]). rewrite X in A. discriminate A. }
  apply K. vm_compute. reflexivity.
Qed.
Lemma code_unique n m name : code_named n name -> code_named m name -> n = m.
Proof.
  unfold code_named. intros A B. assert (X : N.to_nat n = N.to_nat m) by (apply (proj1 (NoDup_nth_error code_names) names_distinct); [apply nth_error_Some; congruence|congruence]). lia.
Qed.

(** C108: verification fails in JavaScript with the code named like what is wrong, and only then. *)
Theorem C108_js_error_codes :
  forall method_ok umod cap_max checked H ple vs uri_path uri_query gunzip inflate rq rs q r canister_id now offset key min_version,
  request_from_js method_ok rq = OOk q -> response_from_js rs = OOk r ->
  now + offset < 2 ^ 128 -> offset <= now -> (length canister_id <= 29)%nat ->
  (forall path, path_of uri_path q path -> no_reserved_end path) ->
  let run := wasm_verify_e method_ok umod cap_max checked H ple vs uri_path uri_query gunzip inflate rq rs canister_id now offset key min_version in
  (forall n, run = RErr n <->
     exists x, fault umod cap_max checked H ple vs uri_path uri_query gunzip inflate q r canister_id now offset key min_version x /\ code_named n (kind_of x)) /\
  forget run = wasm_verify method_ok umod cap_max checked H ple vs uri_path uri_query gunzip inflate rq rs canister_id now offset key min_version.
Proof.
  intros mo umod cap ck H ple vs up uq gz df rq rs q r cid now off key mv Q R B1 B2 LC NR run. unfold run, wasm_verify_e, wasm_verify. rewrite Q, R. cbn [out_bind].
  assert (V := fun x => C83_reported_error umod cap ck H ple vs up uq gz df q r cid now off key mv x B1 B2 LC NR).
  rewrite <- (C83_same_verdict umod cap ck H ple vs up uq gz df q r cid now off key mv).
  destruct (verify_e umod cap ck H ple vs up uq gz df q r cid now off key mv) as [i|e| |] eqn:E; (split; [|reflexivity]); intro n; split.
  - intro Z; discriminate Z.
  - intros (x & F & _). apply V in F. discriminate F.
  - intro Z. injection Z as <-. exists e. split; [apply V; reflexivity|apply code_is].
  - intros (x & F & C). apply V in F. injection F as <-. f_equal. eapply code_unique; [apply code_is|exact C].
  - intro Z; discriminate Z.
  - intros (x & F & _). apply V in F. discriminate F.
  - intro Z; discriminate Z.
  - intros (x & F & _). apply V in F. discriminate F.
Qed.
Print Assumptions C108_js_error_codes.
(** C108: different kinds have different codes. *)
Theorem C108_codes_tell_kinds_apart :
  forall (n m : N) (a b : bytes), code_named n a -> code_named m b -> (n = m <-> a = b).
Proof.
  intros n m a b A B. split; [intros ->; unfold code_named in *; congruence|intros ->; eapply code_unique; eassumption].
Qed.
Print Assumptions C108_codes_tell_kinds_apart.
(** a concrete case: an object without certificate header *)
Definition js_get_a : jsval := JObj [(bs "method", JStr (bs "GET")); (bs "url", JStr (bs "/a/b?x")); (bs "headers", JArr []); (bs "body", JBytes [])].
Definition js_empty_200 : jsval := JObj [(bs "status_code", JNum 200%Z); (bs "headers", JArr []); (bs "body", JBytes [])].
Example C108_missing :
  request_from_js (fun m => bytes_eqb m (bs "GET")) js_get_a = OOk (mk_request (bs "GET") (bs "/a/b?x") [] []) /\
  response_from_js js_empty_200 = OOk (mk_response 200 [] []) /\
  (forall path, path_of ex_uri (mk_request (bs "GET") (bs "/a/b?x") [] []) path -> no_reserved_end path) /\
  wasm_verify_e (fun m => bytes_eqb m (bs "GET")) (2 ^ 64) (2 ^ 60) true eh ex_ple (fun _ _ _ => true) ex_uri ex_query ex_none ex_none js_get_a js_empty_200 (bs "e") 1000 20 (ex_key x01) 1 = RErr 22 /\
  code_named 22 (bs "MissingCertification").
Proof. split; [vm_compute; reflexivity|]. split; [vm_compute; reflexivity|]. split; [apply e_hypotheses|]. split; vm_compute; reflexivity. Qed.
