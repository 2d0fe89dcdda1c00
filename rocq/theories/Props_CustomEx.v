(** C102-C104: concrete cases of the custom-assets example, and requests it answers with responses that are rejected. *)
From Coq Require Import List Arith NArith Lia Bool Permutation.
From Verif Require Import Bytes Toy Utf8 Text HashTree HashTreeSpec RbTree Nested NestedSpec Cbor CborSpec HttpTypes HttpHash HttpSpec Cel V2 WildcardSpec Verify VerifySpec Header HeaderSpec HttpTree HttpTreeSpec CertVerify CertSpec Props_Cert Props_Verify Props_HttpTree AssetRouter
  AssetSpec Props_Trip Props_Roundtrip JsonApi Props_Json Props_JsonEx Props_SkipEx CustomAssets CustomSpec Props_Custom.
Import ListNotations.
Local Open Scope N_scope.

(** "assets/**/*.ext" *)
Definition ends_with (s e : bytes) : bool := bprefix (rev e) (rev s).
Definition ex_glob (k p : bytes) : bool := bprefix (bs "assets/") p && existsb (fun e => ends_with k (bs "*" ++ e) && ends_with p e) [bs ".css"; bs ".js"; bs ".ico"; bs ".svg"].
Definition ex_dir : list item :=
  [AFile (bs "index.html") (bs "<p>"); AFile (bs "index.html.br") (bs "brp"); AFolder (bs "assets");
   AFile (bs "assets/a.js") (bs "a()"); AFile (bs "assets/a.js.gzip") (bs "gza"); AFile (bs "assets/b.css") (bs "b{}"); AFile (bs "assets/c.txt") (bs "c")].
Definition cu_state : custom := match custom_init toy ex_glob ex_dir with Some st => st | None => custom_default end.
Definition cu_root : bytes := Eval vm_compute in match cu_data cu_state with Some x => x | None => [] end.
Lemma some_of {A} (o : option A) (x : A) : match o with Some _ => true | None => false end = true -> o = Some (match o with Some y => y | None => x end).
Proof. destruct o; [reflexivity|intro Z; discriminate Z]. Qed.
Lemma cu_started : custom_init toy ex_glob ex_dir = Some cu_state.
Proof. apply some_of. vm_compute. reflexivity. Qed.
Lemma cu_certified : cu_data cu_state = Some cu_root.
Proof. vm_compute. reflexivity. Qed.
Definition cu_ask (url accept : bytes) : request := mk_request (bs "GET") url [(bs "Accept-Encoding", accept)] [].
Definition cu_serve (rq : request) : option response := custom_http_request toy ex_uri cu_state (Some (ex_certificate cu_root)) 5 rq.
Definition cu_verify (rq : request) (rs : response) : out info :=
  verify (2 ^ 64) (2 ^ 60) true toy ex_ple (toy_signer (ex_state cu_root)) ex_uri ex_query ex_none ex_none rq rs (bs "e") 1010 20 (ex_key x01) 2.
(** [None]: no answer; [Some None]: rejected; [Some (Some None)]: accepted without content; [Some (Some (Some b))]: the body [b] is accepted *)
Definition cu_trip (rq : request) : option (option (option bytes)) :=
  option_map (fun rs => match cu_verify rq rs with OOk i => Some (option_map v_body (i_response i)) | _ => None end) (cu_serve rq).

(** C102 holds for [spelled] paths: other spellings of a certified path get index.html, which the verifier rejects. *)
Theorem C102_other_spellings_are_rejected_refuted :
  cu_trip (cu_ask (bs "/assets/a.js") (bs "gzip, br")) = Some (Some (Some (bs "gza"))) /\
  cu_trip (cu_ask (bs "/assets/a.js") (bs "br")) = Some (Some (Some (bs "a()"))) /\
  cu_trip (cu_ask (bs "/assets/b.css") []) = Some (Some (Some (bs "b{}"))) /\
  cu_trip (cu_ask (bs "/assets/c.txt") (bs "gzip, br;q=0")) = Some (Some (Some (bs "brp"))) /\
  cu_trip (cu_ask (bs "/") []) = Some (Some (Some (bs "<p>"))) /\
  cu_trip (cu_ask (bs "/uncertified") (bs "br")) = Some (Some None) /\
  (* rejected *)
  cu_trip (cu_ask (bs "//assets/a.js") []) = Some None /\
  cu_trip (cu_ask (bs "//uncertified") []) = Some None.
Proof. vm_compute. repeat split. Qed.
Print Assumptions C102_other_spellings_are_rejected_refuted.

Lemma ex_published p ct : published ex_glob ex_dir p ct -> p = bs "assets/a.js" \/ p = bs "assets/b.css".
Proof.
  intros ((k & Ik & G) & c & HF).
  assert (B : forallb (fun x => match x with AFile q _ => negb (existsb (fun k => ex_glob (fst k) q) kinds) || bytes_eqb q (bs "assets/a.js") || bytes_eqb q (bs "assets/b.css") | AFolder _ => true end) ex_dir = true) by (vm_compute; reflexivity).
  rewrite forallb_forall in B. specialize (B _ HF). cbv beta iota in B.
  assert (X : existsb (fun k => ex_glob (fst k) p) kinds = true) by (apply existsb_exists; exists (k, ct); auto). rewrite X in B. cbn [negb orb] in B.
  apply orb_true_iff in B. rewrite !bytes_eqb_eq in B. exact B.
Qed.
Example ex_tidy : tidy_files ex_glob ex_dir (2 ^ 64).
Proof.
  intros p ct P. destruct (ex_published p ct P) as [->| ->]; (split; [reflexivity|]; split; [apply sk_clean; reflexivity|]; split; [intro Z; vm_compute in Z; discriminate Z|]; split; [reflexivity|cbn; lia]).
Qed.
Example C102_C103_C104_hypotheses :
  tidy_files ex_glob ex_dir (2 ^ 64) /\ custom_init toy ex_glob ex_dir = Some cu_state /\
  published ex_glob ex_dir (bs "assets/a.js") (bs "text/javascript") /\ spelled ex_glob ex_dir (bs "/assets/a.js") /\ spelled ex_glob ex_dir (bs "/nothing/here") /\
  path_of ex_uri (cu_ask (bs "/assets/a.js") (bs "gzip")) (bs "/assets/a.js") /\
  certifies_data (2 ^ 64) (2 ^ 60) true toy ex_ple (toy_signer (ex_state cu_root)) (ex_certificate cu_root) (bs "e") (ex_key x01) 1010 20 (cu_data cu_state) /\
  unforgeable toy (toy_signer (ex_state cu_root)) (ex_key x01) (fun t => t = ex_state cu_root) (fun _ _ => False) /\
  (forall St x, speaks_for (2 ^ 64) (2 ^ 60) ex_ple (fun t => t = ex_state cu_root) (fun _ _ => False) (bs "e") St ->
     at_path (certified_data_path (bs "e")) St (HLeaf x) -> cu_data cu_state = Some x).
Proof.
  split; [exact ex_tidy|]. split; [exact cu_started|]. split; [split; [exists (bs "assets/**/*.js"); split; [right; left; reflexivity|reflexivity]|exists (bs "a()"); right; right; right; left; reflexivity]|].
  split; [|split].
  - intros u [->|(p & ct & P & ->)] E; [vm_compute in E; discriminate E|]. destruct (ex_published p ct P) as [->| ->]; [reflexivity|vm_compute in E; discriminate E].
  - intros u [->|(p & ct & P & ->)] E; [vm_compute in E; discriminate E|]. destruct (ex_published p ct P) as [->| ->]; vm_compute in E; discriminate E.
  - split; [apply path_by_run; vm_compute; reflexivity|]. split; [rewrite cu_certified; eexists _, cu_root; split; [vm_compute; reflexivity|]; split; [vm_compute; reflexivity|]; split; [reflexivity|vm_compute; reflexivity]|].
    split; [apply toy_signer_unforgeable|]. intros St x S A. rewrite (ex_speaks cu_root St x S A). rewrite <- cu_certified. reflexivity.
Qed.
Lemma trip_inv rq b : cu_trip rq = Some (Some b) -> exists rs i, cu_serve rq = Some rs /\ cu_verify rq rs = OOk i /\ option_map v_body (i_response i) = b.
Proof.
  unfold cu_trip. destruct (cu_serve rq) as [rs|]; [|intro Z; discriminate Z]. cbn [option_map]. destruct (cu_verify rq rs) as [i| | |] eqn:E; intro X; try discriminate X.
  exists rs, i. split; [reflexivity|]. split; [exact E|]. injection X as X. exact X.
Qed.
(** responses of both kinds are accepted *)
Example C103_C104_accepted :
  (exists rs i, cu_serve (cu_ask (bs "/assets/a.js") []) = Some rs /\ cu_verify (cu_ask (bs "/assets/a.js") []) rs = OOk i /\ i_response i <> None) /\
  (exists rs i, cu_serve (cu_ask (bs "/uncertified") []) = Some rs /\ cu_verify (cu_ask (bs "/uncertified") []) rs = OOk i /\ i_response i = None).
Proof.
  split.
  - destruct (trip_inv (cu_ask (bs "/assets/a.js") []) (Some (bs "a()"))) as (rs & i & A & B & C); [vm_compute; reflexivity|]. exists rs, i. split; [exact A|]. split; [exact B|]. intro Z. rewrite Z in C. discriminate C.
  - destruct (trip_inv (cu_ask (bs "/uncertified") []) None) as (rs & i & A & B & C); [vm_compute; reflexivity|]. exists rs, i. split; [exact A|]. split; [exact B|]. destruct (i_response i); [discriminate C|reflexivity].
Qed.
