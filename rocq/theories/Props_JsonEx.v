(** C90: queries of the json-api example whose responses are rejected or that trap; and concrete cases for C87-C89. *)
From Coq Require Import List Arith NArith Lia Bool Permutation.
From Verif Require Import Bytes Toy Text HashTree HashTreeSpec RbTree Nested NestedSpec NestedProofs Cbor CborSpec HttpTypes HttpHash HttpSpec Cel V2 Wildcard WildcardSpec WildcardProofs Verify VerifySpec Header HeaderSpec HttpTree HttpTreeSpec CertVerify CertSpec Props_Cert Props_Header
  Props_Hash Props_Wildcard Props_Verify Props_HttpTree AssetRouter RangeSpec Props_Range AssetProofs Props_Roundtrip JsonApi JsonSpec Props_Json.
Import ListNotations.
Local Open Scope N_scope.

(** stand-ins for serde_json::from_slice *)
Definition ex_create (b : bytes) : option bytes := match b with "t"%byte :: r => Some r | _ => None end.
Definition ex_update (b : bytes) : option (option bytes * option bool) := match b with "t"%byte :: r => Some (Some r, None) | "c"%byte :: _ => Some (None, Some true) | _ => None end.
Definition call (m url body : bytes) : event := Update (fun l => l) (mk_request m url [] body).
Definition ex_events : list event :=
  [call (bs "POST") (bs "/todos") (bs "tmilk"); call (bs "post") (bs "/todos?x") (bs "ttea"); Upgrade (fun l => l);
   call (bs "POST") (bs "/todos") (bs "tmilk"); call (bs "POST") (bs "/todos") (bs "ttea"); call (bs "POST") (bs "/todos") (bs "tham");
   call (bs "PATCH") (bs "/todos/+1") (bs "c"); call (bs "DELETE") (bs "/todos/0") []; call (bs "PATCH") (bs "/todos/0") (bs "tx"); call (bs "GET") (bs "/todos") []].
Definition ex_list : list todo := [mk_todo 1 (bs "tea") true; mk_todo 2 (bs "ham") false].
Definition ex_start : option api := init toy ex_uri ex_query (fun l => l).
Definition ex_run (st : api) : api := run_events toy ex_uri ex_query ex_create ex_update true ex_events st.
Definition ex_api : option api := Eval vm_compute in option_map ex_run ex_start.
Lemma ex_api_eq : option_map ex_run ex_start = ex_api.
Proof. vm_cast_no_check (eq_refl ex_api). Qed.
Definition api_root : bytes := match ex_api with Some st => match ap_data st with Some d => d | None => [] end | None => [] end.
(** [None]: the query traps; [Some None]: the response is rejected; [Some (Some (s, b))]: status [s] and body [b] are accepted *)
Definition api_serve (rq : request) : option (response * option bool) := match ex_api with Some st => http_request toy ex_uri st (ex_certificate api_root) rq | None => None end.
Definition api_verify (rq : request) (rs : response) : out info :=
  verify (2 ^ 64) (2 ^ 60) true toy ex_ple (toy_signer (ex_state api_root)) ex_uri ex_query ex_none ex_none rq rs (bs "e") 1010 20 (ex_key x01) 2.
Definition api_trip (rq : request) : option (option (N * bytes)) :=
  match api_serve rq with
  | Some (rs, None) => Some (match api_verify rq rs with OOk i => match i_response i with Some v => Some (match v_status v with Some s => s | None => 0 end, v_body v) | None => None end | _ => None end)
  | _ => None
  end.
Definition ask (m url : bytes) : request := mk_request m url [] [].

(** Full statement, refuted: every query the api answers itself (no upgrade to an update call) gets a
    response, and the response verifies.  What is accepted: see C87 and C89.  Here: query strings,
    bodies and lower-case methods on /todos and doubled slashes are rejected; "/" and PATCH /todos,
    although certified with a refusal, trap. *)
Theorem C90_every_query_verifies_refuted :
  api_trip (ask (bs "GET") (bs "/todos")) = Some (Some (200, list_body ex_list)) /\
  api_trip (ask (bs "HEAD") (bs "/todos")) = Some (Some (405, json_err 405 (bs "Method not allowed"))) /\
  api_trip (ask (bs "get") (bs "/x?y=z")) = Some (Some (404, json_err 404 (bs "Not found"))) /\
  (* rejected *)
  api_trip (ask (bs "GET") (bs "/todos?x=1")) = Some None /\
  api_trip (mk_request (bs "GET") (bs "/todos") [] (bs "body")) = Some None /\
  api_trip (ask (bs "get") (bs "/todos")) = Some None /\
  api_trip (ask (bs "GET") (bs "//todos")) = Some None /\
  (* trap *)
  api_trip (ask (bs "GET") (bs "/")) = None /\
  api_trip (ask (bs "PATCH") (bs "/todos")) = None /\
  api_serve (ask (bs "GET") (bs "/")) = None /\ api_serve (ask (bs "PATCH") (bs "/todos")) = None /\ api_serve (ask (bs "LINK") (bs "/todos")) = None.
Proof. vm_compute. repeat split. Qed.
Print Assumptions C90_every_query_verifies_refuted.

(** Concrete cases for C87, C88 and C89. *)
Example api_events_ok : Forall some_order ex_events /\ (forall l : list (N * todo), Permutation ((fun l => l) l) l) /\ ex_uri (bs "/todos") = Some (bs "/todos") /\ ex_query (bs "/todos") = Some None.
Proof. split; [repeat constructor; intro l; apply Permutation_refl|]. split; [intro l; apply Permutation_refl|]. split; reflexivity. Qed.
Lemma path_by_run rq p : get_path ex_uri rq = OOk p -> path_of ex_uri rq p.
Proof. apply C63_request_path_exact. Qed.
Lemma number_1 s n : parse_usize (2 ^ 32) s = Some n -> number s n /\ n < 2 ^ 32.
Proof. apply parse_usize_spec. reflexivity. Qed.
Definition after (l : list todo) (n : N) : todos := mk_todos n (fun j => option_map (fun x => (td_title x, td_completed x)) (find (fun x => td_id x =? j) l)).
(** the history leads to a list of two items *)
Example ex_follows : exists s, follows ex_uri ex_create ex_update true ex_events s /\ next_id s = 3 /\ item_at s 0 = None /\ item_at s 1 = Some (bs "tea", true) /\ item_at s 2 = Some (bs "ham", false).
Proof.
  assert (M : forall a b, lower a = lower b -> same_name a b) by (intros a b E; apply same_name_lower; exact E).
  exists (mk_todos 3 (fun j => if j =? 1 then Some (bs "tea", true) else if j =? 0 then None else if j =? 2 then Some (bs "ham", false) else None)). split; [|repeat split].
  change ex_events with ((((((((((([] ++ [call (bs "POST") (bs "/todos") (bs "tmilk")]) ++ [call (bs "post") (bs "/todos?x") (bs "ttea")]) ++ [Upgrade (fun l => l)]) ++ [call (bs "POST") (bs "/todos") (bs "tmilk")]) ++ [call (bs "POST") (bs "/todos") (bs "ttea")]) ++
    [call (bs "POST") (bs "/todos") (bs "tham")]) ++ [call (bs "PATCH") (bs "/todos/+1") (bs "c")]) ++ [call (bs "DELETE") (bs "/todos/0") []]) ++ [call (bs "PATCH") (bs "/todos/0") (bs "tx")]) ++ [call (bs "GET") (bs "/todos") []])).
  apply FollowsNothing.
  2:{ intros [t|i t c|i] s' (A & _); apply same_name_lower in A; vm_compute in A; discriminate A. }
  apply FollowsNothing.
  2:{ intros [t|i t c|i] s' (A & B) F; [apply same_name_lower in A; vm_compute in A; discriminate A| |apply same_name_lower in A; vm_compute in A; discriminate A].
      destruct B as [(s & P & Nu & _) _]. apply C63_request_path_exact in P. vm_compute in P. assert (E : s = bs "0") by (injection P as <-; reflexivity). subst s.
      assert (i = 0) by (eapply number_fun; [exact Nu|apply number_1; reflexivity]). subst i. destruct F as (t0 & c0 & F & _). vm_compute in F. discriminate F. }
  eapply (FollowsUpdate _ _ _ _ _ (mk_todos 3 (fun j => if j =? 1 then Some (bs "tea", true) else if j =? 0 then Some (bs "milk", false) else if j =? 2 then Some (bs "ham", false) else None)) _ _ _ (Remove 0)).
  2:{ split; [apply M; reflexivity|]. exists (bs "0"). split; [apply path_by_run; vm_compute; reflexivity|]. apply number_1. reflexivity. }
  2:{ split; [reflexivity|]. split; [reflexivity|]. intros j NJ. cbn [item_at]. destruct (j =? 1); [reflexivity|]. apply N.eqb_neq in NJ. rewrite NJ. reflexivity. }
  eapply (FollowsUpdate _ _ _ _ _ (mk_todos 3 (fun j => if j =? 1 then Some (bs "tea", false) else if j =? 0 then Some (bs "milk", false) else if j =? 2 then Some (bs "ham", false) else None)) _ _ _ (Change 1 None (Some true))).
  2:{ split; [apply M; reflexivity|]. split; [|reflexivity]. exists (bs "+1"). split; [apply path_by_run; vm_compute; reflexivity|]. apply number_1. reflexivity. }
  2:{ exists (bs "tea"), false. split; [reflexivity|]. split; [reflexivity|]. split; [reflexivity|]. intros j NJ. cbn [item_at]. apply N.eqb_neq in NJ. rewrite NJ. reflexivity. }
  eapply (FollowsUpdate _ _ _ _ _ (mk_todos 2 (fun j => if j =? 1 then Some (bs "tea", false) else if j =? 0 then Some (bs "milk", false) else None)) _ _ _ (Create (bs "ham"))).
  2:{ split; [apply M; reflexivity|]. split; [apply path_by_run; vm_compute; reflexivity|reflexivity]. }
  2:{ split; [intros _; reflexivity|]. split; [reflexivity|]. split; [reflexivity|]. cbn [item_at next_id]. intros j NJ. apply N.eqb_neq in NJ. rewrite NJ. reflexivity. }
  eapply (FollowsUpdate _ _ _ _ _ (mk_todos 1 (fun j => if j =? 0 then Some (bs "milk", false) else None)) _ _ _ (Create (bs "tea"))).
  2:{ split; [apply M; reflexivity|]. split; [apply path_by_run; vm_compute; reflexivity|reflexivity]. }
  2:{ split; [intros _; reflexivity|]. split; [reflexivity|]. split; [reflexivity|]. cbn [item_at next_id]. intros j NJ. apply N.eqb_neq in NJ. rewrite NJ. reflexivity. }
  eapply (FollowsUpdate _ _ _ _ _ no_todos _ _ _ (Create (bs "milk"))).
  2:{ split; [apply M; reflexivity|]. split; [apply path_by_run; vm_compute; reflexivity|reflexivity]. }
  2:{ split; [intros _; reflexivity|]. split; [reflexivity|]. split; [reflexivity|]. cbn [item_at next_id no_todos]. intros j NJ. apply N.eqb_neq in NJ. rewrite NJ. reflexivity. }
  eapply FollowsUpgrade.
  eapply (FollowsUpdate _ _ _ _ _ (mk_todos 1 (fun j => if j =? 0 then Some (bs "milk", false) else None)) (mk_todos 2 (fun j => if j =? 1 then Some (bs "tea", false) else if j =? 0 then Some (bs "milk", false) else None)) _ _ (Create (bs "tea"))).
  2:{ split; [apply M; reflexivity|]. split; [apply path_by_run; vm_compute; reflexivity|reflexivity]. }
  2:{ split; [intros _; reflexivity|]. split; [reflexivity|]. split; [reflexivity|]. cbn [item_at next_id]. intros j NJ. apply N.eqb_neq in NJ. rewrite NJ. reflexivity. }
  eapply (FollowsUpdate _ _ _ _ _ no_todos _ _ _ (Create (bs "milk"))); [constructor| |].
  - split; [apply M; reflexivity|]. split; [apply path_by_run; vm_compute; reflexivity|reflexivity].
  - split; [intros _; reflexivity|]. split; [reflexivity|]. split; [reflexivity|]. cbn [item_at next_id no_todos]. intros j NJ. apply N.eqb_neq in NJ. rewrite NJ. reflexivity.
Qed.
(** the certificate, the requests and an accepted response of the theorems' hypotheses *)
Example C87_C88_C89_hypotheses :
  unforgeable toy (toy_signer (ex_state api_root)) (ex_key x01) (fun t => t = ex_state api_root) (fun _ _ => False) /\
  (forall St d, speaks_for (2 ^ 64) (2 ^ 60) ex_ple (fun t => t = ex_state api_root) (fun _ _ => False) (bs "e") St ->
     at_path (certified_data_path (bs "e")) St (HLeaf d) -> match ex_api with Some st => ap_data st | None => None end = Some d) /\
  certifies_data (2 ^ 64) (2 ^ 60) true toy ex_ple (toy_signer (ex_state api_root)) (ex_certificate api_root) (bs "e") (ex_key x01) 1010 20 (Some api_root) /\
  path_of ex_uri (ask (bs "GET") (bs "/todos")) (bs "/todos") /\ plain_request ex_query (ask (bs "GET") (bs "/todos")) /\ queried (bs "head") /\
  (exists rs i, api_serve (ask (bs "GET") (bs "/todos")) = Some (rs, None) /\ api_verify (ask (bs "GET") (bs "/todos")) rs = OOk i /\ i_response i <> None).
Proof.
  split; [apply toy_signer_unforgeable|]. split.
  { intros St d S A. rewrite (ex_speaks api_root St d S A). vm_compute. reflexivity. }
  split. { eexists _, api_root. split; [vm_compute; reflexivity|]. split; [vm_compute; reflexivity|]. split; [reflexivity|]. vm_compute. reflexivity. }
  split; [apply path_by_run; vm_compute; reflexivity|]. split; [split; reflexivity|]. split; [right; left; apply same_name_lower; reflexivity|].
  assert (X : api_trip (ask (bs "GET") (bs "/todos")) = Some (Some (200, list_body ex_list))) by (vm_compute; reflexivity).
  unfold api_trip in X. destruct (api_serve (ask (bs "GET") (bs "/todos"))) as [[rs [u|]]|]; try discriminate X.
  destruct (api_verify (ask (bs "GET") (bs "/todos")) rs) as [i| | |] eqn:E; try discriminate X. exists rs, i. split; [reflexivity|]. split; [exact E|]. destruct (i_response i); [intro Z; discriminate Z|discriminate X].
Qed.
