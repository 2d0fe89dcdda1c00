(** C109: requests and responses in Candid. *)
From Coq Require Import List NArith Bool Lia.
From Verif Require Import Bytes HttpTypes HttpBuild JsBindings Candid.
Import ListNotations.
Local Open Scope N_scope.

(** the record [v] has the field [k] with the value [x] *)
Definition carries (v : idl) (k : bytes) (x : idl) : Prop := exists fs, v = IRecord fs /\ NoDup (map fst fs) /\ In (k, x) fs.
Definition lacks (v : idl) (k : bytes) : Prop := exists fs, v = IRecord fs /\ NoDup (map fst fs) /\ forall x, ~ In (k, x) fs.
(** record { text; text } *)
Definition header_is (h : bytes * bytes) (v : idl) : Prop := carries v (bs "0") (IText (fst h)) /\ carries v (bs "1") (IText (snd h)).
(** vec HeaderField *)
Definition headers_are (hs : list (bytes * bytes)) (v : idl) : Prop := exists l, v = IVec l /\ Forall2 header_is hs l.
(** opt nat16 / opt bool, which older gateways leave out *)
Definition optional (v : idl) (k : bytes) (x : option idl) : Prop := carries v k (IOpt x) \/ (x = None /\ lacks v k).

(** The types of the HTTP gateway protocol (examples/http-certification/upgrade-to-update-call/src/backend.did). Records may have
    more fields, in any order. *)
Definition request_value (v : idl) (m u : bytes) (hs : list (bytes * bytes)) (b : bytes) : Prop :=
  carries v (bs "method") (IText m) /\ carries v (bs "url") (IText u) /\ (exists h, carries v (bs "headers") h /\ headers_are hs h) /\ carries v (bs "body") (IBlob b).
Definition response_value (v : idl) (s : N) (hs : list (bytes * bytes)) (b : bytes) : Prop :=
  carries v (bs "status_code") (INat16 s) /\ (exists h, carries v (bs "headers") h /\ headers_are hs h) /\ carries v (bs "body") (IBlob b).

Lemma field_in fs k x : NoDup (map fst fs) -> In (k, x) fs -> field k fs = Some x.
Proof.
  induction fs as [|[n v] r IH]; intros ND I; [destruct I|]. cbn [map fst] in ND. inversion ND as [|? ? NI ND']; subst. cbn [field].
  destruct (bytes_eqb_spec n k) as [Y|N].
  - subst n. destruct I as [I|I]; [injection I as ->; reflexivity|]. exfalso. apply NI. change k with (fst (k, x)). apply in_map. exact I.
  - destruct I as [I|I]; [injection I as E _; congruence|]. exact (IH ND' I).
Qed.
Lemma field_out fs k : (forall x, ~ In (k, x) fs) -> field k fs = None.
Proof.
  induction fs as [|[n v] r IH]; intro N; [reflexivity|]. cbn [field]. destruct (bytes_eqb_spec n k) as [Y|X]; [subst n; exfalso; exact (N v (or_introl eq_refl))|].
  apply IH. intros x I. exact (N x (or_intror I)).
Qed.
Lemma carries_field fs k x : carries (IRecord fs) k x -> field k fs = Some x.
Proof. intros (fs' & E & ND & I). injection E as <-. exact (field_in fs k x ND I). Qed.
Lemma header_de h v : header_is h v -> de_header v = Some h.
Proof.
  intros [A B]. assert (R : exists fs, v = IRecord fs) by (destruct A as (fs & -> & _); eauto). destruct R as (fs & ->).
  apply carries_field in A, B. cbn [de_header]. rewrite A, B. cbn [de_text]. destruct h; reflexivity.
Qed.
Lemma headers_de hs v : headers_are hs v -> de_headers v = Some hs.
Proof. intros (l & -> & F). cbn [de_headers]. induction F as [|h x hs l A F IH]; [reflexivity|]. cbn [de_each]. rewrite (header_de _ _ A), IH. reflexivity. Qed.
Lemma header_ser h : header_is h (ser_header h).
Proof.
  assert (ND : NoDup (map fst [(bs "0", IText (fst h)); (bs "1", IText (snd h))])) by (repeat constructor; cbn; intro Z; repeat (destruct Z as [Z|Z]; [discriminate Z|]); exact Z).
  split; eexists; (split; [reflexivity|]; split; [exact ND|]); [left|right; left]; reflexivity.
Qed.
Lemma headers_ser hs : headers_are hs (IVec (map ser_header hs)).
Proof. eexists. split; [reflexivity|]. induction hs as [|h r IH]; constructor; [apply header_ser|exact IH]. Qed.
Lemma opt_de {A} (de : idl -> option A) (c : A -> idl) fs k (o : option A) : (forall a, de (c a) = Some a) -> optional (IRecord fs) k (option_map c o) -> de_opt de (field k fs) = Some o.
Proof.
  intros DC [C|[E (fs' & X & _ & N)]].
  - rewrite (carries_field _ _ _ C). destruct o as [a|]; cbn [option_map de_opt]; [rewrite DC|]; reflexivity.
  - injection X as <-. rewrite (field_out _ _ N). destruct o; [discriminate E|reflexivity].
Qed.

(** C109: what a gateway sends is read as it is, and refused exactly if the method is not one. *)
Theorem C109_requests_are_read :
  forall (method_ok : bytes -> bool) v m u hs b, request_value v m u hs b ->
  de_update_request method_ok v = (if method_ok m then Some (mk_http_update_request m u hs b) else None) /\
  forall cv, optional v (bs "certificate_version") (option_map INat16 cv) ->
  de_request method_ok v = (if method_ok m then Some (mk_http_request m u hs b cv) else None).
Proof.
  intros mo v m u hs b (A & B & (h & C & D) & E). assert (R : exists fs, v = IRecord fs) by (destruct A as (fs & -> & _); eauto). destruct R as (fs & ->).
  apply carries_field in A, B, C, E. apply headers_de in D. unfold de_update_request, de_request. rewrite A, B, C, E. unfold de_method. cbn [de_text de_blob].
  split; [destruct (mo m); [rewrite D|]; reflexivity|]. intros cv O. destruct (mo m); [|reflexivity]. rewrite D, (opt_de de_nat16 INat16 fs _ cv (fun _ => eq_refl) O). reflexivity.
Qed.
Print Assumptions C109_requests_are_read.
(** C109: likewise responses, refused exactly if the status is not from 100 to 999. *)
Theorem C109_responses_are_read :
  forall v s hs b, response_value v s hs b ->
  (100 <= s <= 999 ->
   de_update_response v = Some (mk_http_update_response s hs b) /\
   forall up, optional v (bs "upgrade") (option_map IBool up) -> de_response v = Some (mk_http_response s hs b up)) /\
  (~ 100 <= s <= 999 -> de_update_response v = None /\ de_response v = None).
Proof.
  intros v s hs b (A & (h & C & D) & E). assert (R : exists fs, v = IRecord fs) by (destruct A as (fs & -> & _); eauto). destruct R as (fs & ->).
  apply carries_field in A, C, E. apply headers_de in D. unfold de_update_response, de_response. rewrite A, C, E. unfold de_status. cbn [de_nat16 de_blob].
  assert (S : status_ok s = true <-> 100 <= s <= 999) by (unfold status_ok; rewrite andb_true_iff, !N.leb_le; reflexivity).
  split; intro B.
  - apply S in B. rewrite B, D. split; [reflexivity|]. intros up O. rewrite (opt_de de_bool IBool fs _ up (fun _ => eq_refl) O). reflexivity.
  - destruct (status_ok s); [exfalso; apply B; apply S; reflexivity|]. auto.
Qed.
Print Assumptions C109_responses_are_read.

Fixpoint distinct (l : list bytes) : bool := match l with [] => true | x :: r => negb (existsb (bytes_eqb x) r) && distinct r end.
Lemma distinct_nodup l : distinct l = true -> NoDup l.
Proof.
  induction l as [|x r IH]; [constructor|]. cbn [distinct]. intro E. apply andb_true_iff in E. destruct E as [A B]. constructor; [|exact (IH B)].
  intro I. assert (X : existsb (bytes_eqb x) r = true) by (apply existsb_exists; exists x; split; [exact I|apply bytes_eqb_refl]). rewrite X in A. discriminate A.
Qed.
Ltac named := eexists; split; [reflexivity|]; split; [apply distinct_nodup; reflexivity|repeat first [left; reflexivity|right]].
(** C109: what is sent has the protocol's types. *)
Theorem C109_values_are_the_protocols :
  (forall r, request_value (ser_request r) (hq_method r) (hq_url r) (hq_headers r) (hq_body r) /\ carries (ser_request r) (bs "certificate_version") (IOpt (option_map INat16 (hq_version r)))) /\
  (forall r, request_value (ser_update_request r) (uq_method r) (uq_url r) (uq_headers r) (uq_body r)) /\
  (forall r, response_value (ser_response r) (hs_status r) (hs_headers r) (hs_body r) /\ carries (ser_response r) (bs "upgrade") (IOpt (option_map IBool (hs_upgrade r)))) /\
  (forall r, response_value (ser_update_response r) (us_status r) (us_headers r) (us_body r)).
Proof.
  split; [|split; [|split]]; intro r; unfold request_value, response_value; repeat match goal with |- _ /\ _ => split end; try named; (eexists; split; [named|]; apply headers_ser).
Qed.
Print Assumptions C109_values_are_the_protocols.
(** C109: sent and read again, values with a proper method or status are the same. *)
Theorem C109_round_trip :
  forall (method_ok : bytes -> bool),
  (forall r, method_ok (hq_method r) = true -> de_request method_ok (ser_request r) = Some r) /\
  (forall r, method_ok (uq_method r) = true -> de_update_request method_ok (ser_update_request r) = Some r) /\
  (forall r, 100 <= hs_status r <= 999 -> de_response (ser_response r) = Some r) /\
  (forall r, 100 <= us_status r <= 999 -> de_update_response (ser_update_response r) = Some r).
Proof.
  intro mo. destruct C109_values_are_the_protocols as (A & B & C & D). split; [|split; [|split]]; intros r M.
  - destruct (A r) as [V O]. destruct (C109_requests_are_read mo _ _ _ _ _ V) as [_ X]. rewrite (X (hq_version r) (or_introl O)), M. destruct r; reflexivity.
  - destruct (C109_requests_are_read mo _ _ _ _ _ (B r)) as [X _]. rewrite X, M. destruct r; reflexivity.
  - destruct (C r) as [V O]. destruct (C109_responses_are_read _ _ _ _ V) as [X _]. destruct (X M) as [_ Y]. rewrite (Y (hs_upgrade r) (or_introl O)). destruct r; reflexivity.
  - destruct (C109_responses_are_read _ _ _ _ (D r)) as [X _]. destruct (X M) as [Y _]. rewrite Y. destruct r; reflexivity.
Qed.
Print Assumptions C109_round_trip.
(** a request without version, with a field the library does not know *)
Example C109_old_gateway :
  let v := IRecord [(bs "url", IText (bs "/")); (bs "extra", IBool true); (bs "method", IText (bs "GET")); (bs "body", IBlob []);
                    (bs "headers", IVec [IRecord [(bs "1", IText (bs "b")); (bs "0", IText (bs "a"))]])] in
  request_value v (bs "GET") (bs "/") [(bs "a", bs "b")] [] /\ optional v (bs "certificate_version") (option_map INat16 None) /\
  de_request (fun m => bytes_eqb m (bs "GET")) v = Some (mk_http_request (bs "GET") (bs "/") [(bs "a", bs "b")] [] None).
Proof.
  cbv zeta. split; [|split; [|reflexivity]].
  - split; [named|]. split; [named|]. split; [|named]. eexists. split; [named|]. eexists. split; [reflexivity|]. constructor; [|constructor]. split; named.
  - right. split; [reflexivity|]. eexists. split; [reflexivity|]. split; [apply distinct_nodup; reflexivity|].
    intros x I. repeat (destruct I as [I|I]; [discriminate I|]). exact I.
Qed.
