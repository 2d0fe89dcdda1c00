(** C71: when the verifier can panic. *)
From Coq Require Import List Arith NArith Lia Bool.
From Verif Require Import Bytes Text Utf8 HashTree HashTreeSpec Cbor CborSpec CborProofs Props_Cbor Leb128 HttpTypes HttpHash Cel Wildcard V2 CertVerify CertSpec Props_Cert Base64 Header Verify.
Import ListNotations.
Local Open Scope N_scope.

(** [i] contains a CBOR map header announcing more than [cap] entries. *)
Definition oversized_map (umod cap : N) (i : bytes) : Prop :=
  exists pre b tl u r, i = pre ++ b :: tl /\ cbor_type b = 5 /\
    extract_cbor_value (b :: tl) = Some (u, r) /\ cap < to_usize umod u.
(** [i] is CBOR for a list of ranges one of whose ends is longer than a principal may be. *)
Definition long_principal (umod cap : N) (i : bytes) : Prop :=
  exists l a b m, parse_cbor umod cap i = OOk (CArray l) /\ In (CArray (CBytes a :: CBytes b :: m)) l /\
    (29 < length a \/ 29 < length b)%nat.

(** Why a certificate makes verification panic. *)
Inductive certificate_panics (umod cap : N) (checked : bool) (H : bytes -> bytes) (vs : bytes -> bytes -> bytes -> bool)
    (canister key : bytes) (now offset : N) (c : certificate) : Prop :=
| time_overflow : checked = true -> (2 ^ 128 <= now + offset \/ now < offset) ->
    certificate_panics umod cap checked H vs canister key now offset c
| delegation_map d : c_deleg c = Some d -> oversized_map umod cap (d_cert d) ->
    certificate_panics umod cap checked H vs canister key now offset c
| delegation_principal d dc ranges : c_deleg c = Some d -> cert_from_cbor umod cap (d_cert d) = OOk dc ->
    signed_by H vs key dc ->
    lookup_path (subnet_path (d_subnet d) (bs "canister_ranges")) (c_tree dc) = Found ranges ->
    (29 < length canister)%nat \/ oversized_map umod cap ranges \/ long_principal umod cap ranges ->
    certificate_panics umod cap checked H vs canister key now offset c.

Lemma parse_panic umod cap i : parse_cbor umod cap i = OPanic -> oversized_map umod cap i.
Proof. intro E. exact (proj2 (proj2 (C22_cbor_total_and_exact_partial umod cap i)) E). Qed.
Lemma of_opt_cases {A} (o : option A) : of_opt o <> OPanic /\ of_opt o <> OFuel.
Proof. destruct o; split; discriminate. Qed.
Lemma bind_panic {A B} (x : out A) (f : A -> out B) : out_bind x f = OPanic -> x = OPanic \/ exists a, x = OOk a /\ f a = OPanic.
Proof. destruct x; simpl; intro E; try discriminate; eauto. Qed.
Lemma bind_fuel {A B} (x : out A) (f : A -> out B) : out_bind x f = OFuel -> x = OFuel \/ exists a, x = OOk a /\ f a = OFuel.
Proof. destruct x; simpl; intro E; try discriminate; eauto. Qed.

Section P.
  Variables (umod cap : N) (checked : bool) (H : bytes -> bytes) (ple : bytes -> bytes -> bool) (vs : bytes -> bytes -> bytes -> bool).
  Lemma cert_cbor_panic i : cert_from_cbor umod cap i = OPanic -> oversized_map umod cap i.
  Proof. intro E. apply bind_panic in E. destruct E as [E|(v & _ & E)]; [exact (parse_panic _ _ _ E)|]. destruct (proj1 (of_opt_cases _) E). Qed.
  Lemma tree_cbor_panic i : tree_from_cbor umod cap i = OPanic -> oversized_map umod cap i.
  Proof. intro E. apply bind_panic in E. destruct E as [E|(v & _ & E)]; [exact (parse_panic _ _ _ E)|]. destruct (proj1 (of_opt_cases _) E). Qed.
  Lemma to_strings_panic l : to_strings l <> OPanic /\ to_strings l <> OFuel.
  Proof.
    induction l as [|v l IH]; [split; discriminate|]. cbn [to_strings]. destruct v; try (split; discriminate). destruct (utf8_valid b); [|split; discriminate].
    destruct IH as [I1 I2]. destruct (to_strings l); simpl; split; congruence.
  Qed.
  Lemma strings_cbor_panic i : strings_from_cbor umod cap i = OPanic -> oversized_map umod cap i.
  Proof.
    intro E. apply bind_panic in E. destruct E as [E|(v & _ & E)]; [exact (parse_panic _ _ _ E)|]. destruct v; try discriminate. destruct (proj1 (to_strings_panic _) E).
  Qed.
  Lemma to_ranges_panic l : to_ranges l = OPanic -> exists a b m, In (CArray (CBytes a :: CBytes b :: m)) l /\ (29 < length a \/ 29 < length b)%nat.
  Proof.
    induction l as [|v l IH]; [discriminate|]. cbn [to_ranges]. destruct v as [| | |m| |]; try discriminate.
    destruct m as [|[| |a| | |] m]; try discriminate. destruct m as [|[| |b| | |] m]; try discriminate.
    destruct (Nat.leb_spec (length a) 29); destruct (Nat.leb_spec (length b) 29); cbn [andb]; intro E;
      try (exists a, b, m; split; [left; reflexivity|]; lia).
    apply bind_panic in E. destruct E as [E|(rs & _ & E)]; [|discriminate].
    destruct (IH E) as (a' & b' & m' & I & L). exists a', b', m'. split; [right; exact I|exact L].
  Qed.
  Lemma to_ranges_fuel l : to_ranges l <> OFuel.
  Proof.
    induction l as [|v l IH]; [discriminate|]. cbn [to_ranges]. destruct v as [| | |m| |]; try discriminate.
    destruct m as [|[| |a| | |] m]; try discriminate. destruct m as [|[| |b| | |] m]; try discriminate.
    destruct (_ && _); [|discriminate]. intro E. apply bind_fuel in E. destruct E as [E|(rs & _ & E)]; [exact (IH E)|discriminate].
  Qed.
  Lemma principals_panic i : principals_from_cbor umod cap i = OPanic -> oversized_map umod cap i \/ long_principal umod cap i.
  Proof.
    intro E. apply bind_panic in E. destruct E as [E|(v & Ev & E)]; [left; exact (parse_panic _ _ _ E)|]. destruct v; try discriminate.
    right. destruct (to_ranges_panic _ E) as (a & b & m & I & L). exists l, a, b, m. auto.
  Qed.
  Lemma parse_bind_fuel {B} i (f : cval -> out B) : (forall v, f v <> OFuel) -> (ok v <- parse_cbor umod cap i; f v) <> OFuel.
  Proof. intros F E. apply bind_fuel in E. destruct E as [E|(v & _ & E)]; [exact (parse_cbor_no_fuel _ _ _ E)|exact (F v E)]. Qed.

  Lemma sig_panic c k : verify_certificate_signature H vs c k <> OPanic /\ verify_certificate_signature H vs c k <> OFuel.
  Proof.
    unfold verify_certificate_signature, extract_der. destruct (negb _); [split; discriminate|]. destruct (negb _); [split; discriminate|].
    cbn [out_bind]. destruct (vs _ _ _); split; discriminate.
  Qed.

  Variables (canister key : bytes) (now offset : N).
  Lemma delegation_panic c d : c_deleg c = Some d -> verify_delegation umod cap H ple vs d canister key = OPanic ->
    certificate_panics umod cap checked H vs canister key now offset c.
  Proof.
    intros D E. unfold verify_delegation in E. apply bind_panic in E.
    destruct E as [E|(dc & Ec & E)]; [exact (delegation_map _ _ _ _ _ _ _ _ _ _ d D (cert_cbor_panic _ E))|].
    destruct (c_deleg dc); [discriminate|]. apply bind_panic in E. destruct E as [E|([] & Es & E)]; [destruct (proj1 (sig_panic _ _) E)|].
    apply signature_spec in Es. destruct (lookup_path _ (c_tree dc)) as [| |r|] eqn:L; try discriminate.
    apply (delegation_principal _ _ _ _ _ _ _ _ _ _ d dc r D Ec Es L).
    destruct (Nat.ltb_spec 29 (length canister)); [auto|]. apply bind_panic in E.
    destruct E as [E|(rs & _ & E)]; [right; exact (principals_panic _ E)|].
    destruct (negb _); [discriminate|]. match type of E with context [match ?x with _ => _ end] => destruct x end; discriminate.
  Qed.
  Lemma delegation_fuel d : verify_delegation umod cap H ple vs d canister key <> OFuel.
  Proof.
    intro E. unfold verify_delegation in E. apply bind_fuel in E. destruct E as [E|(dc & _ & E)].
    { revert E. apply parse_bind_fuel. intro v. apply of_opt_cases. }
    destruct (c_deleg dc); [discriminate|]. apply bind_fuel in E. destruct E as [E|([] & _ & E)]; [exact (proj2 (sig_panic _ _) E)|].
    destruct (lookup_path _ (c_tree dc)) as [| |r|]; try discriminate. destruct (Nat.ltb _ _); [discriminate|].
    apply bind_fuel in E. destruct E as [E|(rs & _ & E)].
    { revert E. apply parse_bind_fuel. intros []; try discriminate. apply to_ranges_fuel. }
    destruct (negb _); [discriminate|]. match type of E with context [match ?x with _ => _ end] => destruct x end; discriminate.
  Qed.
  Lemma time_panic c : (verify_certificate_time checked c now offset = OPanic -> checked = true /\ (2 ^ 128 <= now + offset \/ now < offset)) /\
    verify_certificate_time checked c now offset <> OFuel.
  Proof.
    unfold verify_certificate_time. destruct (lookup_path _ _) as [| |e|]; try (split; discriminate).
    destruct (leb_read e) as [[t r]|]; [|split; discriminate]. unfold add128, sub128, u128.
    destruct (N.ltb_spec (now + offset) (2 ^ 128)); destruct (N.leb_spec offset now); destruct checked; cbn [out_bind];
      repeat match goal with |- context [if ?x then _ else _] => destruct x end; split; try (intro Z; discriminate Z); intros _; split; auto.
  Qed.
  Lemma certificate_panic c : verify_certificate umod cap checked H ple vs c canister key now offset = OPanic ->
    certificate_panics umod cap checked H vs canister key now offset c.
  Proof.
    intro E. unfold verify_certificate in E. apply bind_panic in E. destruct E as [E|(u & _ & E)].
    { apply (proj1 (time_panic c)) in E. destruct E. apply time_overflow; auto. }
    apply bind_panic in E. destruct E as [E|(k & _ & E)]; [|destruct (proj1 (sig_panic _ _) E)].
    destruct (c_deleg c) as [d|] eqn:D; [|discriminate]. exact (delegation_panic c d D E).
  Qed.
  Lemma certificate_fuel c : verify_certificate umod cap checked H ple vs c canister key now offset <> OFuel.
  Proof.
    intro E. unfold verify_certificate in E. apply bind_fuel in E. destruct E as [E|(u & _ & E)]; [exact (proj2 (time_panic c) E)|].
    apply bind_fuel in E. destruct E as [E|(k & _ & E)]; [|exact (proj2 (sig_panic _ _) E)].
    destruct (c_deleg c) as [d|]; [|discriminate]. exact (delegation_fuel d E).
  Qed.

  (** A field of the certificate header whose decoded value contains an oversized map. *)
  Definition header_panics (hv : bytes) : Prop :=
    exists f name v d, In f (split_on "," hv) /\ header_field f = Some (name, v) /\ b64_dec v = Some d /\ oversized_map umod cap d.
  Lemma decode_bind_panic {A} (g : bytes -> out A) v : (forall d, g d = OPanic -> oversized_map umod cap d) ->
    (ok b <- of_opt (b64_dec v); g b) = OPanic -> exists d, b64_dec v = Some d /\ oversized_map umod cap d.
  Proof. intros G E. destruct (b64_dec v) as [d|]; cbn [of_opt out_bind] in E; [|discriminate]. exists d. auto. Qed.
  Lemma decode_bind_fuel {A} (g : bytes -> out A) v : (forall d, g d <> OFuel) -> (ok b <- of_opt (b64_dec v); g b) <> OFuel.
  Proof. intros G E. destruct (b64_dec v) as [d|]; cbn [of_opt out_bind] in E; [|discriminate]. exact (G d E). Qed.
  Lemma fill_panic {A} (slot : option A) g v : fill slot g v = OPanic -> g v = OPanic.
  Proof. unfold fill. destruct slot; [discriminate|]. intro E. apply bind_panic in E. destruct E as [E|(a & _ & E)]; [exact E|discriminate]. Qed.
  Lemma fill_fuel {A} (slot : option A) g v : fill slot g v = OFuel -> g v = OFuel.
  Proof. unfold fill. destruct slot; [discriminate|]. intro E. apply bind_fuel in E. destruct E as [E|(a & _ & E)]; [exact E|discriminate]. Qed.
  Lemma add_field_panic s f : add_field umod cap s f = OPanic ->
    exists name v d, header_field f = Some (name, v) /\ b64_dec v = Some d /\ oversized_map umod cap d.
  Proof.
    unfold add_field. destruct (header_field f) as [[name v]|]; [|discriminate].
    destruct (bytes_eqb name _); [|destruct (bytes_eqb name _); [|destruct (bytes_eqb name _); [|destruct (bytes_eqb name _); [|discriminate]]]];
      intro E; apply bind_panic in E; destruct E as [E|(x & _ & E)]; try discriminate; apply fill_panic in E.
    - destruct (decode_bind_panic _ v cert_cbor_panic E) as (d & Ed & B). exists name, v, d. auto.
    - destruct (decode_bind_panic _ v tree_cbor_panic E) as (d & Ed & B). exists name, v, d. auto.
    - destruct (proj1 (of_opt_cases _) E).
    - destruct (decode_bind_panic _ v strings_cbor_panic E) as (d & Ed & B). exists name, v, d. auto.
  Qed.
  Lemma add_field_fuel s f : add_field umod cap s f <> OFuel.
  Proof.
    unfold add_field. destruct (header_field f) as [[name v]|]; [|discriminate].
    destruct (bytes_eqb name _); [|destruct (bytes_eqb name _); [|destruct (bytes_eqb name _); [|destruct (bytes_eqb name _); [|discriminate]]]];
      intro E; apply bind_fuel in E; destruct E as [E|(x & _ & E)]; try discriminate; apply fill_fuel in E; revert E.
    - apply decode_bind_fuel. intro d. apply parse_bind_fuel. intro. apply of_opt_cases.
    - apply decode_bind_fuel. intro d. apply parse_bind_fuel. intro. apply of_opt_cases.
    - apply of_opt_cases.
    - apply decode_bind_fuel. intro d. apply parse_bind_fuel. intros []; try discriminate. apply to_strings_panic.
  Qed.
  Lemma add_fields_panic fs : forall s, add_fields umod cap s fs = OPanic ->
    exists f name v d, In f fs /\ header_field f = Some (name, v) /\ b64_dec v = Some d /\ oversized_map umod cap d.
  Proof.
    induction fs as [|f fs IH]; intros s E; [discriminate|]. cbn [add_fields] in E. apply bind_panic in E. destruct E as [E|(s1 & _ & E)].
    - destruct (add_field_panic s f E) as (n & v & d & B). exists f, n, v, d. split; [left; reflexivity|exact B].
    - destruct (IH s1 E) as (g & n & v & d & I & B). exists g, n, v, d. split; [right; exact I|exact B].
  Qed.
  Lemma add_fields_fuel fs : forall s, add_fields umod cap s fs <> OFuel.
  Proof.
    induction fs as [|f fs IH]; intros s E; [discriminate|]. cbn [add_fields] in E. apply bind_fuel in E. destruct E as [E|(s1 & _ & E)];
      [exact (add_field_fuel s f E)|exact (IH s1 E)].
  Qed.
  Lemma header_panic hv : header_from umod cap hv = OPanic -> header_panics hv.
  Proof.
    intro E. unfold header_from in E. apply bind_panic in E. destruct E as [E|(s & _ & E)]; [exact (add_fields_panic _ _ E)|].
    destruct (s_cert s); [destruct (s_tree s); discriminate|discriminate].
  Qed.
  Lemma header_fuel hv : header_from umod cap hv <> OFuel.
  Proof.
    intro E. unfold header_from in E. apply bind_fuel in E. destruct E as [E|(s & _ & E)]; [exact (add_fields_fuel _ _ E)|].
    destruct (s_cert s); [destruct (s_tree s); discriminate|discriminate].
  Qed.

  Variables (uri_path : bytes -> option bytes) (uri_query : bytes -> option (option bytes)) (gunzip inflate : bytes -> option bytes).
  Lemma get_path_total r : get_path uri_path r <> OPanic /\ get_path uri_path r <> OFuel.
  Proof. unfold get_path. destruct (uri_path _); [|split; discriminate]. destruct (utf8_valid _); split; discriminate. Qed.
  Lemma decode_body_total b e : decode_body gunzip inflate b e <> OPanic /\ decode_body gunzip inflate b e <> OFuel.
  Proof.
    unfold decode_body. destruct e as [e|]; [|split; discriminate]. destruct (bytes_eqb e _); [apply of_opt_cases|]. destruct (bytes_eqb e _); [apply of_opt_cases|].
    split; discriminate.
  Qed.
  Let vc := verify_certificate umod cap checked H ple vs.
  Lemma v1_total rq rs t c e :
    (v1_verification umod cap checked H ple vs uri_path gunzip inflate rq rs canister now offset t c e key = OPanic -> vc c canister key now offset = OPanic) /\
    v1_verification umod cap checked H ple vs uri_path gunzip inflate rq rs canister now offset t c e key <> OFuel.
  Proof.
    unfold v1_verification. split; intro E.
    - apply bind_panic in E. destruct E as [E|(u & _ & E)]; [exact E|]. exfalso.
      apply bind_panic in E. destruct E as [E|(p & _ & E)]; [exact (proj1 (get_path_total rq) E)|].
      apply bind_panic in E. destruct E as [E|(d & _ & E)]; [exact (proj1 (decode_body_total _ _) E)|].
      destruct (negb _); [discriminate|]. destruct (match e with Some _ => _ | None => _ end); discriminate.
    - apply bind_fuel in E. destruct E as [E|(u & _ & E)]; [exact (certificate_fuel c E)|].
      apply bind_fuel in E. destruct E as [E|(p & _ & E)]; [exact (proj2 (get_path_total rq) E)|].
      apply bind_fuel in E. destruct E as [E|(d & _ & E)]; [exact (proj2 (decode_body_total _ _) E)|].
      destruct (negb _); [discriminate|]. destruct (match e with Some _ => _ | None => _ end); discriminate.
  Qed.
  Lemma v2_total rq rs t c e eh ex :
    (v2_verification umod cap checked H ple vs uri_path uri_query rq rs canister now offset t c e eh ex key = OPanic -> vc c canister key now offset = OPanic) /\
    v2_verification umod cap checked H ple vs uri_path uri_query rq rs canister now offset t c e eh ex key <> OFuel.
  Proof.
    assert (F : forall rqc rsc (x : out info),
      x = (ok rqh <- match rqc with Some x => ok h <- of_opt (request_hash H uri_query rq x); OOk (Some h) | None => OOk None end;
           let body_hash := H (rs_body rs) in
           let fh := filter_response_headers rs rsc in
           let rsh := H (response_headers_hash H (rs_status rs) (fst fh) ++ body_hash) in
           if validate_hashes eh rqh rsh e t ex then
             match snd fh with
             | None => OErr
             | Some ch => OOk (mk_info (Some (mk_verified (Some (rs_status rs)) (fst fh ++ [(certificate_header_name, ch)]) (rs_body rs))) 2)
             end
           else OErr) -> x <> OPanic /\ x <> OFuel).
    { intros rqc rsc x ->. cbv zeta. destruct rqc as [q|]; [destruct (request_hash H uri_query rq q) as [h|]|]; cbn [of_opt out_bind];
        try (split; discriminate); (destruct (validate_hashes _ _ _ _ _ _); [|split; discriminate]);
        destruct (snd (filter_response_headers rs rsc)); split; intro Z; discriminate Z. }
    unfold v2_verification. split; intro E.
    - apply bind_panic in E. destruct E as [E|(p & _ & E)]; [destruct (proj1 (get_path_total rq) E)|].
      apply bind_panic in E. destruct E as [E|(u & _ & E)]; [exact E|]. exfalso.
      destruct (negb _); [discriminate|]. destruct (negb _); [discriminate|].
      destruct ex as [|rsc|rqc rsc].
      + destruct (validate_expr_hash _ _ _); discriminate.
      + exact (proj1 (F None rsc _ eq_refl) E).
      + exact (proj1 (F (Some rqc) rsc _ eq_refl) E).
    - apply bind_fuel in E. destruct E as [E|(p & _ & E)]; [exact (proj2 (get_path_total rq) E)|].
      apply bind_fuel in E. destruct E as [E|(u & _ & E)]; [exact (certificate_fuel c E)|].
      destruct (negb _); [discriminate|]. destruct (negb _); [discriminate|].
      destruct ex as [|rsc|rqc rsc].
      + destruct (validate_expr_hash _ _ _); discriminate.
      + exact (proj2 (F None rsc _ eq_refl) E).
      + exact (proj2 (F (Some rqc) rsc _ eq_refl) E).
  Qed.
End P.

(** C71: verification always ends, and it panics only if a field of the certificate header
    decodes to CBOR with an oversized map, or the certificate of a header that was decoded does
    (in a delegation); or because the caller's arguments are out of range (time arithmetic, only
    in builds with overflow checks; a canister id longer than 29 bytes); or because a
    delegation signed with the root key contains malformed ranges. *)
Theorem C71_verifier_panics_only_partial :
  forall (umod cap : N) (checked : bool) (H : bytes -> bytes) (ple : bytes -> bytes -> bool) (vs : bytes -> bytes -> bytes -> bool)
    (uri_path : bytes -> option bytes) (uri_query : bytes -> option (option bytes)) (gunzip inflate : bytes -> option bytes)
    (rq : request) (rs : response) (canister : bytes) (now offset : N) (key : bytes) (min_version : N),
  verify umod cap checked H ple vs uri_path uri_query gunzip inflate rq rs canister now offset key min_version <> OFuel /\
  (verify umod cap checked H ple vs uri_path uri_query gunzip inflate rq rs canister now offset key min_version = OPanic ->
   exists hv, header_get (bs "ic-certificate") (rs_headers rs) = Some hv /\
     (header_panics umod cap hv \/
      exists hd, header_from umod cap hv = OOk hd /\ certificate_panics umod cap checked H vs canister key now offset (h_cert hd))).
Proof.
  intros. unfold verify. change (lower certificate_header_name) with (bs "ic-certificate").
  destruct (header_get (bs "ic-certificate") (rs_headers rs)) as [hv|]; [|split; discriminate].
  destruct (header_from umod cap hv) as [hd| | |] eqn:Eh.
  2:{ split; discriminate. }
  2:{ split; [discriminate|]. intros _. exists hv. split; [reflexivity|]. left. exact (header_panic _ _ _ Eh). }
  2:{ destruct (header_fuel umod cap hv Eh). }
  cbn [out_bind]. destruct (_ <? _); [split; discriminate|].
  destruct (h_version hd =? 1).
  - destruct (v1_total umod cap checked H ple vs canister key now offset uri_path gunzip inflate rq rs (h_tree hd) (h_cert hd) (header_get (bs "content-encoding") (rs_headers rs))) as [P F].
    split; [exact F|]. intro E. exists hv. split; [reflexivity|]. right. exists hd. split; [exact Eh|]. apply (certificate_panic umod cap checked H ple vs). exact (P E).
  - destruct (h_version hd =? 2); [|split; discriminate].
    destruct (header_get _ (rs_headers rs)) as [ex|]; [|split; discriminate]. destruct (h_expr_path hd) as [e|]; [|split; discriminate].
    destruct (cel_of_text ex) as [c|]; cbn [of_opt out_bind]; [|split; discriminate].
    destruct (v2_total umod cap checked H ple vs canister key now offset uri_path uri_query rq rs (h_tree hd) (h_cert hd) e (H ex) c) as [P F].
    split; [exact F|]. intro E. exists hv. split; [reflexivity|]. right. exists hd. split; [exact Eh|]. apply (certificate_panic umod cap checked H ple vs). exact (P E).
Qed.
Print Assumptions C71_verifier_panics_only_partial.

(** An unauthenticated response header makes the verifier panic, whatever the request, the
    other arguments and the largest possible capacity of a hash map. *)
Definition bomb_header : bytes := bs "certificate=:u///////////:".
Theorem C71_response_header_panics_refuted :
  forall (cap : N) (checked : bool) (H : bytes -> bytes) (ple : bytes -> bytes -> bool) (vs : bytes -> bytes -> bytes -> bool)
    (uri_path : bytes -> option bytes) (uri_query : bytes -> option (option bytes)) (gunzip inflate : bytes -> option bytes)
    (rq : request) (canister : bytes) (now offset : N) (key : bytes) (min_version status : N) (body : bytes),
  cap < 2 ^ 64 - 1 ->
  verify (2 ^ 64) cap checked H ple vs uri_path uri_query gunzip inflate rq
    (mk_response status [(bs "IC-Certificate", bomb_header)] body) canister now offset key min_version = OPanic.
Proof.
  intros. unfold verify. cbn [rs_headers]. 
  assert (E : header_get (lower certificate_header_name) [(bs "IC-Certificate", bomb_header)] = Some bomb_header) by (vm_compute; reflexivity).
  rewrite E. unfold header_from. assert (S : split_on "," bomb_header = [bomb_header]) by (vm_compute; reflexivity). rewrite S.
  cbn [add_fields]. unfold add_field. assert (F : header_field bomb_header = Some (bs "certificate", bs "u///////////")) by (vm_compute; reflexivity).
  rewrite F. rewrite bytes_eqb_refl. unfold fill, decode_certificate. cbn [s_cert].
  assert (B : b64_dec (bs "u///////////") = Some (unhex "bbffffffffffffffff")) by (vm_compute; reflexivity). rewrite B.
  cbn [of_opt out_bind]. unfold cert_from_cbor. rewrite (C22_cbor_total_refuted cap) by assumption. reflexivity.
Qed.
Print Assumptions C71_response_header_panics_refuted.
