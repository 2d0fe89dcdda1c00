(** Properties C38-C42: certificate verification and the signature cache. *)
From Coq Require Import List Arith NArith Lia Bool.
From Verif Require Import Bytes Sha256 HashTree HashTreeSpec HashTreeProofs HashTreeSpecProofs Props_HashTree Utf8 Cbor CborProofs CborSpec Props_Cbor Leb128 CertVerify CertSpec SigCache.
Import ListNotations.
Local Open Scope N_scope.

(** ** C38, C39: the time window *)
Lemma time_cases checked c now offset enc t rest :
  lookup_path [bs "time"] (c_tree c) = Found enc -> leb_read enc = Some (t, rest) ->
  verify_certificate_time checked c now offset =
  (ok mx <- add128 checked now offset; ok mn <- sub128 checked now offset;
   if mx <? t then OErr else if t <? mn then OErr else OOk tt).
Proof. intros L R. unfold verify_certificate_time. rewrite L, R. reflexivity. Qed.

(** C38: with or without overflow checks, an accepted certificate has a time
    leaf whose value is at most [offset] away from the current time; and when
    [now - offset] and [now + offset] are representable, the check passes
    exactly then. *)
Theorem C38_time_window_sound :
  forall (checked : bool) (c : certificate) (now offset : N),
  now < 2 ^ 128 -> offset < 2 ^ 128 ->
  verify_certificate_time checked c now offset = OOk tt ->
  exists enc t rest, lookup_path [bs "time"] (c_tree c) = Found enc /\ leb_read enc = Some (t, rest) /\
  now <= t + offset /\ t <= now + offset.
Proof.
  intros ck c now offset Ln Lo E.
  destruct (lookup_path [bs "time"] (c_tree c)) as [| |enc|] eqn:L; try (unfold verify_certificate_time in E; rewrite L in E; discriminate).
  destruct (leb_read enc) as [[t rest]|] eqn:R; [|unfold verify_certificate_time in E; rewrite L, R in E; discriminate].
  rewrite (time_cases ck c now offset enc t rest L R) in E.
  exists enc, t, rest. split; [reflexivity|]. split; [exact R|].
  assert (B := leb_read_bound enc t rest R). unfold add128, sub128 in E.
  assert (M : 2 ^ 64 <= u128) by (vm_compute; discriminate).
  change (now < u128) in Ln. change (offset < u128) in Lo. clear L R. revert Ln Lo E B M. generalize u128 as m. generalize (2 ^ 64) as m'. intros m' m Ln Lo E B M.
  destruct ck; (destruct (now + offset <? m) eqn:A; [apply N.ltb_lt in A|apply N.ltb_ge in A]);
  (destruct (offset <=? now) eqn:S; [apply N.leb_le in S|apply N.leb_gt in S]);
  cbn [out_bind] in E; try discriminate E;
  match type of E with (if ?x <? t then _ else _) = _ => destruct (x <? t) eqn:C1; [discriminate|]; apply N.ltb_ge in C1 end;
  match type of E with (if t <? ?x then _ else _) = _ => destruct (t <? x) eqn:C2; [discriminate|]; apply N.ltb_ge in C2 end; lia.
Qed.
Print Assumptions C38_time_window_sound.
Theorem C38_time_window_exact :
  forall (checked : bool) (c : certificate) (now offset : N) (enc : bytes) (t : N) (rest : bytes),
  now + offset < 2 ^ 128 -> offset <= now ->
  lookup_path [bs "time"] (c_tree c) = Found enc -> leb_read enc = Some (t, rest) ->
  (verify_certificate_time checked c now offset = OOk tt <-> now - offset <= t <= now + offset).
Proof.
  intros ck c now offset enc t rest A S L R. rewrite (time_cases ck c now offset enc t rest L R).
  change (now + offset < u128) in A. unfold add128, sub128. apply N.ltb_lt in A. rewrite A. apply N.leb_le in S. rewrite S. cbn [out_bind].
  destruct (now + offset <? t) eqn:C1; [apply N.ltb_lt in C1; split; [discriminate|lia]|apply N.ltb_ge in C1].
  destruct (t <? now - offset) eqn:C2; [apply N.ltb_lt in C2; split; [discriminate|lia]|apply N.ltb_ge in C2]. split; [lia|reflexivity].
Qed.
Print Assumptions C38_time_window_exact.
(** The time of a certificate is what the IC wrote: any u64 in LEB128. *)
Theorem C38_time_encoding :
  forall (n : N) (rest : bytes), n < 2 ^ 64 -> leb_read (leb_enc n ++ rest) = Some (n, rest).
Proof. intros. apply leb_read_enc. assumption. Qed.
Print Assumptions C38_time_encoding.

(** C39 is false: a certificate carrying exactly the current time and an offset
    larger than the current time panics when overflow checks are on and is
    rejected when they are off. *)
Theorem C39_time_check_total_refuted :
  exists (c : certificate) (now offset : N), now < 2 ^ 128 /\ offset < 2 ^ 128 /\
  (exists enc, lookup_path [bs "time"] (c_tree c) = Found enc /\ leb_read enc = Some (now, [])) /\
  verify_certificate_time true c now offset = OPanic /\ verify_certificate_time false c now offset = OErr.
Proof.
  exists (mk_cert (HLabeled (bs "time") (HLeaf (leb_enc 5))) [] None), 5, 300000000000.
  split; [reflexivity|]. split; [reflexivity|]. split; [exists (leb_enc 5); split; vm_compute; reflexivity|].
  split; vm_compute; reflexivity.
Qed.
Print Assumptions C39_time_check_total_refuted.
(** What does hold: no panic and no wrap-around whenever the bounds are
    representable. *)
Theorem C39_time_check_total_partial :
  forall (checked : bool) (c : certificate) (now offset : N),
  now + offset < 2 ^ 128 -> offset <= now ->
  verify_certificate_time checked c now offset = OOk tt \/ verify_certificate_time checked c now offset = OErr.
Proof.
  intros ck c now offset A S. unfold verify_certificate_time.
  destruct (lookup_path [bs "time"] (c_tree c)) as [| |enc|]; auto. destruct (leb_read enc) as [[t rest]|]; auto.
  change (now + offset < u128) in A. unfold add128, sub128. apply N.ltb_lt in A. rewrite A. apply N.leb_le in S. rewrite S. cbn [out_bind].
  destruct (now + offset <? t); auto. destruct (t <? now - offset); auto.
Qed.
Print Assumptions C39_time_check_total_partial.

(** All outcomes, for every current time and offset: without a readable time leaf
    the certificate is rejected; with one, representable bounds decide by the
    window alone; other bounds panic when overflow checks are on and reject the
    certificate, whatever its time, when they are off. *)
Theorem C39_time_check_outcomes :
  forall (checked : bool) (c : certificate) (now offset : N),
  now < 2 ^ 127 -> offset < 2 ^ 127 ->
  ((forall enc t rest, lookup_path [bs "time"] (c_tree c) = Found enc -> leb_read enc = Some (t, rest) -> False) ->
   verify_certificate_time checked c now offset = OErr) /\
  (forall enc t rest, lookup_path [bs "time"] (c_tree c) = Found enc -> leb_read enc = Some (t, rest) ->
   (offset <= now -> now - offset <= t <= now + offset -> verify_certificate_time checked c now offset = OOk tt) /\
   (offset <= now -> t < now - offset \/ now + offset < t -> verify_certificate_time checked c now offset = OErr) /\
   (now < offset -> checked = true -> verify_certificate_time checked c now offset = OPanic) /\
   (now < offset -> checked = false -> verify_certificate_time checked c now offset = OErr)).
Proof.
  intros ck c now offset Ln Lo. split.
  - intro No. unfold verify_certificate_time. destruct (lookup_path [bs "time"] (c_tree c)) as [| |enc|] eqn:L; try reflexivity.
    destruct (leb_read enc) as [[t rest]|] eqn:R; [|reflexivity]. exfalso. exact (No enc t rest eq_refl R).
  - intros enc t rest L R. rewrite (time_cases ck c now offset enc t rest L R).
    assert (B := leb_read_bound enc t rest R).
    assert (M : 2 ^ 64 + 2 ^ 127 <= u128) by (vm_compute; discriminate).
    assert (M2 : 2 ^ 127 + 2 ^ 127 <= u128) by (vm_compute; discriminate).
    clear L R. unfold add128, sub128.
    revert Ln Lo B M M2. generalize u128 as m. generalize (2 ^ 64) as m'. generalize (2 ^ 127) as h. intros h m' m Ln Lo B M M2.
    assert (A : now + offset <? m = true) by (apply N.ltb_lt; lia). rewrite A.
    destruct (offset <=? now) eqn:S; [apply N.leb_le in S|apply N.leb_gt in S].
    + cbn [out_bind]. repeat split; intros; try lia.
      * destruct (now + offset <? t) eqn:C1; [apply N.ltb_lt in C1; lia|].
        destruct (t <? now - offset) eqn:C2; [apply N.ltb_lt in C2; lia|reflexivity].
      * destruct (now + offset <? t) eqn:C1; [reflexivity|apply N.ltb_ge in C1].
        destruct (t <? now - offset) eqn:C2; [reflexivity|apply N.ltb_ge in C2; lia].
    + repeat split; intros; try lia; subst ck; cbn [out_bind]; [reflexivity|].
      destruct (now + offset <? t) eqn:C1; [reflexivity|].
      match goal with |- (if t <? ?x then _ else _) = _ => destruct (t <? x) eqn:C2; [reflexivity|apply N.ltb_ge in C2; lia] end.
Qed.
Print Assumptions C39_time_check_outcomes.

(** ** C40 *)
Lemma der_header_eq : der_header = der_prefix. Proof. reflexivity. Qed.
Lemma extract_der_spec key pk : extract_der key = OOk pk <-> der_of key pk.
Proof.
  unfold extract_der, der_of. rewrite der_header_eq. generalize (eq_refl : length der_prefix = 37%nat). generalize der_prefix as pre. intros pre LP.
  destruct (Nat.eqb (length key) (length pre + key_length)) eqn:L.
  - apply Nat.eqb_eq in L. cbn [negb]. destruct (bytes_eqb_spec (firstn (length pre) key) pre) as [E|N]; cbn [negb].
    + assert (K : key = pre ++ skipn (length pre) key) by (rewrite <- E at 1; symmetry; apply firstn_skipn).
      split.
      * intro X; injection X as <-. split; [exact K|]. rewrite skipn_length. unfold key_length in L. lia.
      * intros [X _]. f_equal. rewrite X, skipn_app, skipn_all, Nat.sub_diag. reflexivity.
    + split; [discriminate|]. intros [-> _]. exfalso. apply N. rewrite firstn_app, firstn_all, Nat.sub_diag, app_nil_r. reflexivity.
  - cbn [negb]. split; [discriminate|]. intros [-> X]. apply Nat.eqb_neq in L. exfalso. apply L. rewrite app_length, X. reflexivity.
Qed.
Lemma der_det key pk pk' : der_of key pk -> der_of key pk' -> pk = pk'.
Proof. intros A B. apply extract_der_spec in A, B. congruence. Qed.
Lemma signature_spec H vs c key : verify_certificate_signature H vs c key = OOk tt <-> signed_by H vs key c.
Proof.
  unfold verify_certificate_signature, signed_by. split.
  - destruct (extract_der key) as [pk| | |] eqn:E; try discriminate. cbn [out_bind].
    destruct (vs pk (c_sig c) (ic_state_root_separator ++ digest H (c_tree c))) eqn:V; [|discriminate].
    intros _. exists pk. split; [apply extract_der_spec; exact E|exact V].
  - intros (pk & D & V). apply extract_der_spec in D. rewrite D. cbn [out_bind].
    change (ic_state_root_separator ++ digest H (c_tree c)) with (state_root_message (digest H (c_tree c))). rewrite V. reflexivity.
Qed.
Lemma within_spec ple p l : within_ranges ple p l = true <-> exists lo hi, In (lo, hi) l /\ ple lo p = true /\ ple p hi = true.
Proof.
  unfold within_ranges. rewrite existsb_exists. split.
  - intros ([lo hi] & I & E). apply andb_prop in E. exists lo, hi. tauto.
  - intros (lo & hi & I & A & B). exists (lo, hi). simpl. rewrite A, B. auto.
Qed.

(** What it takes for a certificate to be valid for a canister, apart from its time. *)
Definition delegation_valid (umod cap_max : N) (H : bytes -> bytes) (ple : bytes -> bytes -> bool) (vs : bytes -> bytes -> bytes -> bool)
    (canister_id root_key : bytes) (d : delegation) (subnet_key : bytes) : Prop :=
  exists dc enc ranges lo hi,
    cert_from_cbor umod cap_max (d_cert d) = OOk dc /\
    c_deleg dc = None /\
    signed_by H vs root_key dc /\
    lookup_path (subnet_path (d_subnet d) (bs "canister_ranges")) (c_tree dc) = Found enc /\
    principals_from_cbor umod cap_max enc = OOk ranges /\
    In (lo, hi) ranges /\ ple lo canister_id = true /\ ple canister_id hi = true /\
    lookup_path (subnet_path (d_subnet d) (bs "public_key")) (c_tree dc) = Found subnet_key.

Lemma delegation_spec umod cap H ple vs d cid root k :
  verify_delegation umod cap H ple vs d cid root = OOk k <->
  delegation_valid umod cap H ple vs cid root d k /\ (length cid <= 29)%nat.
Proof.
  unfold verify_delegation, delegation_valid, subnet_path. split.
  - destruct (cert_from_cbor umod cap (d_cert d)) as [dc| | |] eqn:E; try discriminate. cbn [out_bind].
    destruct (c_deleg dc) eqn:D; [discriminate|].
    destruct (verify_certificate_signature H vs dc root) as [[]| | |] eqn:S; try discriminate. cbn [out_bind].
    destruct (lookup_path [bs "subnet"; d_subnet d; bs "canister_ranges"] (c_tree dc)) as [| |enc|] eqn:L; try discriminate.
    destruct (Nat.ltb 29 (length cid)) eqn:C; [discriminate|]. apply Nat.ltb_ge in C.
    destruct (principals_from_cbor umod cap enc) as [ranges| | |] eqn:P; try discriminate. cbn [out_bind].
    destruct (within_ranges ple cid ranges) eqn:W; [|discriminate]. cbn [negb].
    destruct (lookup_path [bs "subnet"; d_subnet d; bs "public_key"] (c_tree dc)) as [| |k'|] eqn:K; try discriminate.
    intro X; injection X as ->. split; [|exact C]. apply within_spec in W. destruct W as (lo & hi & I & W1 & W2).
    exists dc, enc, ranges, lo, hi. repeat split; auto. apply signature_spec. exact S.
  - intros [(dc & enc & ranges & lo & hi & E & D & S & L & P & I & W1 & W2 & K) C].
    rewrite E. cbn [out_bind]. rewrite D. apply signature_spec in S. rewrite S. cbn [out_bind]. rewrite L.
    apply Nat.ltb_ge in C. rewrite C, P. cbn [out_bind].
    assert (W : within_ranges ple cid ranges = true) by (apply within_spec; eauto). rewrite W. cbn [negb]. rewrite K. reflexivity.
Qed.

(** C40, both directions: a certificate is accepted exactly if its time check
    passes and either it has no delegation and is signed by the root key, or
    its delegation is valid for the canister and it is signed by the key the
    delegation reveals. *)
Theorem C40_accepted_iff :
  forall umod cap_max checked (H : bytes -> bytes) ple vs c canister_id root_key now offset,
  verify_certificate umod cap_max checked H ple vs c canister_id root_key now offset = OOk tt <->
  verify_certificate_time checked c now offset = OOk tt /\
  match c_deleg c with
  | None => signed_by H vs root_key c
  | Some d => (length canister_id <= 29)%nat /\
      exists subnet_key, delegation_valid umod cap_max H ple vs canister_id root_key d subnet_key /\ signed_by H vs subnet_key c
  end.
Proof.
  intros umod cap ck H ple vs c cid root now off. unfold verify_certificate.
  destruct (verify_certificate_time ck c now off) as [[]| | |]; cbn [out_bind]; try (split; [discriminate|intros [X _]; discriminate]).
  destruct (c_deleg c) as [d|].
  - split.
    + destruct (verify_delegation umod cap H ple vs d cid root) as [k| | |] eqn:D; try discriminate. cbn [out_bind].
      intro S. apply signature_spec in S. apply delegation_spec in D. destruct D as [D L]. split; [reflexivity|]. split; [exact L|]. eauto.
    + intros (_ & L & k & D & S). assert (V : verify_delegation umod cap H ple vs d cid root = OOk k) by (apply delegation_spec; auto).
      rewrite V. cbn [out_bind]. apply signature_spec. exact S.
  - cbn [out_bind]. rewrite signature_spec. tauto.
Qed.
Print Assumptions C40_accepted_iff.

(** The ranges are read as they were written. *)
Lemma encodes_ranges (umod cap_max : N) (l : list (bytes * bytes)) : 32 < umod <= 2 ^ 64 ->
  Forall (fun r => (length (fst r) <= 29)%nat /\ (length (snd r) <= 29)%nat) l -> N.of_nat (length l) < umod ->
  encodes umod cap_max (enc_ranges l) (CArray (map (fun r => CArray [CBytes (fst r); CBytes (snd r)]) l)).
Proof.
  intros [U1 U2] F L. unfold enc_ranges. rewrite flat_map_concat_map.
  rewrite <- (map_length (fun r => enc_head 4 2 ++ enc_bytes (fst r) ++ enc_bytes (snd r)) l). apply encodes_array; [exact U2| |rewrite map_length; exact L].
  clear L. induction F as [|[a b] l [A B] F IH]; [constructor|]. constructor; [|exact IH].
  cbn [fst snd] in *. change 2 with (N.of_nat (length [enc_bytes a; enc_bytes b])).
  replace (enc_bytes a ++ enc_bytes b) with (concat [enc_bytes a; enc_bytes b]) by (simpl; rewrite app_nil_r; reflexivity).
  apply encodes_array; [exact U2| |simpl; lia].
  constructor; [apply encodes_bytes2; [exact U2|lia]|]. constructor; [apply encodes_bytes2; [exact U2|lia]|constructor].
Qed.
Theorem C40_ranges_round_trip :
  forall (umod cap_max : N) (l : list (bytes * bytes)), 32 < umod <= 2 ^ 64 ->
  Forall (fun r => (length (fst r) <= 29)%nat /\ (length (snd r) <= 29)%nat) l -> N.of_nat (length l) < umod ->
  principals_from_cbor umod cap_max (enc_ranges l) = OOk l /\
  principals_from_cbor umod cap_max (self_describe ++ enc_ranges l) = OOk l.
Proof.
  intros umod cap l U F L. assert (X := encodes_ranges umod cap l U F L).
  unfold principals_from_cbor. rewrite (encodes_parse umod cap _ _ X), (encodes_parse umod cap _ _ (encodes_self umod cap _ _ X)). cbn [out_bind].
  clear X L. match goal with |- ?A /\ ?B => change (A /\ A) end.
  assert (Z : match to_ranges (map (fun r => CArray [CBytes (fst r); CBytes (snd r)]) l) with OOk x => x = l | _ => False end); [|].
  2: { split; destruct (to_ranges _); subst; tauto. }
  induction F as [|[a b] l [A B] F IH]; [reflexivity|]. cbn [map to_ranges fst snd] in *.
  apply Nat.leb_le in A, B. rewrite A, B. destruct (to_ranges _); try contradiction. subst. reflexivity.
Qed.
Print Assumptions C40_ranges_round_trip.

(** ** C40, down to the state trees
    [Root t]: the root subnet certified state tree [t]; [Sub s t]: subnet [s]
    certified [t].  The hypotheses say what unforgeable signatures give: a
    signature valid under the root key is on the root hash of some certified
    root tree, and likewise for a subnet whose key stands in a root tree. *)
Definition unforgeable (H : bytes -> bytes) (vs : bytes -> bytes -> bytes -> bool) (root_key : bytes)
    (Root : htree -> Prop) (Sub : bytes -> htree -> Prop) : Prop :=
  (forall t, Root t -> wf t /\ full t = true) /\
  (forall s t, Sub s t -> wf t /\ full t = true) /\
  (forall pk sig m, der_of root_key pk -> vs pk sig m = true -> exists t, Root t /\ m = state_root_message (digest H t)) /\
  (forall r s k pk sig m, Root r -> at_path (subnet_path s (bs "public_key")) r (HLeaf k) -> der_of k pk ->
     vs pk sig m = true -> exists t, Sub s t /\ m = state_root_message (digest H t)).

Lemma msg_inj d d' : state_root_message d = state_root_message d' -> d = d'.
Proof. unfold state_root_message. intro E. injection E as E. exact E. Qed.
Lemma hashes32_bool t : CborSpec.hashes32 t <-> HashTree.hashes32 t = true.
Proof.
  induction t as [|l IHl r IHr|k t IH|v|h]; simpl; try tauto.
  - rewrite andb_true_iff, IHl, IHr. tauto.
  - rewrite Nat.eqb_eq. tauto.
Qed.
Lemma cert_hashes32 umod cap i c : cert_from_cbor umod cap i = OOk c -> HashTree.hashes32 (c_tree c) = true.
Proof.
  unfold cert_from_cbor. destruct (parse_cbor umod cap i) as [v| | |]; try discriminate. cbn [out_bind].
  destruct (to_certificate v) as [c'|] eqn:E; [|discriminate]. intro X; injection X as <-.
  unfold to_certificate in E. destruct v as [u|s|b|l|m|g]; try discriminate. apply hashes32_bool.
  destruct (map_get (bs "tree") m) as [v|]; [|discriminate]. destruct (to_tree v) as [t|] eqn:T; [|discriminate].
  apply to_tree_hashes32 in T.
  repeat match type of E with
    | match ?x with _ => _ end = _ => destruct x; try discriminate E
    end; injection E as <-; exact T.
Qed.
Lemma signed_prunes H (vs : bytes -> bytes -> bytes -> bool) key c (Q : htree -> Prop) :
  (forall x, length (H x) = 32%nat) -> (forall t, Q t -> wf t /\ full t = true) ->
  (forall pk sig m, der_of key pk -> vs pk sig m = true -> exists t, Q t /\ m = state_root_message (digest H t)) ->
  HashTree.hashes32 (c_tree c) = true -> signed_by H vs key c ->
  exists t, Q t /\ (prunes H t (c_tree c) \/ collision H (preimages H t) (preimages H (c_tree c))).
Proof.
  intros HL WF U W (pk & D & V). destruct (U pk _ _ D V) as (t & A & E). apply msg_inj in E.
  exists t. split; [exact A|]. apply C02_full_tree_determines_witness; auto. apply WF. exact A.
Qed.

(** C40: an accepted certificate shows (a pruning of) a tree the root subnet
    certified, or one certified by a subnet to which a tree certified by the
    root subnet assigns the canister - unless the presented certificate
    exhibits a hash collision with such a tree. *)
Theorem C40_shows_certified_state :
  forall umod cap_max checked (H : bytes -> bytes) ple vs root_key (Root : htree -> Prop) (Sub : bytes -> htree -> Prop),
  (forall x, length (H x) = 32%nat) -> unforgeable H vs root_key Root Sub ->
  forall c canister_id now offset,
  HashTree.hashes32 (c_tree c) = true ->
  verify_certificate umod cap_max checked H ple vs c canister_id root_key now offset = OOk tt ->
  (exists t, Root t /\ c_deleg c = None /\
     (prunes H t (c_tree c) \/ collision H (preimages H t) (preimages H (c_tree c)))) \/
  (exists d dc r, c_deleg c = Some d /\ cert_from_cbor umod cap_max (d_cert d) = OOk dc /\ Root r /\
     (collision H (preimages H r) (preimages H (c_tree dc)) \/
      exists t enc ranges lo hi,
        at_path (subnet_path (d_subnet d) (bs "canister_ranges")) r (HLeaf enc) /\
        principals_from_cbor umod cap_max enc = OOk ranges /\ In (lo, hi) ranges /\
        ple lo canister_id = true /\ ple canister_id hi = true /\
        Sub (d_subnet d) t /\ (prunes H t (c_tree c) \/ collision H (preimages H t) (preimages H (c_tree c))))).
Proof.
  intros umod cap ck H ple vs root Root Sub HL (WR & WS & UR & US) c cid now off W E.
  apply C40_accepted_iff in E. destruct E as [_ E]. destruct (c_deleg c) as [d|] eqn:D.
  - right. destruct E as (_ & k & (dc & enc & ranges & lo & hi & E & DN & S & L & P & I & W1 & W2 & K) & SC).
    assert (Wd := cert_hashes32 _ _ _ _ E).
    destruct (signed_prunes H vs root dc Root HL WR UR Wd S) as (r & Rr & PR).
    exists d, dc, r. split; [reflexivity|]. split; [exact E|]. split; [exact Rr|].
    destruct PR as [PR|C]; [|left; exact C]. right. destruct (WR r Rr) as [Wr Fr].
    apply (C03_found_is_sound H r _ _ _ Wr Fr PR) in L, K. apply lookup_path_at_iff in L, K; auto.
    destruct (signed_prunes H vs k c (Sub (d_subnet d)) HL) as (t & A & Q); auto.
    + intros t. apply WS.
    + intros pk sig m DK V. exact (US r (d_subnet d) k pk sig m Rr K DK V).
    + exists t, enc, ranges, lo, hi. auto 10.
  - left. destruct (signed_prunes H vs root c Root HL WR UR W E) as (t & A & Q). eauto.
Qed.
Print Assumptions C40_shows_certified_state.

(** ** C41 *)
Section Cache.
  Variables (H : bytes -> bytes) (bls : bytes -> bytes -> bytes -> bool) (I : cache_impl).
  Hypothesis SI : sound_impl I.
  Let hashed (j : job) : bytes := j_pk j ++ j_sig j ++ j_msg j.
  Definition well_sized (j : job) : Prop := length (j_pk j) = 96%nat /\ length (j_msg j) = 46%nat.
  Lemma hashed_inj j j' : well_sized j -> well_sized j' -> hashed j = hashed j' -> j = j'.
  Proof.
    intros [A B] [A' B'] E. unfold hashed in E. destruct j as [p s m], j' as [p' s' m']. cbn in *.
    apply app_inj_len in E; [|congruence]. destruct E as [-> E]. apply app_inj_len_r in E; [|congruence]. destruct E as [-> ->]. reflexivity.
  Qed.
  (** invariant of a pool of calls over the jobs [js] *)
  Definition held_ok (js : list job) (s : st I) : Prop :=
    forall k, In k (contents I s) -> exists j, In j js /\ k = entry H j /\ bls_verdict bls j = true.
  Definition pc_ok (js : list job) (x : job * pc) : Prop :=
    match snd x with
    | Start | Missed => True
    | Checked => bls_verdict bls (fst x) = true
    | Done v => v = bls_verdict bls (fst x) \/ collision H (map hashed js) (map hashed js)
    end.
  Definition inv (js : list job) (x : pool * st I) : Prop :=
    map fst (fst x) = js /\ held_ok js (snd x) /\ Forall (pc_ok js) (fst x).
  Lemma hit_ok js j s : Forall well_sized js -> In j js -> held_ok js s -> fst (get I (entry H j) s) = true ->
    true = bls_verdict bls j \/ collision H (map hashed js) (map hashed js).
  Proof.
    intros W J HO G. destruct SI as (S1 & _). apply S1 in G. destruct (HO _ G) as (j' & J' & E & V).
    destruct (bytes_eq_dec (hashed j) (hashed j')) as [X|N].
    - left. rewrite Forall_forall in W. apply hashed_inj in X; auto. subst j'. congruence.
    - right. exists (hashed j), (hashed j'). repeat split; auto using in_map.
  Qed.
  Lemma inv_step js x y : Forall well_sized js -> step H bls I x y -> inv js x -> inv js y.
  Proof.
    intros W S (M & HO & F). destruct S as [l j p r s p' s' E]. cbn [fst snd] in *.
    assert (Jin : In j js) by (rewrite <- M, map_app; apply in_or_app; right; left; reflexivity).
    assert (M' : map fst (l ++ (j, p') :: r) = js) by (rewrite <- M, !map_app; reflexivity).
    apply Forall_app in F. destruct F as [Fl Fr]. inversion Fr as [|? ? Fp Fr']; subst x l0.
    destruct SI as (S1 & S2 & S3).
    assert (G : held_ok js s' /\ pc_ok js (j, p')).
    { destruct p as [| | |v]; cbn in E; try discriminate.
      - destruct (get I (entry H j) s) as [hit s1] eqn:G. injection E as <- <-. split.
        + intros k K. apply HO. apply (S2 (entry H j)). rewrite G. exact K.
        + destruct hit; [|exact Logic.I]. apply (hit_ok js j s W Jin HO). rewrite G. reflexivity.
      - injection E as <- <-. split; [exact HO|]. destruct (bls_verdict bls j) eqn:V; cbn; auto.
      - injection E as <- <-. cbn in Fp. split; [|left; symmetry; exact Fp].
        intros k K. apply S3 in K. destruct K as [->|K]; [exists j; auto|auto]. }
    destruct G as [G1 G2]. split; [exact M'|]. split; [exact G1|]. apply Forall_app. split; [exact Fl|]. constructor; assumption.
  Qed.
  Lemma inv_steps js x y : Forall well_sized js -> steps H bls I x y -> inv js x -> inv js y.
  Proof. intros W S. induction S; auto. intro A. eapply inv_step; eauto. Qed.
End Cache.

(** C41: any number of calls, started at any time and interleaved in any way,
    over any cache that starts empty: a finished call has the verdict of the
    BLS check, unless two of the calls collide under SHA-256. *)
Theorem C41_cache_never_changes_verdict :
  forall (H : bytes -> bytes) (bls : bytes -> bytes -> bytes -> bool) (I : cache_impl) (s0 : st I) (jobs : list job),
  sound_impl I -> contents I s0 = [] ->
  Forall (fun j => length (j_pk j) = 96%nat /\ length (j_msg j) = 46%nat) jobs ->
  forall pool' s', steps H bls I (map (fun j => (j, Start)) jobs, s0) (pool', s') ->
  forall j v, In (j, Done v) pool' ->
  v = bls (j_pk j) (j_sig j) (j_msg j) \/
  exists j1 j2, In j1 jobs /\ In j2 jobs /\ j1 <> j2 /\
    j_pk j1 ++ j_sig j1 ++ j_msg j1 <> j_pk j2 ++ j_sig j2 ++ j_msg j2 /\
    H (j_pk j1 ++ j_sig j1 ++ j_msg j1) = H (j_pk j2 ++ j_sig j2 ++ j_msg j2).
Proof.
  intros H bls I s0 jobs SI C0 W pool' s' S j v D.
  assert (X : inv H bls I jobs (pool', s')).
  { eapply inv_steps; eauto. split; [|split].
    - cbn [fst]. rewrite map_map. cbn. apply map_id.
    - intros k K. cbn [snd] in K. rewrite C0 in K. destruct K.
    - cbn [fst]. apply Forall_forall. intros x X. apply in_map_iff in X. destruct X as (j' & <- & _). exact Logic.I. }
  destruct X as (_ & _ & F). cbn [fst] in F. rewrite Forall_forall in F. specialize (F _ D). cbn in F.
  destruct F as [F|(x & y & A & B & N & E)]; [left; exact F|right].
  apply in_map_iff in A, B. destruct A as (j1 & <- & J1), B as (j2 & <- & J2). exists j1, j2. repeat split; auto. congruence.
Qed.
Print Assumptions C41_cache_never_changes_verdict.
(** The calls [verify] makes have these sizes. *)
Theorem C41_calls_are_well_sized :
  forall (H : bytes -> bytes) (key pk : bytes) (t : htree), (forall x, length (H x) = 32%nat) -> HashTree.hashes32 t = true -> der_of key pk ->
  length pk = 96%nat /\ length (state_root_message (digest H t)) = 46%nat.
Proof.
  intros H key pk t HL W [_ L]. split; [exact L|]. unfold state_root_message. cbn. rewrite digest_len by auto. reflexivity.
Qed.
Print Assumptions C41_calls_are_well_sized.

(** The crate's cache is an instance, whatever its size. *)
Lemma existsb_In k s : existsb (bytes_eqb k) s = true <-> In k s.
Proof.
  rewrite existsb_exists. split; [intros (x & A & B); apply bytes_eqb_eq in B; subst; exact A|].
  intro A. exists k. split; [exact A|apply bytes_eqb_refl].
Qed.
Lemma in_removelast {A} (x : A) s : In x (removelast s) -> In x s.
Proof.
  intro X. destruct s as [|y s _] using rev_ind; [destruct X|]. rewrite removelast_last in X. apply in_or_app. auto.
Qed.
Theorem C41_lru_is_sound : forall cap, sound_impl (lru cap).
Proof.
  intro cap. split; [|split].
  - intros k s. cbn. destruct (existsb (bytes_eqb k) s) eqn:E; [|discriminate]. intros _. apply existsb_In. exact E.
  - intros k s x. cbn. destruct (existsb (bytes_eqb k) s) eqn:E; cbn; [|auto]. intros [<-|X]; [apply existsb_In; exact E|].
    apply filter_In in X. tauto.
  - intros k s x. cbn. set (s1 := if (cap <=? length s)%nat then removelast s else s).
    assert (Z : In x s1 -> In x s) by (unfold s1; destruct (cap <=? length s)%nat; [apply in_removelast|auto]).
    destruct (existsb (bytes_eqb k) s1); [auto|]. intros [<-|X]; auto.
Qed.
Print Assumptions C41_lru_is_sound.

(** ** C42 *)
Theorem C42_within_capacity :
  forall (H : bytes -> bytes) (bls : bytes -> bytes -> bytes -> bool) (cap : nat) (jobs : list job), (1 <= cap)%nat ->
  forall pool' s', steps H bls (lru cap) (map (fun j => (j, Start)) jobs, ([] : list bytes)) (pool', s') ->
  (length (contents (lru cap) s') <= cap)%nat.
Proof.
  intros H bls cap jobs C1 pool' s' S.
  assert (G : forall x y, steps H bls (lru cap) x y -> (length (snd x : list bytes) <= cap)%nat -> NoDup (snd x : list bytes) ->
     (length (snd y : list bytes) <= cap)%nat /\ NoDup (snd y : list bytes)).
  { clear - C1. intros x y S. induction S as [x|x y z S IH T]; [auto|]. intros L N. destruct (IH L N) as [L' N']. clear IH L N S.
    destruct T as [l j p r s p' s' E]. cbn [snd] in *. destruct p as [| | |v]; cbn in E; try discriminate.
    - destruct (existsb (bytes_eqb (entry H j)) s) eqn:X; injection E as <- <-; [|auto].
      apply existsb_In in X. apply in_split in X. destruct X as (a & b & ->).
      assert (Na := NoDup_remove_2 _ _ _ N'). assert (Nb := NoDup_remove_1 _ _ _ N').
      assert (Fx : filter (fun x => negb (bytes_eqb x (entry H j))) (a ++ entry H j :: b) = a ++ b).
      { rewrite filter_app. cbn [filter]. rewrite bytes_eqb_refl. cbn [negb]. rewrite <- filter_app.
        generalize dependent (a ++ b). clear. intros c N _. induction c as [|y c IH]; [reflexivity|]. cbn [filter].
        destruct (bytes_eqb_spec y (entry H j)) as [->|]; [exfalso; apply N; left; reflexivity|]. cbn [negb]. rewrite IH; [reflexivity|].
        intro X. apply N. right. exact X. }
      rewrite Fx. split; [rewrite app_length in L'; simpl in *; rewrite app_length; lia|]. constructor; assumption.
    - injection E as <- <-. auto.
    - injection E as <- <-. set (s1 := if (cap <=? length s)%nat then removelast s else s).
      assert (Q : (length s1 < cap)%nat /\ NoDup s1).
      { unfold s1. destruct (cap <=? length s)%nat eqn:F; [apply Nat.leb_le in F|apply Nat.leb_gt in F; auto].
        destruct s as [|y s _] using rev_ind; [simpl in F; lia|]. rewrite removelast_last. rewrite app_length in *. simpl in *.
        split; [lia|]. apply NoDup_remove_1 in N'. rewrite app_nil_r in N'. exact N'. }
      destruct Q as [Q1 Q2]. destruct (existsb (bytes_eqb (entry H j)) s1) eqn:X; [split; [lia|exact Q2]|].
      split; [simpl; lia|]. constructor; [|exact Q2]. intro Y. apply existsb_In in Y. congruence. }
  apply (G _ _ S); [simpl; lia|constructor].
Qed.
Print Assumptions C42_within_capacity.

Lemma nub_In k l : In k (nub l) <-> In k l.
Proof.
  induction l as [|x l IH]; [reflexivity|]. cbn [nub]. cbn [In]. rewrite filter_In, IH.
  destruct (bytes_eqb_spec k x) as [->|N]; cbn [negb]; [tauto|].
  split; [tauto|]. intros [->|X]; [congruence|tauto].
Qed.
Lemma filter_NoDup {A} f (l : list A) : NoDup l -> NoDup (filter f l).
Proof. induction 1 as [|x l N D IH]; cbn [filter]; [constructor|]. destruct (f x); [constructor; auto|auto]. intro X. apply filter_In in X. tauto. Qed.
Lemma nub_NoDup l : NoDup (nub l).
Proof.
  induction l as [|x l IH]; cbn [nub]; constructor; [|apply filter_NoDup; exact IH].
  intro X. apply filter_In in X. destruct X as [_ X]. rewrite bytes_eqb_refl in X. discriminate.
Qed.
Definition neqk (k x : bytes) : bool := negb (bytes_eqb x k).
Lemma neqk_refl k : neqk k k = false. Proof. unfold neqk. rewrite bytes_eqb_refl. reflexivity. Qed.
Lemma filter_absent k l : ~ In k l -> filter (neqk k) l = l.
Proof.
  induction l as [|x l IH]; intro N; [reflexivity|]. cbn [filter]. unfold neqk at 1. destruct (bytes_eqb_spec x k) as [->|]; [exfalso; apply N; left; reflexivity|].
  cbn [negb]. rewrite IH; [reflexivity|]. intro X; apply N; right; exact X.
Qed.
Lemma hit_order k cap l : NoDup l -> In k (firstn cap l) -> k :: filter (neqk k) (firstn cap l) = firstn cap (k :: filter (neqk k) l).
Proof.
  intros D X. assert (Cp : (1 <= cap)%nat) by (destruct cap; [destruct X|lia]).
  destruct cap as [|cap]; [lia|]. rewrite firstn_cons. f_equal.
  assert (Il : In k l) by (rewrite <- (firstn_skipn (S cap) l); apply in_or_app; auto).
  apply in_split in Il. destruct Il as (a & b & ->).
  assert (N := NoDup_remove_2 _ _ _ D). assert (Na : ~ In k a) by (intro; apply N; apply in_or_app; auto). assert (Nb : ~ In k b) by (intro; apply N; apply in_or_app; auto).
  assert (La : (length a <= cap)%nat).
  { destruct (le_lt_dec (length a) cap) as [|G]; [assumption|]. exfalso. apply Na. rewrite firstn_app in X.
    replace (S cap - length a)%nat with 0%nat in X by lia. cbn [firstn] in X. rewrite app_nil_r in X. rewrite <- (firstn_skipn (S cap) a). apply in_or_app; auto. }
  rewrite (firstn_app (S cap)), (firstn_all2 a) by lia. replace (S cap - length a)%nat with (S (cap - length a)) by lia. cbn [firstn].
  rewrite !filter_app. cbn [filter]. rewrite !neqk_refl. rewrite !(filter_absent k a) by exact Na.
  rewrite (filter_absent k b) by exact Nb. rewrite filter_absent by (intro Y; apply Nb; rewrite <- (firstn_skipn (cap - length a) b); apply in_or_app; auto).
  rewrite firstn_app, (firstn_all2 a) by lia. reflexivity.
Qed.
Lemma removelast_firstn_S {A} n (l : list A) : (S n <= length l)%nat -> removelast (firstn (S n) l) = firstn n l.
Proof.
  revert n. induction l as [|x l IH]; intros n L; [simpl in L; lia|]. destruct n as [|n]; [reflexivity|].
  simpl in L. change (firstn (S (S n)) (x :: l)) with (x :: firstn (S n) l). cbn [firstn] in *. 
  destruct l as [|y l]; [simpl in L; lia|]. change (removelast (x :: y :: firstn n l)) with (x :: removelast (y :: firstn n l)).
  f_equal. apply (IH n). lia.
Qed.
Lemma miss_order k cap l : (1 <= cap)%nat -> ~ In k (firstn cap l) ->
  let s := firstn cap l in
  let s1 := if (cap <=? length s)%nat then removelast s else s in
  (if existsb (bytes_eqb k) s1 then s1 else k :: s1) = firstn cap (k :: filter (neqk k) l).
Proof.
  intros C1 N s s1. destruct cap as [|cap]; [lia|]. 
  assert (E : s1 = firstn cap (filter (neqk k) l)).
  { unfold s1, s. destruct (S cap <=? length (firstn (S cap) l))%nat eqn:F; [apply Nat.leb_le in F|apply Nat.leb_gt in F]; rewrite firstn_length in F.
    - rewrite removelast_firstn_S by lia. rewrite <- (firstn_skipn (S cap) l) at 2. rewrite filter_app, filter_absent by exact N.
      rewrite firstn_app. replace (cap - length (firstn (S cap) l))%nat with 0%nat by (rewrite firstn_length; lia).
      rewrite firstn_O, app_nil_r, firstn_firstn. f_equal. lia.
    - rewrite firstn_all2 in N by lia. rewrite firstn_all2 by lia. rewrite filter_absent by exact N. rewrite firstn_all2 by lia. reflexivity. }
  rewrite firstn_cons, <- E. destruct (existsb (bytes_eqb k) s1) eqn:X; [|reflexivity].
  exfalso. apply existsb_In in X. apply N. unfold s1 in X. destruct (S cap <=? length s)%nat; [apply in_removelast in X|]; exact X.
Qed.

(** C42: calls made one after the other leave in the cache exactly the keys of
    the last [cap] distinct accepted signatures, most recently used first. *)
Theorem C42_least_recently_used_evicted :
  forall (H : bytes -> bytes) (bls : bytes -> bytes -> bytes -> bool) (cap : nat) (jobs : list job), (1 <= cap)%nat ->
  forall verdicts s, run H bls (lru cap) jobs ([] : list bytes) = (verdicts, s) ->
  s = most_recent cap (map (fun jv => H (j_pk (fst jv) ++ j_sig (fst jv) ++ j_msg (fst jv))) (filter snd (combine jobs verdicts))).
Proof.
  intros H bls cap jobs C1.
  assert (G : forall jobs used vs s, run H bls (lru cap) jobs (most_recent cap used) = (vs, s) ->
     s = most_recent cap (used ++ map (fun jv => entry H (fst jv)) (filter snd (combine jobs vs)))).
  { induction jobs0 as [|j js IH]; intros used vs s E.
    - cbn [run] in E. injection E as <- <-. cbn. rewrite app_nil_r. reflexivity.
    - cbn [run] in E. unfold verify_signature in E. cbn [get set lru] in E.
      assert (MR : most_recent cap (used ++ [entry H j]) = firstn cap (entry H j :: filter (neqk (entry H j)) (nub (rev used)))).
      { unfold most_recent. rewrite rev_app_distr. reflexivity. }
      destruct (existsb (bytes_eqb (entry H j)) (most_recent cap used)) eqn:X.
      + apply existsb_In in X. change (fun x : bytes => negb (bytes_eqb x (entry H j))) with (neqk (entry H j)) in E. unfold most_recent in E, X. rewrite (hit_order _ cap _ (nub_NoDup _) X) in E. rewrite <- MR in E.
        destruct (run H bls (lru cap) js (most_recent cap (used ++ [entry H j]))) as [vs2 s2] eqn:R. injection E as <- <-.
        apply IH in R. cbn [combine filter snd map fst]. rewrite <- app_assoc in R. exact R.
      + destruct (bls_verdict bls j) eqn:V; cbn [negb] in E.
        * assert (N : ~ In (entry H j) (firstn cap (nub (rev used)))) by (intro Y; apply existsb_In in Y; unfold most_recent in X; congruence).
          assert (M := miss_order (entry H j) cap (nub (rev used)) C1 N). cbv zeta in M.
          unfold most_recent in E. rewrite M in E. rewrite <- MR in E.
          destruct (run H bls (lru cap) js (most_recent cap (used ++ [entry H j]))) as [vs2 s2] eqn:R. injection E as <- <-.
          apply IH in R. cbn [combine filter snd map fst]. rewrite <- app_assoc in R. exact R.
        * destruct (run H bls (lru cap) js (most_recent cap used)) as [vs2 s2] eqn:R. injection E as <- <-. apply IH in R. exact R. }
  intros vs s E. apply (G jobs [] vs s). unfold most_recent. cbn. destruct cap; exact E.
Qed.
Print Assumptions C42_least_recently_used_evicted.

(** C41 for calls made one after the other (no interleaving): the list of verdicts. *)
Theorem C41_sequential :
  forall (H : bytes -> bytes) (bls : bytes -> bytes -> bytes -> bool) (I : cache_impl) (s0 : st I) (jobs : list job),
  sound_impl I -> contents I s0 = [] ->
  Forall (fun j => length (j_pk j) = 96%nat /\ length (j_msg j) = 46%nat) jobs ->
  fst (run H bls I jobs s0) = map (fun j => bls (j_pk j) (j_sig j) (j_msg j)) jobs \/
  collision H (map (fun j => j_pk j ++ j_sig j ++ j_msg j) jobs) (map (fun j => j_pk j ++ j_sig j ++ j_msg j) jobs).
Proof.
  intros H bls I s0 jobs SI C0 W.
  assert (G : forall js s, (forall j, In j js -> In j jobs) -> held_ok H bls I jobs s ->
    fst (run H bls I js s) = map (bls_verdict bls) js \/
    collision H (map (fun j => j_pk j ++ j_sig j ++ j_msg j) jobs) (map (fun j => j_pk j ++ j_sig j ++ j_msg j) jobs)).
  { induction js as [|j js IH]; intros s Sub HO; [left; reflexivity|]. cbn [run]. unfold verify_signature.
    assert (Jn := Sub j (or_introl eq_refl)). assert (Sub' : forall x, In x js -> In x jobs) by (intros; apply Sub; right; assumption).
    assert (HI := hit_ok H bls I SI jobs j s W Jn HO).
    destruct SI as (S1 & S2 & S3). assert (HO1 : held_ok H bls I jobs (snd (get I (entry H j) s))) by (intros k K; apply HO; eapply S2; exact K).
    destruct (get I (entry H j) s) as [hit s1]. cbn [fst snd] in *. destruct hit.
    - destruct (HI eq_refl) as [V|C]; [|right; exact C]. destruct (IH s1 Sub' HO1) as [E|C]; [|right; exact C].
      left. destruct (run H bls I js s1). cbn in *. rewrite <- V, E. reflexivity.
    - destruct (bls_verdict bls j) eqn:V; cbn [negb].
      + assert (HO2 : held_ok H bls I jobs (set I (entry H j) s1)).
        { intros k K. apply S3 in K. destruct K as [->|K]; [exists j; auto|auto]. }
        destruct (IH _ Sub' HO2) as [E|C]; [|right; exact C]. left. destruct (run H bls I js (set I (entry H j) s1)). cbn in *. rewrite V, E. reflexivity.
      + destruct (IH _ Sub' HO1) as [E|C]; [|right; exact C]. left. destruct (run H bls I js s1). cbn in *. rewrite V, E. reflexivity. }
  apply (G jobs s0); [auto|]. intros k K. rewrite C0 in K. destruct K.
Qed.
Print Assumptions C41_sequential.

(** ** Concrete cases *)
Definition ex_key (b : byte) : bytes := der_header ++ repeat b 96.
Definition ex_subnet : bytes := bs "subnet-1".
Definition ex_root_tree : htree :=
  HLabeled (bs "subnet") (HLabeled ex_subnet
    (HFork (HLabeled (bs "canister_ranges") (HLeaf (enc_ranges [(bs "a", bs "b"); (bs "d", bs "f")])))
           (HLabeled (bs "public_key") (HLeaf (ex_key x02))))).
Definition ex_sub_tree : htree :=
  HFork (HLabeled (bs "canister") (HLabeled (bs "e") (HLabeled (bs "certified_data") (HLeaf (bs "data")))))
        (HLabeled (bs "time") (HLeaf (leb_enc 1000))).
Definition ex_vs (pk sig m : bytes) : bool :=
  (bytes_eqb pk (repeat x01 96) && bytes_eqb m (state_root_message (digest sha256 ex_root_tree))) ||
  (bytes_eqb pk (repeat x02 96) && bytes_eqb m (state_root_message (digest sha256 ex_sub_tree))).
Definition ex_cert : certificate :=
  mk_cert ex_sub_tree (bs "sig") (Some (mk_deleg ex_subnet (enc_cert (mk_cert ex_root_tree (bs "sig") None)))).
Definition ex_ple (a b : bytes) : bool := match bcmp a b with Gt => false | _ => true end.
Example ex_accepted :
  verify_certificate (2 ^ 64) (2 ^ 60) true sha256 ex_ple ex_vs ex_cert (bs "e") (ex_key x01) 1010 20 = OOk tt.
Proof. vm_compute. reflexivity. Qed.
Example ex_out_of_range :
  verify_certificate (2 ^ 64) (2 ^ 60) true sha256 ex_ple ex_vs ex_cert (bs "c") (ex_key x01) 1010 20 = OErr.
Proof. vm_compute. reflexivity. Qed.
Example ex_wrong_root :
  verify_certificate (2 ^ 64) (2 ^ 60) true sha256 ex_ple ex_vs ex_cert (bs "e") (ex_key x02) 1010 20 = OErr.
Proof. vm_compute. reflexivity. Qed.
Lemma ex_der b pk : der_of (ex_key b) pk -> pk = repeat b 96.
Proof. intro D. apply (der_det (ex_key b)); [exact D|]. split; [reflexivity|apply repeat_length]. Qed.
Example ex_unforgeable : unforgeable sha256 ex_vs (ex_key x01) (fun t => t = ex_root_tree) (fun _ t => t = ex_sub_tree).
Proof.
  assert (X : bytes_eqb (repeat x01 96) (repeat x02 96) = false) by (vm_compute; reflexivity).
  assert (Y : bytes_eqb (repeat x02 96) (repeat x01 96) = false) by (vm_compute; reflexivity).
  split; [|split; [|split]].
  - intros t ->. split; [|reflexivity]. unfold ex_root_tree. generalize (enc_ranges [(bs "a", bs "b"); (bs "d", bs "f")]) (ex_key x02). intros u v.
    simpl. repeat split. intros a b [<-|[]] [<-|[]]. vm_compute. reflexivity.
  - intros s t ->. split; [|reflexivity]. unfold ex_sub_tree. generalize (leb_enc 1000). intro u. simpl. repeat split. intros a b [<-|[]] [<-|[]]. vm_compute. reflexivity.
  - intros pk sig m D V. apply ex_der in D. subst pk. unfold ex_vs in V. rewrite bytes_eqb_refl, X in V. cbn [andb orb] in V. rewrite orb_false_r in V.
    apply bytes_eqb_eq in V. eauto.
  - intros r s k pk sig m -> A D V.
    assert (K : k = ex_key x02).
    { unfold ex_root_tree, subnet_path in A. revert A. generalize (enc_ranges [(bs "a", bs "b"); (bs "d", bs "f")]) (ex_key x02). intros u v A.
      inversion A as [|k0 p t0 c0 s0 Ch A1]; subst. clear A. inversion Ch; subst. clear Ch.
      inversion A1 as [|k0 p t0 c0 s0 Ch A2]; subst. clear A1. inversion Ch; subst. clear Ch.
      inversion A2 as [|k0 p t0 c0 s0 Ch A3]; subst. clear A2. inversion A3; subst. clear A3.
      inversion Ch as [|? ? ? ? Ch'|? ? ? ? Ch']; subst; inversion Ch'; subst. reflexivity. }
    subst k. apply ex_der in D. subst pk. unfold ex_vs in V. rewrite bytes_eqb_refl, Y in V. cbn [andb orb] in V.
    apply bytes_eqb_eq in V. eauto.
Qed.
Example ex_jobs_sized : Forall (fun j => length (j_pk j) = 96%nat /\ length (j_msg j) = 46%nat)
  [mk_job (repeat x01 96) (bs "s") (state_root_message (digest sha256 ex_root_tree))].
Proof. repeat constructor. Qed.
