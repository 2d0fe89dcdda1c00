(** C79: certificates made with ic-certification-testing. *)
From Coq Require Import List Arith NArith Lia Bool Sorted.
From Verif Require Import Bytes Sha256 HashTree HashTreeSpec HashTreeProofs HashTreeSpecProofs Cbor CborSpec CborProofs Props_Cbor Leb128
  CertVerify CertSpec Props_Cert CertBuilder CertBuilderSpec.
Import ListNotations.
Local Open Scope N_scope.

Scheme arranges_mut := Minimality for arranges Sort Prop
with row_mut := Minimality for row Sort Prop.
Combined Scheme arranges_row_ind from arranges_mut, row_mut.

Lemma row_labels kids t : row kids t -> labels t = map fst kids.
Proof. induction 1 as [k c t A|a b x y A IA B IB]; cbn [labels map fst]; [reflexivity|]. rewrite map_app. congruence. Qed.
Lemma row_fork_ok kids t : row kids t -> fork_child_ok t = true.
Proof. destruct 1; reflexivity. Qed.
Lemma sorted_app_inv {A} (R : A -> A -> Prop) l r : StronglySorted R (l ++ r) ->
  StronglySorted R l /\ StronglySorted R r /\ forall a b, In a l -> In b r -> R a b.
Proof.
  induction l as [|x l IH]; cbn [app]; intro S; [split; [constructor|]; split; [exact S|intros a b []]|].
  apply StronglySorted_inv in S. destruct S as [S F]. destruct (IH S) as (X & Y & Z). rewrite Forall_app in F. destruct F as [Fl Fr].
  split; [constructor; assumption|]. split; [exact Y|]. intros a b [<-|I] J; [|auto]. rewrite Forall_forall in Fr. auto.
Qed.
Lemma arranges_wf_row :
  (forall l t, arranges l t -> sorted_ltree l -> wf t) /\
  (forall kids t, row kids t -> StronglySorted blt (map fst kids) -> Forall (fun kc => sorted_ltree (snd kc)) kids -> wf t).
Proof.
  apply arranges_row_ind.
  - intros v _. exact I.
  - intros _. exact I.
  - intros kids t R IH S. inversion S; subst. auto.
  - intros k c t A IH _ F. inversion F; subst. cbn [wf]. auto.
  - intros a b x y A IA B IB S F. rewrite map_app in S. apply sorted_app_inv in S. destruct S as (Sa & Sb & Z). apply Forall_app in F. destruct F as [Fa Fb].
    cbn [wf]. rewrite (row_labels _ _ A), (row_labels _ _ B). repeat split; eauto using row_fork_ok.
Qed.
Lemma arranges_hashes32_row :
  (forall l t, arranges l t -> CborSpec.hashes32 t) /\ (forall kids t, row kids t -> CborSpec.hashes32 t).
Proof. apply arranges_row_ind; cbn; auto. Qed.
Lemma row_child_fwd kids t : row kids t -> forall k c, child_at k t c -> exists lc, In (k, lc) kids /\ arranges lc c.
Proof.
  induction 1 as [k0 c0 t A|a b x y A IA B IB]; intros k c Ch; inversion Ch; subst.
  - eexists. split; [left; reflexivity|exact A].
  - destruct (IA _ _ H3) as (lc & I & Z). exists lc. split; [apply in_or_app; auto|exact Z].
  - destruct (IB _ _ H3) as (lc & I & Z). exists lc. split; [apply in_or_app; auto|exact Z].
Qed.
Lemma row_child_bwd kids t : row kids t -> forall k lc, In (k, lc) kids -> exists c, child_at k t c /\ arranges lc c.
Proof.
  induction 1 as [k0 c0 t A|a b x y A IA B IB]; intros k lc X.
  - destruct X as [E|[]]. injection E as -> ->. eexists. split; [constructor|exact A].
  - apply in_app_or in X. destruct X as [X|X]; [destruct (IA _ _ X) as (c & Y & Z)|destruct (IB _ _ X) as (c & Y & Z)]; exists c; split; auto; constructor; assumption.
Qed.
Lemma leaf_at_iff p : forall l t v, arranges l t -> (at_path p t (HLeaf v) <-> leaf_at p l v).
Proof.
  induction p as [|k p IH]; intros l t v A.
  - split; intro X.
    + inversion X; subst. inversion A as [| |kids t' R]; subst; [constructor|]. inversion R.
    + inversion X; subst. inversion A; subst. constructor.
  - split; intro X.
    + inversion X as [|k0 p0 t0 c0 s0 Ch P]; subst. inversion A as [| |kids t' R]; subst; [inversion Ch|inversion Ch|].
      destruct (row_child_fwd _ _ R _ _ Ch) as (lc & I & Z). econstructor; [exact I|]. apply (IH lc c0 v Z). exact P.
    + inversion X as [|k0 p0 kids c0 v0 I P]; subst. inversion A as [| |kids' t' R]; subst; [destruct I|].
      destruct (row_child_bwd _ _ R _ _ I) as (c' & Ch & Z). econstructor; [exact Ch|]. apply (IH c0 c' v Z). exact P.
Qed.

(** C79: in a hash tree arranged from a labelled tree, lookups find exactly the
    leaves of the labelled tree. *)
Theorem C79_lookups_find_the_leaves :
  forall (l : ltree) (t : htree) (p : list bytes) (v : bytes),
  arranges l t -> sorted_ltree l -> (lookup_path p t = Found v <-> leaf_at p l v).
Proof.
  intros l t p v A S. rewrite lookup_path_at_iff by exact (proj1 arranges_wf_row l t A S). apply leaf_at_iff. exact A.
Qed.
Print Assumptions C79_lookups_find_the_leaves.

(** Everything inside an encoding is shorter than the encoding. *)
Lemma enc_bytes_len b : (length b <= length (enc_bytes b))%nat.
Proof. unfold enc_bytes. rewrite app_length. lia. Qed.
Lemma strings_len t : Forall (fun s => (length s <= length (enc_tree t))%nat) (strings_of t).
Proof.
  induction t as [|l IHl r IHr|k t IH|v|h]; cbn [strings_of enc_tree]; try constructor.
  - apply Forall_app. split; eapply Forall_impl; try eassumption; cbn beta; intros a L; rewrite !app_length; lia.
  - generalize (enc_bytes_len k). rewrite !app_length. lia.
  - eapply Forall_impl; [|exact IH]. cbn beta. intros a L. rewrite !app_length. lia.
  - generalize (enc_bytes_len v). rewrite !app_length. lia.
  - constructor.
Qed.
Lemma serialized_short umod c : short umod (serialize_cert c) ->
  Forall (short umod) (strings_of (c_tree c)) /\ short umod (c_sig c) /\
  (forall d, c_deleg c = Some d -> short umod (d_subnet d) /\ short umod (d_cert d)).
Proof.
  unfold short, serialize_cert, enc_cert. rewrite !app_length. intro L.
  split; [|split].
  - eapply Forall_impl; [|apply strings_len]. cbn beta. intros s X. lia.
  - generalize (enc_bytes_len (c_sig c)). lia.
  - intros d D. rewrite D in L. rewrite !app_length in L. generalize (enc_bytes_len (d_subnet d)) (enc_bytes_len (d_cert d)). lia.
Qed.
Lemma serialized_decodes umod cap c : 32 < umod <= 2 ^ 64 -> 3 <= cap -> CborSpec.hashes32 (c_tree c) -> short umod (serialize_cert c) ->
  cert_from_cbor umod cap (serialize_cert c) = OOk c.
Proof.
  intros U K W S. destruct (serialized_short umod c S) as (A & B & D). unfold serialize_cert.
  exact (proj2 (C21_certificate_cbor_round_trip umod cap c U K W A B D)).
Qed.

(** ** What the calls add up to *)
Section Calls.
  Variables (canister_of subnet_of : N -> bytes).
  Notation set := (cb_set canister_of subnet_of).
  Definition asked_subnet (r : option (N * list (N * N))) : option subnet_data :=
    match r with Some (s, l) => Some (create_subnet_data canister_of subnet_of s l) | None => None end.
  Definition or_else {A} (x y : option A) : option A := match x with Some _ => x | None => y end.
  Lemma calls_fields calls : forall b,
    let b' := fold_left set calls b in
    cb_time b' = or_else (asked_time calls) (cb_time b) /\
    cb_canister b' = cb_canister b /\ cb_custom b' = cb_custom b /\
    cb_subnet b' = or_else (asked_subnet (asked_delegation calls)) (cb_subnet b) /\
    cb_nested b' = or_else (asked_subnet (asked_nested calls)) (cb_nested b) /\
    cb_signature b' = (if existsb (fun c => match c with WithInvalidSignature => true | _ => false end) calls then Some invalid_signature else cb_signature b).
  Proof.
    induction calls as [|c calls IH]; intro b; [cbn; repeat split; reflexivity|].
    cbn [fold_left]. specialize (IH (set b c)). cbn zeta in *. destruct IH as (A & B & C & D & E & F). rewrite A, B, C, D, E, F. clear.
    unfold asked_time, asked_delegation, asked_nested. cbn [last_some existsb].
    destruct (last_some (fun c => match c with WithTime t => Some t | _ => None end) calls) as [?|];
    destruct (last_some (fun c => match c with WithDelegation s r => Some (s, r) | _ => None end) calls) as [[? ?]|];
    destruct (last_some (fun c => match c with WithNestedDelegation s r => Some (s, r) | _ => None end) calls) as [[? ?]|];
    destruct c; cbn; repeat split; try reflexivity; destruct (existsb _ calls); reflexivity.
  Qed.
End Calls.

Lemma cert_tree_sorted cid data t : sorted_ltree (create_certificate_tree cid data t).
Proof. repeat (constructor; cbn [map fst snd]). Qed.
Lemma deleg_tree_sorted key t s rs : sorted_ltree (create_delegation_tree key t s rs).
Proof. unfold create_delegation_tree. repeat (constructor; cbn [map fst snd]). Qed.
Lemma enc_head_pos m n : (1 <= length (enc_head m n))%nat.
Proof. unfold enc_head. repeat match goal with |- context [if ?x then _ else _] => destruct x end; cbn [length]; lia. Qed.
Lemma enc_ranges_len l : (length l <= length (enc_ranges l))%nat.
Proof.
  unfold enc_ranges. rewrite app_length.
  assert (X : (length l <= length (flat_map (fun r => enc_head 4 2 ++ enc_bytes (fst r) ++ enc_bytes (snd r)) l))%nat); [|lia].
  induction l as [|r l IH]; cbn [flat_map length]; [lia|]. rewrite !app_length.
  generalize (enc_head_pos 4 2). lia.
Qed.

Section Built.
  Variables (umod cap : N) (checked : bool) (H : bytes -> bytes) (ple : bytes -> bytes -> bool) (vs : bytes -> bytes -> bytes -> bool)
    (arrange : ltree -> htree) (pub : nat -> bytes) (sign : nat -> bytes -> bytes).
  Hypothesis U : 32 < umod <= 2 ^ 64.
  Hypothesis K : 3 <= cap.
  Hypothesis KS : keys_sign vs pub sign.
  Hypothesis AR : forall l, arranges l (arrange l).

  Lemma signed_ok i l d : signed_by H vs (pub i) (mk_cert (arrange l) (sign i (state_root_message (digest H (arrange l)))) d).
  Proof. destruct (KS i) as (pk & D & V). exists pk. split; [exact D|]. cbn [c_sig c_tree]. apply V. Qed.
  Lemma pub_det i k pk : der_of (pub i) pk -> der_of k pk -> k = pub i.
  Proof. intros [-> _] [-> _]. reflexivity. Qed.
  Lemma deleg_lookup key t s rs what v : arranges (create_delegation_tree key t s rs) (arrange (create_delegation_tree key t s rs)) ->
    (lookup_path (subnet_path s what) (arrange (create_delegation_tree key t s rs)) = Found v <->
     (what = bs "canister_ranges" /\ v = self_describe ++ enc_ranges rs) \/ (what = bs "public_key" /\ v = key)).
  Proof.
    intro A. rewrite (C79_lookups_find_the_leaves _ _ _ _ A (deleg_tree_sorted key t s rs)). unfold subnet_path, create_delegation_tree.
    remember (self_describe ++ enc_ranges rs) as X.
    split.
    - intro L. inversion L as [|k0 p0 kids c0 v0 I1 L1]; subst k0 p0 kids v0. destruct I1 as [E|[E|[]]]; [|vm_compute in E; inversion E].
      injection E as <-.
      inversion L1 as [|k1 p1 kids1 c1 v1 I2 L2]; subst k1 p1 kids1 v1. destruct I2 as [E|[]].
      assert (c1 = LSub [(bs "canister_ranges", LLeaf X); (bs "public_key", LLeaf key)]) by congruence. subst c1. clear E.
      inversion L2 as [|k2 p2 kids2 c2 v2 I3 L3]; subst k2 p2 kids2 v2. destruct I3 as [E|[E|[]]].
      + assert (E1 : what = bs "canister_ranges") by congruence. assert (c2 = LLeaf X) by congruence. subst c2. inversion L3; subst. auto.
      + assert (E1 : what = bs "public_key") by congruence. assert (c2 = LLeaf key) by congruence. subst c2. inversion L3; subst. auto.
    - intros [[-> ->]|[-> ->]]; (eapply LaDown; [left; reflexivity|]; eapply LaDown; [left; reflexivity|]; eapply LaDown; [|constructor]);
        [left; reflexivity|right; left; reflexivity].
  Qed.
  Lemma delegation_built key t sn who k : 
    short umod (d_cert (create_delegation_data arrange H sign 1 key t sn None)) ->
    Forall (fun r => (length (fst r) <= 29)%nat /\ (length (snd r) <= 29)%nat) (sn_ranges sn) ->
    (delegation_valid umod cap H ple vs who (pub 1) (create_delegation_data arrange H sign 1 key t sn None) k <->
     k = key /\ exists lo hi, In (lo, hi) (sn_ranges sn) /\ ple lo who = true /\ ple who hi = true).
  Proof.
    intros S F. destruct sn as [sid rs]. unfold create_delegation_data, build_certificate in *. cbn [sn_id sn_ranges d_cert d_subnet] in *.
    set (l := create_delegation_tree key t sid rs) in *.
    assert (A := AR l). assert (W := proj1 arranges_hashes32_row l _ A).
    set (dc := mk_cert (arrange l) (sign 1 (state_root_message (digest H (arrange l)))) None) in *.
    assert (E : cert_from_cbor umod cap (serialize_cert dc) = OOk dc) by (apply serialized_decodes; auto).
    assert (DL := fun what v => deleg_lookup key t sid rs what v A). fold l in DL.
    assert (PR : principals_from_cbor umod cap (self_describe ++ enc_ranges rs) = OOk rs).
    { apply C40_ranges_round_trip; auto. destruct (serialized_short umod dc S) as (Z & _). cbn [c_tree dc] in Z.
      assert (L : short umod (self_describe ++ enc_ranges rs)).
      { assert (Q : at_path (subnet_path sid (bs "canister_ranges")) (arrange l) (HLeaf (self_describe ++ enc_ranges rs))).
        { apply lookup_path_at_iff; [exact (proj1 arranges_wf_row l _ A (deleg_tree_sorted key t sid rs))|]. apply DL. auto. }
        rewrite Forall_forall in Z. apply Z. revert Q. generalize (arrange l). generalize (subnet_path sid (bs "canister_ranges")).
        intros p. induction p as [|x p IH]; intros T Q; [inversion Q; subst; left; reflexivity|]. inversion Q as [|k0 p0 t0 c0 s0 Ch P]; subst.
        apply IH in P. clear - Ch P. induction Ch; cbn [strings_of]; [right; exact P| |]; apply in_or_app; auto. }
      unfold short in L. rewrite app_length in L. generalize (enc_ranges_len rs). lia. }
    unfold delegation_valid. cbn [d_cert d_subnet]. split.
    - intros (dc' & enc & ranges & lo & hi & E' & _ & _ & Lr & P & I & P1 & P2 & Lk).
      rewrite E in E'. assert (dc' = dc) by congruence. subst dc'. cbn [c_tree dc] in Lr, Lk. apply DL in Lr, Lk.
      destruct Lr as [[_ ->]|[X _]]; [|vm_compute in X; inversion X]. destruct Lk as [[X _]|[_ ->]]; [vm_compute in X; inversion X|].
      rewrite PR in P. assert (ranges = rs) by congruence. subst. split; [reflexivity|]. eauto.
    - intros (-> & lo & hi & I & P1 & P2). exists dc, (self_describe ++ enc_ranges rs), rs, lo, hi.
      split; [exact E|]. split; [reflexivity|]. split; [apply signed_ok|]. cbn [c_tree dc].
      split; [apply DL; auto|]. split; [exact PR|]. split; [exact I|]. split; [exact P1|]. split; [exact P2|]. apply DL. auto.
  Qed.
End Built.

(** C79: a certificate built for a canister, its data and a list of builder
    calls decodes, from the bytes handed out, to the certificate handed out;
    shows the certified data; and, against the root key handed out, verifies for
    a canister exactly when the asked-for time (the default time if none; in
    either case truncated to 64 bits) is within the allowed offset and, if a
    delegation was asked for, the canister is in one of the delegated ranges. *)
Theorem C79_built_certificates_verify :
  forall umod cap_max checked H ple vs parse_id canister_of subnet_of arrange pub sign
         (id cid data : bytes) (calls : list cb_call) (b : cert_builder) (cd : cert_data),
  32 < umod <= 2 ^ 64 -> 3 <= cap_max ->
  keys_sign vs pub sign -> (forall l, arranges l (arrange l)) -> (forall n, (length (canister_of n) <= 29)%nat) ->
  parse_id id = Some cid -> cb_new parse_id id data = Some b ->
  cb_build arrange H pub sign (fold_left (cb_set canister_of subnet_of) calls b) = Some cd ->
  short umod (cd_cbor cd) ->
  ~ In WithInvalidSignature calls -> (asked_delegation calls = None \/ asked_nested calls = None) ->
  cert_from_cbor umod cap_max (cd_cbor cd) = OOk (cd_cert cd) /\
  lookup_path [bs "canister"; cid; bs "certified_data"] (c_tree (cd_cert cd)) = Found data /\
  forall who now offset, now + offset < 2 ^ 128 -> offset <= now ->
  let t := match asked_time calls with Some t => t | None => 1651142233000005031 end in
  (verify_certificate umod cap_max checked H ple vs (cd_cert cd) who (cd_root_key cd) now offset = OOk tt <->
   now - offset <= t mod 2 ^ 64 <= now + offset /\
   forall s ranges, asked_delegation calls = Some (s, ranges) ->
     (length who <= 29)%nat /\
     exists lo hi, In (lo, hi) ranges /\ ple (canister_of lo) who = true /\ ple who (canister_of hi) = true).
Proof.
  intros umod cap ck H ple vs parse canof subof arrange pub sign id cid data calls b cd U K KS AR CL P N B S NI ND.
  unfold cb_new in N. rewrite P in N. assert (b = mk_cb None (Some (cid, data)) None None None None) by congruence. subst b. clear N P.
  destruct (calls_fields canof subof calls (mk_cb None (Some (cid, data)) None None None None)) as (Ft & Fc & Fu & Fs & Fn & Fg).
  set (b := fold_left (cb_set canof subof) calls (mk_cb None (Some (cid, data)) None None None None)) in *.
  cbn [cb_time cb_canister cb_subnet cb_nested cb_signature cb_custom] in *.
  assert (Fg' : cb_signature b = None).
  { rewrite Fg. destruct (existsb _ calls) eqn:X; [|reflexivity]. apply existsb_exists in X. destruct X as (c & I & E). destruct c; try discriminate E. contradiction. }
  clear Fg NI. unfold cb_build in B. rewrite Fc, Fu, Fg' in B. unfold build_certificate in B.
  set (T := match cb_time b with Some t => t | None => default_certificate_time end) in *.
  assert (ET : T = match asked_time calls with Some t => t | None => 1651142233000005031 end).
  { unfold T. rewrite Ft. destruct (asked_time calls); reflexivity. }
  rewrite <- ET. clearbody T. clear Ft ET.
  set (l := create_certificate_tree cid data (leb_encode_timestamp T)) in *.
  assert (A := AR l). assert (W := proj1 arranges_hashes32_row l _ A). assert (SL := cert_tree_sorted cid data (leb_encode_timestamp T)). fold l in SL.
  assert (BN : build_nested_delegation arrange H pub sign b (pub 0%nat) (leb_encode_timestamp T) = None).
  { unfold build_nested_delegation. rewrite Fs, Fn. destruct ND as [->| ->]; cbn; [reflexivity|]. destruct (asked_subnet canof subof (asked_delegation calls)); reflexivity. }
  rewrite BN in B. clear BN ND Fn.
  assert (LT : lookup_path [bs "time"] (arrange l) = Found (leb_encode_timestamp T)).
  { apply (C79_lookups_find_the_leaves l _ _ _ A SL). unfold l, create_certificate_tree. eapply LaDown; [right; left; reflexivity|constructor]. }
  assert (LD : lookup_path [bs "canister"; cid; bs "certified_data"] (arrange l) = Found data).
  { apply (C79_lookups_find_the_leaves l _ _ _ A SL). unfold l, create_certificate_tree. do 3 (eapply LaDown; [left; reflexivity|]). constructor. }
  assert (TR : leb_read (leb_encode_timestamp T) = Some (T mod 2 ^ 64, [])).
  { unfold leb_encode_timestamp. rewrite <- (app_nil_r (leb_enc _)). apply leb_read_enc. apply N.mod_lt. discriminate. }
  unfold build_delegation in B. rewrite Fs in B.
  destruct (asked_delegation calls) as [[s rs]|] eqn:AD; cbn [asked_subnet or_else] in B.
  - set (sn := create_subnet_data canof subof s rs) in *.
    set (d := create_delegation_data arrange H sign 1 (pub 0%nat) (leb_encode_timestamp T) sn None) in *.
    set (c := mk_cert (arrange l) (sign 0%nat (state_root_message (digest H (arrange l)))) (Some d)) in *.
    assert (cd = cert_data_of c (pub 1%nat)) by congruence. subst cd. unfold cert_data_of in *. cbn [cd_cbor cd_cert cd_root_key] in *.
    split; [apply serialized_decodes; auto|]. split; [exact LD|]. intros who now off L1 L2. cbn zeta. rewrite C40_accepted_iff.
    rewrite (C38_time_window_exact ck c now off _ _ _ L1 L2 LT TR). cbn [c_deleg c].
    assert (Sd : short umod (d_cert d)) by (eapply (serialized_short umod c S); reflexivity).
    assert (FR : Forall (fun r => (length (fst r) <= 29)%nat /\ (length (snd r) <= 29)%nat) (sn_ranges sn)).
    { unfold sn, create_subnet_data. cbn [sn_ranges]. apply Forall_forall. intros r I. apply in_map_iff in I. destruct I as (x & <- & _). cbn [fst snd]. auto. }
    split.
    + intros (X & Lw & k & DV & _). split; [exact X|]. intros s' rs' E. injection E as <- <-. split; [exact Lw|].
      apply (delegation_built umod cap H ple vs arrange pub sign) in DV; auto. destruct DV as (_ & lo & hi & I & P1 & P2).
      unfold sn, create_subnet_data in I. cbn [sn_ranges] in I. apply in_map_iff in I. destruct I as ([x y] & E' & I). cbn [fst snd] in E'.
      exists x, y. split; [exact I|]. split; congruence.
    + intros (X & Y). destruct (Y s rs eq_refl) as (Lw & lo & hi & I & P1 & P2). split; [exact X|]. split; [exact Lw|].
      exists (pub 0%nat). split; [|apply signed_ok; auto].
      apply (delegation_built umod cap H ple vs arrange pub sign); auto. split; [reflexivity|].
      exists (canof lo), (canof hi). split; [|split; assumption]. unfold sn, create_subnet_data. cbn [sn_ranges].
      apply in_map_iff. exists (lo, hi). split; [reflexivity|exact I].
  - set (c := mk_cert (arrange l) (sign 0%nat (state_root_message (digest H (arrange l)))) None) in *.
    assert (cd = cert_data_of c (pub 0%nat)) by congruence. subst cd. unfold cert_data_of in *. cbn [cd_cbor cd_cert cd_root_key] in *.
    split; [apply serialized_decodes; auto|]. split; [exact LD|]. intros who now off L1 L2. cbn zeta. rewrite C40_accepted_iff.
    rewrite (C38_time_window_exact ck c now off _ _ _ L1 L2 LT TR). cbn [c_deleg c]. split; intros (X & Y); (split; [exact X|]).
    + intros s rs E. inversion E.
    + apply signed_ok. auto.
Qed.
Print Assumptions C79_built_certificates_verify.

(** C79: a certificate with a nested delegation is refused under every root key. *)
Theorem C79_nested_delegations_are_refused :
  forall umod cap_max checked H ple vs parse_id canister_of subnet_of arrange pub sign
         (id data : bytes) (calls : list cb_call) (b : cert_builder) (cd : cert_data),
  32 < umod <= 2 ^ 64 -> 3 <= cap_max -> (forall l, arranges l (arrange l)) ->
  cb_new parse_id id data = Some b ->
  cb_build arrange H pub sign (fold_left (cb_set canister_of subnet_of) calls b) = Some cd ->
  short umod (cd_cbor cd) ->
  asked_delegation calls <> None -> asked_nested calls <> None ->
  forall who root_key now offset,
  verify_certificate umod cap_max checked H ple vs (cd_cert cd) who root_key now offset <> OOk tt.
Proof.
  intros umod cap ck H ple vs parse canof subof arrange pub sign id data calls b0 cd U K AR N B S D1 D2 who root now off V.
  unfold cb_new in N. destruct (parse id) as [cid|]; [|discriminate]. assert (b0 = mk_cb None (Some (cid, data)) None None None None) by congruence. subst b0. clear N.
  destruct (calls_fields canof subof calls (mk_cb None (Some (cid, data)) None None None None)) as (_ & Fc & Fu & Fs & Fn & Fg).
  set (b := fold_left (cb_set canof subof) calls (mk_cb None (Some (cid, data)) None None None None)) in *.
  cbn [cb_time cb_canister cb_subnet cb_nested cb_signature cb_custom] in *.
  destruct (asked_delegation calls) as [[s rs]|]; [|congruence]. destruct (asked_nested calls) as [[s' rs']|]; [|congruence]. cbn [asked_subnet or_else] in Fs, Fn.
  unfold cb_build in B. rewrite Fc, Fu in B. unfold build_certificate, build_nested_delegation in B. rewrite Fs, Fn in B.
  set (sn := create_subnet_data canof subof s rs) in *. set (nsn := create_subnet_data canof subof s' rs') in *.
  set (e := leb_encode_timestamp _) in *. set (l := create_certificate_tree cid data e) in *.
  set (inner := create_delegation_data arrange H sign 1 (pub 0%nat) e nsn None) in *.
  set (sig := match cb_signature b with Some x => x | None => _ end) in *.
  set (d := create_delegation_data arrange H sign 2 (pub 1%nat) e sn (Some inner)) in *.
  set (c := mk_cert (arrange l) sig (Some d)) in *.
  assert (cd = cert_data_of c (pub 1%nat)) by congruence. subst cd. unfold cert_data_of in *. cbn [cd_cbor cd_cert cd_root_key] in *.
  apply C40_accepted_iff in V. destruct V as (_ & V). cbn [c_deleg c] in V. destruct V as (_ & k & (dc & _ & _ & _ & _ & E & Z & _) & _).
  assert (Sd : short umod (d_cert d)) by (eapply (serialized_short umod c S); reflexivity).
  unfold d, create_delegation_data, build_certificate in E, Sd. cbn [d_cert] in E, Sd.
  rewrite serialized_decodes in E; auto; [|cbn [c_tree]; exact (proj1 arranges_hashes32_row _ _ (AR _))].
  assert (c_deleg dc = Some inner) by (assert (X : forall a b : certificate, OOk a = OOk b -> a = b) by congruence; apply X in E; subst dc; reflexivity).
  congruence.
Qed.
Print Assumptions C79_nested_delegations_are_refused.

(** C79: a certificate built with the invalid signature is refused, under every
    root key, provided the signature scheme never accepts those 48 bytes. *)
Theorem C79_invalid_signatures_are_refused :
  forall umod cap_max checked H ple vs parse_id canister_of subnet_of arrange pub sign
         (id data : bytes) (calls : list cb_call) (b : cert_builder) (cd : cert_data),
  (forall pk m, vs pk (bs "invalid sig -----padding to get to 48 bytes-----") m = false) ->
  cb_new parse_id id data = Some b ->
  cb_build arrange H pub sign (fold_left (cb_set canister_of subnet_of) calls b) = Some cd ->
  In WithInvalidSignature calls ->
  forall who root_key now offset,
  verify_certificate umod cap_max checked H ple vs (cd_cert cd) who root_key now offset <> OOk tt.
Proof.
  intros umod cap ck H ple vs parse canof subof arrange pub sign id data calls b0 cd NV N B IN who root now off V.
  unfold cb_new in N. destruct (parse id) as [cid|]; [|discriminate]. assert (b0 = mk_cb None (Some (cid, data)) None None None None) by congruence. subst b0. clear N.
  destruct (calls_fields canof subof calls (mk_cb None (Some (cid, data)) None None None None)) as (_ & Fc & Fu & _ & _ & Fg).
  set (b := fold_left (cb_set canof subof) calls (mk_cb None (Some (cid, data)) None None None None)) in *.
  cbn [cb_time cb_canister cb_subnet cb_nested cb_signature cb_custom] in *.
  assert (Fg' : cb_signature b = Some invalid_signature).
  { rewrite Fg. destruct (existsb _ calls) eqn:X; [reflexivity|]. exfalso. assert (Y : existsb (fun c => match c with WithInvalidSignature => true | _ => false end) calls = true) by (apply existsb_exists; exists WithInvalidSignature; auto). congruence. }
  assert (SG : c_sig (cd_cert cd) = invalid_signature).
  { unfold cb_build in B. rewrite Fc, Fu, Fg' in B. unfold build_certificate in B.
    destruct (build_nested_delegation _ _ _ _ _ _) as [[d k]|]; [|destruct (build_delegation _ _ _ _ _ _) as [[d k]|]];
      match type of B with Some ?x = Some ?y => assert (Q : x = y) by congruence; rewrite <- Q; reflexivity end. }
  apply C40_accepted_iff in V. destruct V as (_ & V).
  assert (X : exists key, signed_by H vs key (cd_cert cd)) by (destruct (c_deleg (cd_cert cd)); [destruct V as (_ & k & _ & V)|]; eauto).
  destruct X as (key & pk & _ & E). rewrite SG in E. unfold invalid_signature in E. rewrite NV in E. discriminate E.
Qed.
Print Assumptions C79_invalid_signatures_are_refused.

(** C79: building fails only for an unparsable canister id, and a nested
    delegation without a delegation changes nothing. *)
Theorem C79_building_never_fails :
  forall parse_id canister_of subnet_of arrange H pub sign (id data : bytes) (calls : list cb_call),
  (cb_new parse_id id data = None <-> parse_id id = None) /\
  (forall b, cb_new parse_id id data = Some b \/ (exists t, b = cb_from_custom_tree t) ->
     let built := cb_build arrange H pub sign (fold_left (cb_set canister_of subnet_of) calls b) in
     built <> None /\
     (asked_delegation calls = None ->
      built = cb_build arrange H pub sign (fold_left (cb_set canister_of subnet_of)
        (filter (fun c => match c with WithNestedDelegation _ _ => false | _ => true end) calls) b))).
Proof.
  intros parse canof subof arrange H pub sign id data calls.
  split; [unfold cb_new; destruct (parse id); split; congruence|].
  intros b Hb built. unfold built. clear built.
  set (fl := filter _ calls).
  destruct (calls_fields canof subof calls b) as (Ft & Fc & Fu & Fs & Fn & Fg).
  destruct (calls_fields canof subof fl b) as (Gt & Gc & Gu & Gs & Gn & Gg).
  assert (Z : match cb_custom b, cb_canister b with Some _, None => True | None, Some _ => True | _, _ => False end /\ cb_subnet b = None /\ cb_nested b = None).
  { destruct Hb as [E|(t & ->)]; [|cbn; auto]. unfold cb_new in E. destruct (parse id); [|discriminate]. assert (X : forall x y : cert_builder, Some x = Some y -> x = y) by congruence. apply X in E. subst b. cbn. auto. }
  destruct Z as (Z & Sb & Nb). split.
  - unfold cb_build. rewrite Fc, Fu. destruct (cb_custom b) as [t|], (cb_canister b) as [[c d]|]; try contradiction; destruct (build_certificate _ _ _ _ _); discriminate.
  - intro AD.
    assert (Y : forall {B} (f : cb_call -> option B), (forall s r, f (WithNestedDelegation s r) = None) -> last_some f fl = last_some f calls).
    { intros B f Hf. unfold fl. clear - Hf. induction calls as [|c cs IH]; [reflexivity|]. cbn [filter last_some].
      destruct c; cbn [last_some]; rewrite IH; try reflexivity. rewrite Hf. destruct (last_some f cs); reflexivity. }
    assert (Ex : existsb (fun c => match c with WithInvalidSignature => true | _ => false end) fl = existsb (fun c => match c with WithInvalidSignature => true | _ => false end) calls).
    { unfold fl. clear. induction calls as [|c cs IH]; [reflexivity|]. cbn [filter existsb]. destruct c; cbn [existsb]; rewrite IH; reflexivity. }
    assert (T1 : asked_time fl = asked_time calls) by (apply Y; reflexivity).
    assert (D1 : asked_delegation fl = None) by (rewrite <- AD; apply Y; reflexivity).
    rewrite Ex in Gg. rewrite T1 in Gt. rewrite D1 in Gs. rewrite AD in Fs. cbn [asked_subnet or_else] in Fs, Gs.
    unfold cb_build, build_nested_delegation, build_delegation. rewrite Fc, Gc, Fu, Gu, Fs, Gs, Sb, Ft, Gt, Fg, Gg. reflexivity.
Qed.
Print Assumptions C79_building_never_fails.

(** ** A concrete arrangement: children in a right comb *)
Fixpoint comb (t : ltree) : htree :=
  match t with
  | LLeaf v => HLeaf v
  | LSub kids =>
      (fix go (l : list (bytes * ltree)) : htree :=
         match l with
         | [] => HEmpty
         | [(k, c)] => HLabeled k (comb c)
         | (k, c) :: r => HFork (HLabeled k (comb c)) (go r)
         end) kids
  end.
Fixpoint ltree_nested_ind (P : ltree -> Prop) (Pl : forall v, P (LLeaf v))
    (Ps : forall kids, Forall (fun kc => P (snd kc)) kids -> P (LSub kids)) (t : ltree) {struct t} : P t :=
  match t with
  | LLeaf v => Pl v
  | LSub kids => Ps kids ((fix go (l : list (bytes * ltree)) : Forall (fun kc => P (snd kc)) l :=
      match l with
      | [] => Forall_nil _
      | kc :: r => Forall_cons kc (match kc as x return P (snd x) with (k, c) => ltree_nested_ind P Pl Ps c end) (go r)
      end) kids)
  end.
Lemma comb_arranges l : arranges l (comb l).
Proof.
  induction l as [v|kids F] using ltree_nested_ind; [constructor|]. destruct F as [|x kids Fx F]; [constructor|].
  apply ArNode. revert x Fx. induction F as [|y kids Fy F IH]; intros [k c] Fx; cbn [snd] in Fx.
  - apply RowOne. exact Fx.
  - change ((k, c) :: y :: kids) with ([(k, c)] ++ (y :: kids)). specialize (IH y Fy).
    change (comb (LSub ([(k, c)] ++ y :: kids))) with (HFork (HLabeled k (comb c)) (comb (LSub (y :: kids)))).
    apply RowFork; [apply RowOne; exact Fx|exact IH].
Qed.
Definition ex_pub (i : nat) : bytes := der_header ++ repeat (n2b (N.of_nat i)) 96.
Definition ex_bvs (pk sig m : bytes) : bool := bytes_eqb sig (firstn 1 pk ++ m).
Definition ex_sign (i : nat) (m : bytes) : bytes := n2b (N.of_nat i) :: m.
Example ex_keys_sign : keys_sign ex_bvs ex_pub ex_sign.
Proof.
  intro i. exists (repeat (n2b (N.of_nat i)) 96). split; [split; [reflexivity|apply repeat_length]|].
  intro m. unfold ex_bvs, ex_sign. cbn [repeat firstn app]. apply bytes_eqb_refl.
Qed.
Example ex_built : exists b cd,
  cb_new (fun x => Some x) (bs "e") (bs "data") = Some b /\
  cb_build comb (fun _ => repeat x07 32) ex_pub ex_sign (fold_left (cb_set (fun n => [n2b n]) (fun n => [n2b n]))
     [WithTime 7; WithDelegation 9 [(1, 2); (100, 110)]; WithTime (2 ^ 64 + 1000)] b) = Some cd /\
  short (2 ^ 64) (cd_cbor cd) /\
  verify_certificate (2 ^ 64) 100 true (fun _ => repeat x07 32) ex_ple ex_bvs (cd_cert cd) (bs "e") (cd_root_key cd) 1010 20 = OOk tt /\
  verify_certificate (2 ^ 64) 100 true (fun _ => repeat x07 32) ex_ple ex_bvs (cd_cert cd) (bs "A") (cd_root_key cd) 1010 20 = OErr.
Proof. eexists. eexists. repeat split; vm_compute; reflexivity. Qed.
