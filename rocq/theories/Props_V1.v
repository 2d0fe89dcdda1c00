(** C80: version 1 certified assets verify. *)
From Coq Require Import List Arith NArith Lia Bool Sorted.
From Verif Require Import Bytes Sha256 Text Utf8 HashTree HashTreeSpec HashTreeProofs HashTreeSpecProofs Props_HashTree
  RbTree RbShape RbContent RbHash RbWitness RbBounds RbSpec Props_RbTree Nested NestedSpec NestedProofs Props_Nested
  Cbor CborSpec Props_Cbor Base64 Header HeaderSpec HeaderProofs Props_Header HttpTypes Leb128 CertVerify CertSpec Props_Cert
  Verify VerifySpec Props_Verify CertBuilder CertBuilderSpec Props_Builder V1Assets.
Import ListNotations.
Local Open Scope N_scope.

(** A header without version and expression path is read back as version 1. *)
Theorem C80_v1_header_round_trip :
  forall (umod cap_max : N) (data_certificate : bytes) (c : certificate) (w : htree),
  32 < umod <= 2 ^ 64 -> cert_from_cbor umod cap_max data_certificate = OOk c ->
  CborSpec.hashes32 w -> Forall (short umod) (strings_of w) ->
  header_from umod cap_max (v1_certificate_header data_certificate w) = OOk (mk_header c w 1 None).
Proof.
  intros umod cap dc c w U DC HW SW.
  assert (NDC : dc <> []) by (intros ->; exact (proj2 (parse_nil umod cap) c DC)).
  unfold v1_certificate_header. set (X := b64_enc true dc). set (Y := b64_enc true (self_describe ++ enc_tree w)).
  assert (NX : X <> []) by (apply b64_enc_ne; exact NDC). assert (NY : Y <> []) by (apply b64_enc_ne; discriminate).
  assert (CX : ~ In ":"%byte X) by (apply b64_no; reflexivity). assert (CY : ~ In ":"%byte Y) by (apply b64_no; reflexivity).
  assert (KX : ~ In ","%byte X) by (apply b64_no; reflexivity). assert (KY : ~ In ","%byte Y) by (apply b64_no; reflexivity).
  set (f1 := [] ++ bs "certificate" ++ bs "=:" ++ X ++ bs ":"). set (f2 := bs " " ++ bs "tree" ++ bs "=:" ++ Y ++ bs ":").
  assert (NC : forall p x, ~ In ","%byte p -> ~ In ","%byte x -> ~ In ","%byte (p ++ x ++ bs ":")).
  { intros p x A B I. apply in_app_or in I. destruct I as [I|I]; [auto|]. apply in_app_or in I. destruct I as [I|I]; [auto|]. destruct I as [I|[]]. discriminate. }
  assert (E : bs "certificate=:" ++ X ++ bs ":, tree=:" ++ Y ++ bs ":" = f1 ++ ","%byte :: f2).
  { unfold f1, f2. rewrite <- !app_assoc. reflexivity. }
  rewrite E. unfold header_from.
  assert (D1 : ~ In ","%byte f1).
  { unfold f1. rewrite !app_assoc, <- app_assoc. apply (NC (([] ++ bs "certificate") ++ bs "=:")); [|exact KX]. vm_compute. intuition discriminate. }
  assert (D2 : ~ In ","%byte f2).
  { unfold f2. rewrite !app_assoc, <- app_assoc. apply (NC ((bs " " ++ bs "tree") ++ bs "=:")); [|exact KY]. vm_compute. intuition discriminate. }
  rewrite (split_on_app "," f1) by exact D1. rewrite (split_on_free "," f2) by exact D2.
  assert (S1 : header_field f1 = Some (bs "certificate", X)).
  { apply header_field_says. eapply field_says; [reflexivity|auto|exists "c"%byte, (bs "ertificate"); split; reflexivity|vm_compute; intuition discriminate|exact NX|exact CX]. }
  assert (S2 : header_field f2 = Some (bs "tree", Y)).
  { apply header_field_says. eapply field_says; [reflexivity|auto|exists "t"%byte, (bs "ree"); split; reflexivity|vm_compute; intuition discriminate|exact NY|exact CY]. }
  assert (T1 : decode_certificate umod cap X = OOk c).
  { unfold decode_certificate, X. rewrite (proj1 (C43_base64_round_trip dc)). exact DC. }
  assert (T2 : decode_tree umod cap Y = OOk w).
  { unfold decode_tree, Y. rewrite (proj1 (C43_base64_round_trip _)). cbn [of_opt out_bind]. apply C20_hash_tree_cbor_round_trip; assumption. }
  clearbody f1 f2 X Y. cbn [add_fields]. unfold add_field at 1. rewrite S1. change (bytes_eqb (bs "certificate") (bs "certificate")) with true. cbn [fill s_cert s_tree s_version s_path]. rewrite T1. cbn [out_bind].
  unfold add_field at 1. rewrite S2. change (bytes_eqb (bs "tree") (bs "certificate")) with false. change (bytes_eqb (bs "tree") (bs "tree")) with true. cbn [fill s_cert s_tree s_version s_path]. rewrite T2. reflexivity.
Qed.
Print Assumptions C80_v1_header_round_trip.

Section Assets.
  Variables (H : bytes -> bytes) (ops : list (op bytes)) (t : assets).
  Hypothesis R : run H bytes (leaf_root H) ops E = Some t.
  Lemma leaf_values : values_ok H bytes (leaf_root H) HLeaf ops.
  Proof. intros k v _. split; [reflexivity|exact I]. Qed.
  Definition assets_tree : htree := HLabeled (bs "http_assets") (as_hash_tree H bytes HLeaf t).
  Lemma assets_tree_wf : wf assets_tree /\ full assets_tree = true /\ digest H assets_tree = assets_certified_data H t.
  Proof.
    assert (K := reach_ok bytes H (leaf_root H) HLeaf ops t R leaf_values).
    split; [cbn; apply (tree_ok_wf H bytes (leaf_root H) HLeaf); exact K|]. split.
    - cbn [full assets_tree]. apply full_full. apply allv_elems. apply Forall_forall. reflexivity.
    - unfold assets_certified_data. cbn [digest assets_tree]. rewrite (C11_root_hash_is_digest H bytes (leaf_root H) HLeaf ops t R); [reflexivity|]. reflexivity.
  Qed.
  Lemma lookup_labelled p x : lookup_path (asset_path p) (HLabeled (bs "http_assets") x) = lookup_path [p] x.
  Proof. reflexivity. Qed.
  Lemma assets_witness_ok path : exists w, assets_witness H t path = Some w /\ prunes H assets_tree w /\
    match map_after bytes ops path with
    | Some v => lookup_path (asset_path path) w = Found v
    | None => lookup_path (asset_path path) w = Absent
    end.
  Proof.
    assert (K := reach_ok bytes H (leaf_root H) HLeaf ops t R leaf_values).
    destruct (C13_witness_decides_key H bytes (leaf_root H) HLeaf ops t path R leaf_values) as (w & E1 & F & A & _).
    destruct (nested_witness_ok H bytes (leaf_root H) HLeaf HLeaf path t K) as (w' & E2 & (P & _) & _); [intros; apply prunes_refl|].
    assert (w' = w) by (unfold witness in E1; congruence). subst w'.
    exists (HLabeled (bs "http_assets") w). unfold assets_witness. rewrite E1. split; [reflexivity|]. split; [constructor; exact P|].
    rewrite lookup_labelled, C06_lookup_path_vs_subtree.
    destruct (map_after bytes ops path) as [v|]; [rewrite (F v eq_refl); reflexivity|]. rewrite A; reflexivity.
  Qed.
End Assets.

(** C80: after any sequence of insertions, modifications and deletions in the
    asset tree, a response whose body (as sent, or after undoing its content
    encoding) is the one certified for the request path, sent with the tree's
    witness for that path and a valid certificate for the tree's certified data,
    is accepted as version 1; so is a response for a path that is not certified
    whose body is the one certified for "/index.html", sent with the merged
    witness of both paths. *)
Definition v1_answer (H : bytes -> bytes) (ops : list (op bytes)) (t : assets) (path sha : bytes) (tree : htree) : Prop :=
  (map_after bytes ops path = Some sha /\ assets_witness H t path = Some tree) \/
  (map_after bytes ops path = None /\ map_after bytes ops (bs "/index.html") = Some sha /\ assets_fallback_witness H t path = Some tree).
(** Such a tree exists whenever the path, or "/index.html", is certified. *)
Theorem C80_witnesses_exist :
  forall H (ops : list (op bytes)) (t : assets) (path sha : bytes),
  run H bytes (leaf_root H) ops E = Some t ->
  (map_after bytes ops path = Some sha \/ (map_after bytes ops path = None /\ map_after bytes ops (bs "/index.html") = Some sha)) ->
  exists tree, v1_answer H ops t path sha tree /\ digest H tree = assets_certified_data H t.
Proof.
  intros H ops t path sha R M. destruct (assets_tree_wf H ops t R) as (Wt & Ft & Dt).
  destruct (assets_witness_ok H ops t R path) as (w & E1 & P1 & L1).
  destruct (assets_witness_ok H ops t R (bs "/index.html")) as (wi & E2 & P2 & L2).
  destruct M as [M|[M Mi]].
  - exists w. split; [left; auto|]. rewrite (prunes_digest H _ _ P1). exact Dt.
  - destruct (C19_merge_reveals_both H _ w wi Wt P1 P2) as (m & Em & Pm & Dm & _). exists m. split; [|rewrite Dm; exact Dt].
    right. split; [exact M|]. split; [exact Mi|]. unfold assets_fallback_witness. rewrite E1, E2. exact Em.
Qed.
Print Assumptions C80_witnesses_exist.

Theorem C80_certified_assets_verify :
  forall umod cap_max checked H ple vs uri_path uri_query gunzip inflate (ops : list (op bytes)) (t : assets)
         rq rs canister_id now offset key min_version data_certificate c path enc d sha tree,
  32 < umod <= 2 ^ 64 -> (forall x, length (H x) = 32%nat) ->
  run H bytes (leaf_root H) ops E = Some t ->
  v1_answer H ops t path sha tree -> short umod (enc_tree tree) ->
  cert_from_cbor umod cap_max data_certificate = OOk c ->
  verify_certificate umod cap_max checked H ple vs c canister_id key now offset = OOk tt ->
  lookup_path [bs "canister"; canister_id; bs "certified_data"] (c_tree c) = Found (assets_certified_data H t) ->
  last_header (bs "IC-Certificate") (rs_headers rs) (v1_certificate_header data_certificate tree) ->
  path_of uri_path rq path -> encoding_of (rs_headers rs) enc -> decoded_body gunzip inflate enc (rs_body rs) d ->
  (sha = H d \/ sha = H (rs_body rs)) -> min_version <= 1 ->
  verify umod cap_max checked H ple vs uri_path uri_query gunzip inflate rq rs canister_id now offset key min_version =
    OOk (mk_info (Some (mk_verified None [] (rs_body rs))) 1).
Proof.
  intros umod cap ck H ple vs up uq gz df ops t rq rs cid now off key mv dc c path enc d sha tree U HL R A S DC VC CD LH PA EN DB SH MV.
  destruct (assets_tree_wf H ops t R) as (Wt & Ft & Dt).
  assert (X : prunes H (assets_tree H t) tree /\ shown_sha tree path sha).
  { destruct (assets_witness_ok H ops t R path) as (w & E1 & P1 & L1). destruct A as [[M Ew]|(M & Mi & Ew)]; rewrite M in L1.
    - assert (tree = w) by congruence. subst tree. split; [exact P1|]. left. exact L1.
    - destruct (assets_witness_ok H ops t R (bs "/index.html")) as (wi & E2 & P2 & L2). rewrite Mi in L2. unfold assets_fallback_witness in Ew. rewrite E1, E2 in Ew.
      destruct (C19_merge_reveals_both H _ w wi Wt P1 P2) as (m & Em & Pm & _ & La & Lb & _). assert (tree = m) by congruence. subst tree.
      split; [exact Pm|]. right. split.
      + intros u. rewrite (La (asset_path path)); rewrite L1; discriminate.
      + rewrite (Lb (asset_path (bs "/index.html"))); rewrite L2; [reflexivity|discriminate]. }
  destruct X as (P & SS).
  assert (HW : HashTree.hashes32 tree = true) by (eapply prunes_hashes32; [exact HL|exact P|apply full_hashes32; exact Ft]).
  assert (SW : Forall (short umod) (strings_of tree)).
  { eapply Forall_impl; [|apply strings_len]. unfold short in *. cbn beta. intros s L. lia. }
  assert (HF := C80_v1_header_round_trip umod cap dc c tree U DC (proj2 (hashes32_bool tree) HW) SW).
  apply (proj2 (C49_v1_accepted_iff umod cap ck H ple vs up uq gz df rq rs cid now off key mv _)).
  eexists. eexists. exists path, enc, d. split; [exact LH|]. split; [exact HF|]. cbn [h_version h_cert h_tree]. split; [reflexivity|]. split; [exact MV|].
  split; [exact PA|]. split; [exact EN|]. split; [exact DB|]. split; [exact VC|]. split.
  - rewrite (prunes_digest H _ _ P), Dt. exact CD.
  - split; [|reflexivity]. destruct SH as [->| ->]; auto.
Qed.
Print Assumptions C80_certified_assets_verify.

(** C80: the same with a certificate made by the builder of ic-certification-testing
    from the tree's certified data. *)
Theorem C80_built_and_certified_assets_verify :
  forall umod cap_max checked H ple vs parse_id canister_of subnet_of arrange pub sign uri_path uri_query gunzip inflate
         (ops : list (op bytes)) (t : assets) id cid b calls cd rq rs now offset min_version path enc d sha tree,
  32 < umod <= 2 ^ 64 -> 3 <= cap_max -> (forall x, length (H x) = 32%nat) ->
  keys_sign vs pub sign -> (forall l, arranges l (arrange l)) -> (forall n, (length (canister_of n) <= 29)%nat) ->
  run H bytes (leaf_root H) ops E = Some t ->
  parse_id id = Some cid -> cb_new parse_id id (assets_certified_data H t) = Some b ->
  cb_build arrange H pub sign (fold_left (cb_set canister_of subnet_of) calls b) = Some cd ->
  ~ In WithInvalidSignature calls -> asked_nested calls = None ->
  (forall s ranges, asked_delegation calls = Some (s, ranges) -> (length cid <= 29)%nat /\
     exists lo hi, In (lo, hi) ranges /\ ple (canister_of lo) cid = true /\ ple cid (canister_of hi) = true) ->
  (exists tm, asked_time calls = Some tm /\ now - offset <= tm mod 2 ^ 64 <= now + offset) ->
  now + offset < 2 ^ 128 -> offset <= now ->
  v1_answer H ops t path sha tree -> short umod (enc_tree tree) -> short umod (cd_cbor cd) ->
  last_header (bs "IC-Certificate") (rs_headers rs) (v1_certificate_header (cd_cbor cd) tree) ->
  path_of uri_path rq path -> encoding_of (rs_headers rs) enc -> decoded_body gunzip inflate enc (rs_body rs) d ->
  (sha = H d \/ sha = H (rs_body rs)) -> min_version <= 1 ->
  verify umod cap_max checked H ple vs uri_path uri_query gunzip inflate rq rs cid now offset (cd_root_key cd) min_version =
    OOk (mk_info (Some (mk_verified None [] (rs_body rs))) 1).
Proof.
  intros umod cap ck H ple vs parse canof subof arrange pub sign up uq gz df ops t id cid b calls cd rq rs now off mv path enc d sha tree
    U K HL KS AR CL R PI N B NI ND DR TM L1 L2 A S Sc LH PA EN DB SH MV.
  destruct (C79_built_certificates_verify umod cap ck H ple vs parse canof subof arrange pub sign id cid _ calls b cd U K KS AR CL PI N B Sc NI (or_intror ND)) as (DC & LD & V).
  eapply C80_certified_assets_verify; try eassumption. apply V; auto. split; [|exact DR]. destruct TM as (tm & -> & Z). exact Z.
Qed.
Print Assumptions C80_built_and_certified_assets_verify.

(** ** A concrete case: both kinds of answer, with a certificate from the builder. *)
Definition ex_h (x : bytes) : bytes := firstn 32 (x ++ repeat x00 32).
Lemma ex_h_len x : length (ex_h x) = 32%nat.
Proof. unfold ex_h. rewrite firstn_length, app_length, repeat_length. lia. Qed.
Definition ex_ops : list (op bytes) :=
  [assets_insert ex_h (bs "/a.js") (bs "code"); assets_insert ex_h (bs "/index.html") (bs "index"); assets_insert ex_h (bs "/b") (bs "x"); OpDelete bytes (bs "/b")].
Example C80_ex : exists t b cd tree1 tree2,
  run ex_h bytes (leaf_root ex_h) ex_ops E = Some t /\
  cb_new (fun x => Some x) (bs "e") (assets_certified_data ex_h t) = Some b /\
  cb_build comb ex_h ex_pub ex_sign (fold_left (cb_set (fun n => [n2b n]) (fun n => [n2b n])) [WithDelegation 9 [(100, 110)]; WithTime 1000] b) = Some cd /\
  v1_answer ex_h ex_ops t (bs "/a.js") (ex_h (bs "code")) tree1 /\ v1_answer ex_h ex_ops t (bs "/b") (ex_h (bs "index")) tree2 /\
  let v path tree body := verify (2 ^ 64) 100 true ex_h ex_ple ex_bvs ex_uri ex_query ex_none ex_none (mk_request (bs "GET") path [] [])
     (mk_response 200 [(bs "ic-certificate", v1_certificate_header (cd_cbor cd) tree)] body) (bs "e") 1010 20 (cd_root_key cd) 1 in
  v (bs "/a.js") tree1 (bs "code") = OOk (mk_info (Some (mk_verified None [] (bs "code"))) 1) /\
  v (bs "/b") tree2 (bs "index") = OOk (mk_info (Some (mk_verified None [] (bs "index"))) 1) /\
  v (bs "/a.js") tree1 (bs "other") = OErr.
Proof.
  eexists. eexists. eexists. eexists. eexists. split; [vm_compute; reflexivity|]. split; [vm_compute; reflexivity|]. split; [vm_compute; reflexivity|].
  split; [left; split; [vm_compute; reflexivity|vm_compute; reflexivity]|].
  split; [right; split; [vm_compute; reflexivity|split; vm_compute; reflexivity]|].
  split; [vm_compute; reflexivity|]. split; vm_compute; reflexivity.
Qed.
