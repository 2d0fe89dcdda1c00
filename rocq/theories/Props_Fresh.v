(** Property C133: what the verifier accepts was certified recently.

    The trees a canister certifies change over time.  [published tau ops]: in the state the IC
    certified with time [tau], the canister's certified data is the root hash of the certification tree
    that the calls [ops] lead to. *)
From Coq Require Import List Arith NArith Lia Bool.
From Verif Require Import Bytes Sha256 HashTree HashTreeSpec HashTreeProofs HashTreeSpecProofs Props_HashTree Utf8 Cbor CborProofs CborSpec Leb128 CertVerify CertSpec Props_Cert
  Text HttpTypes HttpHash HttpSpec Cel CelSpec Nested NestedSpec NestedProofs Props_Nested V2 WildcardSpec Header Verify VerifySpec Props_Verify HttpTree HttpTreeSpec Props_HttpTree.
Import ListNotations.
Local Open Scope N_scope.

(** The time a state tree states. *)
Definition state_time (St : htree) (tau : N) : Prop :=
  exists enc rest, at_path [bs "time"] St (HLeaf enc) /\ leb_read enc = Some (tau, rest).

Lemma accepted_time umod cap ck H ple vs c cid key now off :
  now < 2 ^ 128 -> off < 2 ^ 128 -> verify_certificate umod cap ck H ple vs c cid key now off = OOk tt ->
  exists enc tau rest, lookup_path [bs "time"] (c_tree c) = Found enc /\ leb_read enc = Some (tau, rest) /\ now <= tau + off /\ tau <= now + off.
Proof. intros A B E. apply C40_accepted_iff in E. destruct E as [E _]. exact (C38_time_window_sound ck c now off A B E). Qed.

Lemma certified_state_at umod cap ck H ple vs key Root Sub c cid now off d :
  (forall x, length (H x) = 32%nat) -> unforgeable H vs key Root Sub -> HashTree.hashes32 (c_tree c) = true ->
  now < 2 ^ 128 -> off < 2 ^ 128 ->
  verify_certificate umod cap ck H ple vs c cid key now off = OOk tt ->
  lookup_path (certified_data_path cid) (c_tree c) = Found d ->
  certificate_collision umod cap H Root Sub c \/
  exists St tau, speaks_for umod cap ple Root Sub cid St /\ state_time St tau /\ now <= tau + off /\ tau <= now + off /\
    at_path (certified_data_path cid) St (HLeaf d).
Proof.
  intros HL U W Bn Bo E L. assert (U' := U). destruct U' as (WR & WS & _).
  destruct (accepted_time _ _ _ _ _ _ _ _ _ _ _ Bn Bo E) as (te & tau & trest & TL & TR & T1 & T2).
  destruct (C40_shows_certified_state umod cap ck H ple vs key Root Sub HL U c cid now off W E) as [(t & R & _ & [P|C])|(dl & dc & r & D & DC & R & [C|(t & enc & ranges & lo & hi & A1 & A2 & A3 & A4 & A5 & S & [P|C])])].
  - right. destruct (WR t R) as [Wt Ft]. exists t, tau. split; [left; exact R|].
    apply (C03_found_is_sound H t _ _ _ Wt Ft P) in L, TL. apply lookup_path_at_iff in L, TL; auto.
    split; [exists te, trest; auto|]. auto.
  - left. left. exists t. auto.
  - left. right. exists dl, dc, r. auto.
  - right. destruct (WS _ t S) as [Wt Ft]. exists t, tau. split; [right; exists r, (d_subnet dl), enc, ranges, lo, hi; auto 10|].
    apply (C03_found_is_sound H t _ _ _ Wt Ft P) in L, TL. apply lookup_path_at_iff in L, TL; auto.
    split; [exists te, trest; auto|]. auto.
  - left. left. exists t. split; [right; eauto|exact C].
Qed.

(** Whatever is accepted, with either version: some state that speaks for the canister, whose own time is at
    most the offset away from the current time, has the root hash of the presented witness as the
    canister's certified data. *)
Theorem C133_accepted_state_is_recent :
  forall umod cap_max checked (H : bytes -> bytes) ple vs uri_path uri_query gunzip inflate key (Root : htree -> Prop) (Sub : bytes -> htree -> Prop),
  (forall x, length (H x) = 32%nat) -> unforgeable H vs key Root Sub ->
  forall rq rs canister_id now offset min_version i,
  now < 2 ^ 128 -> offset < 2 ^ 128 ->
  verify umod cap_max checked H ple vs uri_path uri_query gunzip inflate rq rs canister_id now offset key min_version = OOk i ->
  exists hv hd,
    last_header (bs "IC-Certificate") (rs_headers rs) hv /\ header_from umod cap_max hv = OOk hd /\
    (certificate_collision umod cap_max H Root Sub (h_cert hd) \/
     exists St tau, speaks_for umod cap_max ple Root Sub canister_id St /\
       state_time St tau /\ now <= tau + offset /\ tau <= now + offset /\
       at_path (certified_data_path canister_id) St (HLeaf (digest H (h_tree hd)))).
Proof.
  intros umod cap ck H ple vs up uq gz df key Root Sub HL U rq rs cid now off mv i Bn Bo E.
  destruct (C46_no_success_below_version _ _ _ _ _ _ _ _ _ _ _ _ _ _ _ _ _ _ E) as (_ & [V|V] & _).
  - destruct (proj1 (C49_v1_accepted_iff umod cap ck H ple vs up uq gz df rq rs cid now off key mv i) (conj E V)) as (hv & hd & path & enc & d & A1 & A2 & A3 & A4 & A5 & A6 & A7 & A8 & A9 & _).
    exists hv, hd. split; [exact A1|]. split; [exact A2|].
    exact (certified_state_at umod cap ck H ple vs key Root Sub (h_cert hd) cid now off _ HL U (proj1 (header_hashes32 _ _ _ _ A2)) Bn Bo A8 A9).
  - destruct (C47_v2_soundness _ _ _ _ _ _ _ _ _ _ _ _ _ _ _ _ _ _ HL E V) as (hv & hd & expr & e & c & path & A1 & A2 & A3 & A4 & A5 & A6 & A7 & A8 & A9).
    exists hv, hd. split; [exact A1|]. split; [exact A2|].
    exact (certified_state_at umod cap ck H ple vs key Root Sub (h_cert hd) cid now off _ HL U (proj1 (header_hashes32 _ _ _ _ A2)) Bn Bo A7 A8).
Qed.
Print Assumptions C133_accepted_state_is_recent.

(** Content accepted from a canister with a certification tree: at some moment in the window around the
    current time the canister's tree held an entry certifying this response for this request. *)
Theorem C133_accepted_content_was_certified_recently :
  forall umod cap_max checked (H : bytes -> bytes) ple vs uri_path uri_query gunzip inflate key (Root : htree -> Prop) (Sub : bytes -> htree -> Prop),
  (forall x, length (H x) = 32%nat) -> unforgeable H vs key Root Sub ->
  forall (Src : entry -> cel -> request -> response -> Prop) (published : N -> list http_op -> Prop) rq rs canister_id now offset min_version i,
  now < 2 ^ 128 -> offset < 2 ^ 128 ->
  (* the canister certifies the root hash of its tree, whatever it is at the time *)
  (forall St tau d, speaks_for umod cap_max ple Root Sub canister_id St -> state_time St tau -> at_path (certified_data_path canister_id) St (HLeaf d) ->
     exists ops t, published tau ops /\ http_run H ops = Some t /\ d = http_root_hash H t) ->
  (* every entry came from the constructors, for something the canister certified *)
  (forall tau ops, published tau ops -> Forall (fun o => match o with HInsert en => honest H uri_query Src en | _ => True end) ops) ->
  no_pseudo (rq_headers rq) -> no_pseudo (rs_headers rs) ->
  verify umod cap_max checked H ple vs uri_path uri_query gunzip inflate rq rs canister_id now offset key min_version = OOk i ->
  i_response i <> None ->
  exists hv hd, last_header (bs "IC-Certificate") (rs_headers rs) hv /\ header_from umod cap_max hv = OOk hd /\
  (certificate_collision umod cap_max H Root Sub (h_cert hd) \/
   exists tau ops t, now <= tau + offset /\ tau <= now + offset /\ published tau ops /\ http_run H ops = Some t /\
   (collision H (preimages H (HLabeled (bs "http_expr") (nhtree H t))) (preimages H (h_tree hd)) \/
    i_version i = 2 /\
    exists en ce rq0 rs0 expr path, Src en ce rq0 rs0 /\ held ops en /\ made H uri_query ce rq0 rs0 (en_certification en) /\
      last_header (bs "IC-CertificateExpression") (rs_headers rs) expr /\ path_of uri_path rq path /\
      (ordinary_path path -> answers_or_slash ops (en_path en) path) /\
      (collision H [expr] [print_cel ce] \/
       expr = print_cel ce /\
       match ce with
       | CelSkip => False
       | CelResponseOnly rc => same_response H rc rs rs0
       | CelFull qc rc => same_response H rc rs rs0 /\ same_request H uri_query qc rq rq0
       end))).
Proof.
  intros umod cap ck H ple vs up uq gz df key Root Sub HL U Src published rq rs cid now off mv i Bn Bo CD Ho NQ NR V NN.
  destruct (C46_no_success_below_version _ _ _ _ _ _ _ _ _ _ _ _ _ _ _ _ _ _ V) as (_ & [V1|V2] & _).
  - destruct (proj1 (C49_v1_accepted_iff umod cap ck H ple vs up uq gz df rq rs cid now off key mv i) (conj V V1)) as (hv & hd & path & enc & d & A1 & A2 & A3 & A4 & A5 & A6 & A7 & A8 & A9 & SB & _).
    exists hv, hd. split; [exact A1|]. split; [exact A2|].
    destruct (certified_state_at umod cap ck H ple vs key Root Sub (h_cert hd) cid now off _ HL U (proj1 (header_hashes32 _ _ _ _ A2)) Bn Bo A8 A9) as [C|(St & tau & Sp & T & T1 & T2 & At)]; [left; exact C|].
    destruct (CD St tau _ Sp T At) as (ops & t & Pb & R & DG). right. exists tau, ops, t. do 4 (split; [assumption|]). left.
    destruct (http_run_ok H ops) as (t' & R' & K & _ & Q). assert (t' = t) by congruence. subst t'. clear R'.
    destruct (nok_tree H t K) as (DGt & WT & FT). set (T' := HLabeled (bs "http_expr") (nhtree H t)).
    assert (DT : digest H T' = digest H (h_tree hd)) by (rewrite DG; unfold http_root_hash; rewrite DGt; reflexivity).
    destruct (C02_full_tree_determines_witness H HL T' (h_tree hd) FT (proj2 (header_hashes32 _ _ _ _ A2)) DT) as [P|C]; [exfalso|exact C].
    assert (N : forall p v, lookup_path (asset_path p) (h_tree hd) = Found v -> False).
    { intros p v X. apply (C03_found_is_sound H T' _ _ _ WT FT P) in X. apply lookup_path_at_iff in X; [|exact WT].
      apply at_root_inv in X. destruct X as [X _]. discriminate X. }
    destruct SB as [[X|[_ X]]|[X|[_ X]]]; exact (N _ _ X).
  - destruct (C47_v2_soundness _ _ _ _ _ _ _ _ _ _ _ _ _ _ _ _ _ _ HL V V2) as (hv & hd & expr & e & c & path & A1 & A2 & A3 & A4 & A5 & A6 & A7 & A8 & A9).
    exists hv, hd. split; [exact A1|]. split; [exact A2|].
    destruct (certified_state_at umod cap ck H ple vs key Root Sub (h_cert hd) cid now off _ HL U (proj1 (header_hashes32 _ _ _ _ A2)) Bn Bo A7 A8) as [C|(St & tau & Sp & T & T1 & T2 & At)]; [left; exact C|].
    destruct (CD St tau _ Sp T At) as (ops & t & Pb & R & DG). right. exists tau, ops, t. do 4 (split; [assumption|]).
    destruct (http_run_ok H ops) as (t' & R' & K & _ & Q). assert (t' = t) by congruence. subst t'. clear R'.
    destruct (nok_tree H t K) as (DGt & WT & FT).
    destruct (A9 (HLabeled (bs "http_expr") (nhtree H t)) WT FT) as [C|[X XP]]; [rewrite DG; unfold http_root_hash; rewrite DGt; reflexivity|left; exact C|].
    right. split; [exact V2|].
    destruct (C48_v2_returns_only_certified_data _ _ _ _ _ _ _ _ _ _ _ _ _ _ _ _ _ _ V V2) as (expr' & c' & LE' & Ce' & Sh).
    assert (expr' = expr) by (apply last_header_fun in A3, LE'; congruence). subst expr'. assert (c' = c) by congruence. subst c'. clear LE' Ce'.
    assert (NS : c <> CelSkip) by (intros ->; contradiction).
    destruct (entry_of_tree H uq Src ops t rq rs e expr c path HL R (Ho _ _ Pb) NQ NR A4 NS X XP) as (en & ce & rq0 & rs0 & X1 & X2 & X3 & X4 & X5).
    exists en, ce, rq0, rs0, expr, path. auto 10.
Qed.
Print Assumptions C133_accepted_content_was_certified_recently.

(** So a page that was taken down stops verifying: when no tree the canister had within the window holds an
    entry that answers the request, no content is accepted for it. *)
Theorem C133_withdrawn_pages_are_refused :
  forall umod cap_max checked (H : bytes -> bytes) ple vs uri_path uri_query gunzip inflate key (Root : htree -> Prop) (Sub : bytes -> htree -> Prop),
  (forall x, length (H x) = 32%nat) -> unforgeable H vs key Root Sub ->
  forall (Src : entry -> cel -> request -> response -> Prop) (published : N -> list http_op -> Prop) rq rs path canister_id now offset min_version i,
  now < 2 ^ 128 -> offset < 2 ^ 128 ->
  (forall St tau d, speaks_for umod cap_max ple Root Sub canister_id St -> state_time St tau -> at_path (certified_data_path canister_id) St (HLeaf d) ->
     exists ops t, published tau ops /\ http_run H ops = Some t /\ d = http_root_hash H t) ->
  (forall tau ops, published tau ops -> Forall (fun o => match o with HInsert en => honest H uri_query Src en | _ => True end) ops) ->
  no_pseudo (rq_headers rq) -> no_pseudo (rs_headers rs) ->
  path_of uri_path rq path -> ordinary_path path ->
  (* since [now - offset] nothing is certified for this path *)
  (forall tau ops en, now <= tau + offset -> tau <= now + offset -> published tau ops -> held ops en -> ~ answers_or_slash ops (en_path en) path) ->
  verify umod cap_max checked H ple vs uri_path uri_query gunzip inflate rq rs canister_id now offset key min_version = OOk i ->
  i_response i = None \/
  exists hv hd, last_header (bs "IC-Certificate") (rs_headers rs) hv /\ header_from umod cap_max hv = OOk hd /\
    (certificate_collision umod cap_max H Root Sub (h_cert hd) \/
     exists tau ops t, published tau ops /\ http_run H ops = Some t /\
       collision H (preimages H (HLabeled (bs "http_expr") (nhtree H t))) (preimages H (h_tree hd))).
Proof.
  intros umod cap ck H ple vs up uq gz df key Root Sub HL U Src published rq rs path cid now off mv i Bn Bo CD Ho NQ NR PO OP Gone V.
  destruct (i_response i) as [r|] eqn:IR; [right|left; reflexivity].
  destruct (C133_accepted_content_was_certified_recently umod cap ck H ple vs up uq gz df key Root Sub HL U Src published rq rs cid now off mv i Bn Bo CD Ho NQ NR V) as (hv & hd & L & Hd & D).
  { rewrite IR. discriminate. }
  exists hv, hd. split; [exact L|]. split; [exact Hd|].
  destruct D as [D|(tau & ops & t & T1 & T2 & Pb & R & [D|(_ & en & ce & rq0 & rs0 & expr & path' & _ & Hl & _ & _ & PO' & An & _)])]; [left; exact D|right; eauto 6|].
  exfalso. assert (path' = path). { apply C63_request_path_exact in PO, PO'. congruence. } subst path'.
  exact (Gone tau ops en T1 T2 Pb Hl (An OP)).
Qed.
Print Assumptions C133_withdrawn_pages_are_refused.

(** The age of a delegation is not limited: a certificate is accepted whose delegation says nothing about
    its time. *)
Theorem C133_delegations_of_any_age :
  exists (c : certificate) (d : delegation) (dc : certificate),
  c_deleg c = Some d /\ cert_from_cbor (2 ^ 64) (2 ^ 60) (d_cert d) = OOk dc /\
  (forall tau, ~ state_time (c_tree dc) tau) /\ state_time (c_tree c) 1000 /\
  verify_certificate (2 ^ 64) (2 ^ 60) true sha256 ex_ple ex_vs c (bs "e") (ex_key x01) 1010 20 = OOk tt.
Proof.
  exists ex_cert, (mk_deleg ex_subnet (enc_cert (mk_cert ex_root_tree (bs "sig") None))), (mk_cert ex_root_tree (bs "sig") None).
  split; [reflexivity|]. split; [vm_compute; reflexivity|]. split; [|split; [|exact ex_accepted]].
  - intros tau (enc & rest & A & _). cbn [c_tree] in A. inversion A as [|? ? ? ? ? Ch A']; subst. inversion Ch.
  - exists (leb_enc 1000), []. split; [|vm_compute; reflexivity].
    eapply AtCons; [apply ChRight; apply ChHere|apply AtNil].
Qed.
Print Assumptions C133_delegations_of_any_age.

(** ** The canister of Props_HttpTree, which takes its pages down at time 2000 *)
Definition exf_published (tau : N) (ops : list http_op) : Prop :=
  (tau < 2000 /\ ops = exh_ops) \/ (2000 <= tau /\ ops = exh_ops ++ [HClear]).
Lemma ex_state_time d tau : state_time (ex_state d) tau -> tau = 1000.
Proof.
  intros (enc & rest & A & R). unfold ex_state in A.
  inversion A as [|? ? ? ? ? Ch A']; subst. inversion Ch as [|? ? ? ? Ch1|? ? ? ? Ch1]; subst; inversion Ch1; subst.
  inversion A'; subst. assert (X : leb_read (leb_enc 1000) = Some (1000, [])) by (vm_compute; reflexivity). congruence.
Qed.
Example C133_hypotheses :
  (forall St tau d, speaks_for (2 ^ 64) (2 ^ 60) ex_ple (fun t => t = exh_state) (fun _ _ => False) (bs "e") St -> state_time St tau ->
     at_path (certified_data_path (bs "e")) St (HLeaf d) -> exists ops t, exf_published tau ops /\ http_run sha256 ops = Some t /\ d = http_root_hash sha256 t) /\
  (forall tau ops, exf_published tau ops -> Forall (fun o => match o with HInsert en => honest sha256 ex_query exh_src en | _ => True end) ops) /\
  (* accepted at time 1010, as certified at time 1000 *)
  (exists i, exh_verify ex_rq (exh_serve exh_x (bs "/a") (ex_rs [])) = OOk i /\ i_response i <> None) /\
  (* at time 3000 nothing answers any path *)
  (forall tau ops en path, 3000 <= tau + 20 -> tau <= 3000 + 20 -> exf_published tau ops -> held ops en -> ~ answers_or_slash ops (en_path en) path).
Proof.
  destruct C64_hypotheses as (_ & Ho & CD & Ac). split; [|split; [|split; [exact Ac|]]].
  - intros St tau d Sp T A. exists exh_ops, exh_tree. assert (E := CD St d Sp A). split; [|split; [vm_compute; reflexivity|exact E]].
    left. destruct Sp as [->|(r & s & enc & rg & lo & hi & _ & _ & _ & _ & _ & _ & [])]. apply ex_state_time in T. subst tau. split; [reflexivity|reflexivity].
  - intros tau ops [[_ ->]|[_ ->]]; [exact Ho|]. apply Forall_app. split; [exact Ho|]. repeat constructor.
  - intros tau ops en path B1 B2 [[B ->]|[_ ->]] Hl; [lia|]. exfalso.
    destruct (C69_tree_operations_are_exact sha256 exh_ops en) as (_ & _ & _ & _ & X & _). exact (X en Hl).
Qed.
