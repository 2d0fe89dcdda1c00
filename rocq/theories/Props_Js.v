(** C81, C82: the JavaScript bindings. *)
From Coq Require String.
From Coq Require Import List Arith NArith ZArith Lia Bool Permutation.
From Verif Require Import Bytes HashTree Cbor HttpTypes Leb128 CertVerify Props_Cert Verify JsBindings.
Import ListNotations.

(** ** C81 *)
(** C81: verifyCertification resolves to a tree exactly if the agent accepts the
    certificate, the tree decodes, the certificate's time is readable and, in
    whole milliseconds, at most the offset away from the current time, and the
    certified data of the canister is the tree's root hash. *)
Theorem C81_accepted_iff :
  forall T create (decode : bytes -> option T) reconstruct leb canister_id cert enc root_key offset_ms now_ms (tree : T),
  verify_certification T create decode reconstruct leb canister_id cert enc root_key offset_ms now_ms = Some tree <->
  exists lookup e t,
    create cert canister_id root_key = Some lookup /\ decode enc = Some tree /\
    lookup [bs "time"] = Some e /\ leb e = Some t /\
    (now_ms - offset_ms <= Z.of_N (t / 1000000) <= now_ms + offset_ms)%Z /\
    lookup [bs "canister"; canister_id; bs "certified_data"] = Some (reconstruct tree).
Proof.
  intros T create decode rec leb cid cert enc key off now tree. unfold verify_certification. split.
  - destruct (create cert cid key) as [lk|]; [|discriminate]. destruct (decode enc) as [tr|]; [|discriminate].
    destruct (js_time_ok leb lk off now) eqn:T1; [|discriminate]. destruct (js_tree_ok T rec tr lk cid) eqn:T2; [|discriminate].
    cbn [andb]. intro X; injection X as ->. unfold js_time_ok in T1. unfold js_tree_ok in T2.
    destruct (lk [bs "time"]) as [e|] eqn:L1; [|discriminate]. destruct (leb e) as [t|] eqn:L2; [|discriminate].
    destruct (lk [bs "canister"; cid; bs "certified_data"]) as [d|] eqn:L3; [|discriminate]. apply bytes_eqb_eq in T2.
    exists lk, e, t. repeat split; auto; try congruence.
    + destruct (Z.ltb_spec now (Z.of_N (t / 1000000) - off)); [discriminate|]. destruct (Z.ltb_spec (Z.of_N (t / 1000000) + off) now); [discriminate|]. lia.
    + destruct (Z.ltb_spec now (Z.of_N (t / 1000000) - off)); [discriminate|]. lia.
  - intros (lk & e & t & -> & -> & L1 & L2 & W & L3). unfold js_time_ok, js_tree_ok. rewrite L1, L2, L3, bytes_eqb_refl.
    destruct (Z.ltb_spec now (Z.of_N (t / 1000000) - off)); [lia|]. destruct (Z.ltb_spec (Z.of_N (t / 1000000) + off) now); [lia|]. reflexivity.
Qed.
Print Assumptions C81_accepted_iff.

(** C81: compared with the Rust verifier's check of the same certificate at the
    same instant [now] (nanoseconds; JavaScript's clock shows whole
    milliseconds): whatever the Rust check accepts the JavaScript check accepts,
    and whatever the JavaScript check accepts the Rust check accepts with an
    offset larger by less than a millisecond. *)
Theorem C81_time_check_against_rust :
  forall checked (c : certificate) (lookup : list bytes -> option bytes) leb (e : bytes) (t : N) (rest : bytes) (now offset_ms : N),
  lookup_path [bs "time"] (c_tree c) = Found e -> lookup [bs "time"] = Some e ->
  leb_read e = Some (t, rest) -> leb e = Some t ->
  (now + offset_ms * 1000000 + 999999 < 2 ^ 128)%N -> (offset_ms * 1000000 + 999999 <= now)%N ->
  (verify_certificate_time checked c now (offset_ms * 1000000) = OOk tt ->
   js_time_ok leb lookup (Z.of_N offset_ms) (Z.of_N (now / 1000000)) = true) /\
  (js_time_ok leb lookup (Z.of_N offset_ms) (Z.of_N (now / 1000000)) = true ->
   verify_certificate_time checked c now (offset_ms * 1000000 + 999999) = OOk tt).
Proof.
  intros ck c lk leb e t rest now off L1 L2 R1 R2 A B.
  rewrite (C38_time_window_exact ck c now (off * 1000000) e t rest) by (assumption || lia).
  rewrite (C38_time_window_exact ck c now (off * 1000000 + 999999) e t rest) by (assumption || lia).
  unfold js_time_ok. rewrite L2, R2.
  assert (D1 := N.div_mod' now 1000000). assert (D2 := N.div_mod' t 1000000).
  assert (M1 : (now mod 1000000 < 1000000)%N) by (apply N.mod_lt; discriminate). assert (M2 : (t mod 1000000 < 1000000)%N) by (apply N.mod_lt; discriminate).
  set (nq := (now / 1000000)%N) in *. set (tq := (t / 1000000)%N) in *. clearbody nq tq.
  destruct (Z.ltb_spec (Z.of_N nq) (Z.of_N tq - Z.of_N off)); [split; [lia|discriminate]|].
  destruct (Z.ltb_spec (Z.of_N tq + Z.of_N off) (Z.of_N nq)); [split; [lia|discriminate]|]. split; [reflexivity|lia].
Qed.
Print Assumptions C81_time_check_against_rust.
(** The extra fraction of a millisecond is real: a certificate 300000 ns further
    in the future than the offset passes in JavaScript and not in Rust. *)
Example C81_ex : exists c lookup leb,
  let now := (10 ^ 15)%N in
  verify_certificate_time true c now (5 * 1000000) = OErr /\ js_time_ok leb lookup 5 (Z.of_N (now / 1000000)) = true.
Proof.
  exists (mk_cert (HLabeled (bs "time") (HLeaf (leb_enc (10 ^ 15 + 5300000)))) [] None),
    (fun p => Some (leb_enc (10 ^ 15 + 5300000))), (fun e => match leb_read e with Some (t, _) => Some t | None => None end).
  split; vm_compute; reflexivity.
Qed.

(** ** C82 *)
Definition js_header (h : bytes * bytes) : jsval := JArr [JStr (fst h); JStr (snd h)].
Lemma js_headers_ok hs : js_headers (JArr (map js_header hs)) = OOk hs.
Proof.
  unfold js_headers. cbn [js_elems]. induction hs as [|[n v] hs IH]; [reflexivity|]. cbn [map js_headers_loop js_header js_get js_elems nth js_string out_bind fst snd].
  rewrite IH. reflexivity.
Qed.
(** the two forms a body may have *)
Definition js_body_is (v : jsval) (b : bytes) : Prop := v = JBytes b \/ v = JArr (map (fun x => JNum (Z.of_N (b2n x))) b).
Lemma js_body_ok v b : js_body_is v b -> js_body v = b.
Proof.
  intros [->| ->]; [reflexivity|]. cbn [js_body]. rewrite map_map. rewrite <- (map_id b) at 2. apply map_ext. intro x. destruct x; reflexivity.
Qed.

(** The value of a field: the entry with that name. *)
Definition has (es : list (bytes * jsval)) (k : String.string) (v : jsval) : Prop := In (bs k, v) es.
Arguments has es k%string_scope v.
Lemma no_name k (es : list (bytes * jsval)) : ~ In k (map fst es) -> forall v, ~ In (k, v) es.
Proof. intros N v I. apply N. apply in_map_iff. exists (k, v). auto. Qed.

Section Loops.
  Lemma request_loop_ok es : NoDup (map fst es) -> forall m u hs b m' u' hs' b',
    (forall v, In (bs "method", v) es -> v = JStr m') -> (~ In (bs "method") (map fst es) -> m' = m) ->
    (forall v, In (bs "url", v) es -> v = JStr u') -> (~ In (bs "url") (map fst es) -> u' = u) ->
    (forall v, In (bs "headers", v) es -> js_headers v = OOk hs') -> (~ In (bs "headers") (map fst es) -> hs' = hs) ->
    (forall v, In (bs "body", v) es -> js_body v = b') -> (~ In (bs "body") (map fst es) -> b' = b) ->
    request_loop m u hs b es = OOk (m', u', hs', b').
  Proof.
    induction es as [|[k v] es IH]; intros ND m u hs b m' u' hs' b' M1 M2 U1 U2 H1 H2 B1 B2.
    - cbn. rewrite M2, U2, H2, B2 by (intros []). reflexivity.
    - cbn [map fst] in ND. inversion ND as [|? ? NI ND']; subst.
      assert (Em : (if bytes_eqb k (bs "method") then js_string v else OOk m) = OOk (if bytes_eqb k (bs "method") then m' else m)).
      { destruct (bytes_eqb_spec k (bs "method")) as [->|]; [|reflexivity]. rewrite (M1 v); [reflexivity|left; reflexivity]. }
      assert (Eu : (if bytes_eqb k (bs "url") then js_string v else OOk u) = OOk (if bytes_eqb k (bs "url") then u' else u)).
      { destruct (bytes_eqb_spec k (bs "url")) as [->|]; [|reflexivity]. rewrite (U1 v); [reflexivity|left; reflexivity]. }
      assert (Eh : (if bytes_eqb k (bs "headers") then js_headers v else OOk hs) = OOk (if bytes_eqb k (bs "headers") then hs' else hs)).
      { destruct (bytes_eqb_spec k (bs "headers")) as [->|]; [|reflexivity]. rewrite (H1 v); [reflexivity|left; reflexivity]. }
      assert (Eb : (if bytes_eqb k (bs "body") then js_body v else b) = (if bytes_eqb k (bs "body") then b' else b)).
      { destruct (bytes_eqb_spec k (bs "body")) as [->|]; [|reflexivity]. apply B1. left; reflexivity. }
      cbn [request_loop]. rewrite Em. cbn [out_bind]. rewrite Eu. cbn [out_bind]. rewrite Eh. cbn [out_bind]. rewrite Eb. clear Em Eu Eh Eb.
      assert (G : forall {A} (name : bytes) (x' x : A), (~ In name (k :: map fst es) -> x' = x) -> ~ In name (map fst es) ->
         x' = if bytes_eqb k name then x' else x).
      { intros A name x' x X N. destruct (bytes_eqb_spec k name) as [->|Ne]; [reflexivity|]. apply X. intros [Z|Z]; [congruence|contradiction]. }
      apply IH; auto; try (intros; eauto; fail).
      + intros w I. apply M1. right. exact I.
      + intros w I. apply U1. right. exact I.
      + intros w I. apply H1. right. exact I.
      + intros w I. apply B1. right. exact I.
  Qed.
  Lemma response_loop_ok es : NoDup (map fst es) -> forall s hs b s' hs' b',
    (forall v, In (bs "status_code", v) es -> js_u16 v = OOk s') -> (~ In (bs "status_code") (map fst es) -> s' = s) ->
    (forall v, In (bs "headers", v) es -> js_headers v = OOk hs') -> (~ In (bs "headers") (map fst es) -> hs' = hs) ->
    (forall v, In (bs "body", v) es -> js_body v = b') -> (~ In (bs "body") (map fst es) -> b' = b) ->
    response_loop s hs b es = OOk (s', hs', b').
  Proof.
    induction es as [|[k v] es IH]; intros ND s hs b s' hs' b' M1 M2 H1 H2 B1 B2.
    - cbn. rewrite M2, H2, B2 by (intros []). reflexivity.
    - cbn [map fst] in ND. inversion ND as [|? ? NI ND']; subst.
      assert (Em : (if bytes_eqb k (bs "status_code") then js_u16 v else OOk s) = OOk (if bytes_eqb k (bs "status_code") then s' else s)).
      { destruct (bytes_eqb_spec k (bs "status_code")) as [->|]; [|reflexivity]. apply M1. left; reflexivity. }
      assert (Eh : (if bytes_eqb k (bs "headers") then js_headers v else OOk hs) = OOk (if bytes_eqb k (bs "headers") then hs' else hs)).
      { destruct (bytes_eqb_spec k (bs "headers")) as [->|]; [|reflexivity]. rewrite (H1 v); [reflexivity|left; reflexivity]. }
      assert (Eb : (if bytes_eqb k (bs "body") then js_body v else b) = (if bytes_eqb k (bs "body") then b' else b)).
      { destruct (bytes_eqb_spec k (bs "body")) as [->|]; [|reflexivity]. apply B1. left; reflexivity. }
      cbn [response_loop]. rewrite Em. cbn [out_bind]. rewrite Eh. cbn [out_bind]. rewrite Eb. clear Em Eh Eb.
      assert (G : forall {A} (name : bytes) (x' x : A), (~ In name (k :: map fst es) -> x' = x) -> ~ In name (map fst es) ->
         x' = if bytes_eqb k name then x' else x).
      { intros A name x' x X N. destruct (bytes_eqb_spec k name) as [->|Ne]; [reflexivity|]. apply X. intros [Z|Z]; [congruence|contradiction]. }
      apply IH; auto.
      + intros w I. apply M1. right. exact I.
      + intros w I. apply H1. right. exact I.
      + intros w I. apply B1. right. exact I.
  Qed.
End Loops.
Lemma unique_entry (es : list (bytes * jsval)) k v w : NoDup (map fst es) -> In (k, v) es -> In (k, w) es -> w = v.
Proof.
  induction es as [|[x y] es IH]; cbn [map fst]; intros ND I J; [destruct I|]. inversion ND; subst.
  destruct I as [I|I], J as [J|J]; try congruence; auto.
  - injection I as -> ->. exfalso. apply H1. apply in_map_iff. exists (k, w). auto.
  - injection J as -> ->. exfalso. apply H1. apply in_map_iff. exists (k, v). auto.
Qed.
Lemma named (es : list (bytes * jsval)) k v : In (k, v) es -> In k (map fst es).
Proof. intro I. apply in_map_iff. exists (k, v). auto. Qed.

(** C82: a request (response) object with the documented fields, in any order and
    among others, becomes the request (response) with those values. *)
Theorem C82_objects_convert :
  forall (method_ok : bytes -> bool) (es : list (bytes * jsval)), NoDup (map fst es) ->
  (forall m u hs body b, method_ok m = true ->
     has es "method" (JStr m) -> has es "url" (JStr u) -> has es "headers" (JArr (map js_header hs)) -> has es "body" body -> js_body_is body b ->
     request_from_js method_ok (JObj es) = OOk (mk_request m u hs b)) /\
  (forall s hs body b, (100 <= s <= 999)%N ->
     has es "status_code" (JNum (Z.of_N s)) -> has es "headers" (JArr (map js_header hs)) -> has es "body" body -> js_body_is body b ->
     response_from_js (JObj es) = OOk (mk_response s hs b)).
Proof.
  intros mo es ND. split.
  - intros m u hs body b M F1 F2 F3 F4 B. unfold has in *. unfold request_from_js. cbn [js_entries].
    rewrite (request_loop_ok es ND [] [] [] [] m u hs b).
    + cbn [out_bind]. rewrite M. reflexivity.
    + intros v I. exact (unique_entry es _ _ _ ND F1 I).
    + intro N. exfalso. exact (N (named _ _ _ F1)).
    + intros v I. exact (unique_entry es _ _ _ ND F2 I).
    + intro N. exfalso. exact (N (named _ _ _ F2)).
    + intros v I. rewrite (unique_entry es _ _ _ ND F3 I). apply js_headers_ok.
    + intro N. exfalso. exact (N (named _ _ _ F3)).
    + intros v I. rewrite (unique_entry es _ _ _ ND F4 I). apply js_body_ok. exact B.
    + intro N. exfalso. exact (N (named _ _ _ F4)).
  - intros s hs body b S F1 F3 F4 B. unfold has in *. unfold response_from_js. cbn [js_entries].
    rewrite (response_loop_ok es ND 0%N [] [] s hs b).
    + cbn [out_bind]. unfold status_ok. destruct (N.leb_spec 100 s); [|lia]. destruct (N.leb_spec s 999); [|lia]. reflexivity.
    + intros v I. rewrite (unique_entry es _ _ _ ND F1 I). cbn [js_u16]. destruct (Z.ltb_spec (Z.of_N s) 0); [lia|]. destruct (Z.ltb_spec 65535 (Z.of_N s)); [lia|].
      rewrite N2Z.id. reflexivity.
    + intro N. exfalso. exact (N (named _ _ _ F1)).
    + intros v I. rewrite (unique_entry es _ _ _ ND F3 I). apply js_headers_ok.
    + intro N. exfalso. exact (N (named _ _ _ F3)).
    + intros v I. rewrite (unique_entry es _ _ _ ND F4 I). apply js_body_ok. exact B.
    + intro N. exfalso. exact (N (named _ _ _ F4)).
Qed.
Print Assumptions C82_objects_convert.

(** C82: for objects that convert, the answer is that of the Rust verifier for
    the converted request and response, as an object from which the whole
    verdict can be read. *)
Definition prop_of (k : String.string) (v : jsval) : option jsval :=
  match v with JObj es => match find (fun e => bytes_eqb (fst e) (bs k)) es with Some e => Some (snd e) | None => None end | _ => None end.
Arguments prop_of k%string_scope v.
Theorem C82_same_verdict :
  forall method_ok umod cap_max checked H ple vs uri_path uri_query gunzip inflate rq rs q r canister_id now offset key min_version,
  request_from_js method_ok rq = OOk q -> response_from_js rs = OOk r ->
  let v := verify umod cap_max checked H ple vs uri_path uri_query gunzip inflate q r canister_id now offset key min_version in
  match wasm_verify method_ok umod cap_max checked H ple vs uri_path uri_query gunzip inflate rq rs canister_id now offset key min_version with
  | OOk o => exists i, v = OOk i /\ prop_of "verificationVersion" o = Some (JNum (Z.of_N (i_version i))) /\
      exists ro, prop_of "response" o = Some ro /\
        match i_response i with
        | None => ro = JUndefined
        | Some x =>
            prop_of "statusCode" ro = match v_status x with Some s => Some (JNum (Z.of_N s)) | None => None end /\
            prop_of "body" ro = Some (JBytes (v_body x)) /\ prop_of "headers" ro = Some (JArr (map js_header (v_headers x)))
        end
  | OErr => v = OErr
  | OPanic => v = OPanic
  | OFuel => v = OFuel
  end.
Proof.
  intros mo umod cap ck H ple vs up uq gz df rq rs q r cid now off key mv Q R v. unfold wasm_verify. rewrite Q, R. cbn [out_bind].
  fold v. destruct v as [i| | |]; cbn [out_bind]; try reflexivity.
  exists i. split; [reflexivity|]. split; [reflexivity|]. eexists. split; [reflexivity|].
  destruct (i_response i) as [[[s|] hs b]|]; [| |reflexivity]; repeat split.
Qed.
Print Assumptions C82_same_verdict.

(** C82 is false for arbitrary objects: the call traps, whatever else is given,
    if the method is missing or invalid, or the status code is missing or not
    between 100 and 999. *)
Theorem C82_bad_objects_trap_refuted :
  forall method_ok, method_ok [] = false ->
  (forall es, NoDup (map fst es) ->
     ~ In (bs "method") (map fst es) \/ (exists m, has es "method" (JStr m) /\ method_ok m = false) \/ (exists v, has es "method" v /\ forall m, v <> JStr m) ->
     request_from_js method_ok (JObj es) = OPanic) /\
  (forall es, NoDup (map fst es) ->
     ~ In (bs "status_code") (map fst es) \/ (exists n, has es "status_code" (JNum n) /\ ~ (100 <= n <= 999)%Z) ->
     response_from_js (JObj es) = OPanic).
Proof.
  intros mo M0. split.
  - intros es ND X. unfold request_from_js. cbn [js_entries].
    assert (G : match request_loop [] [] [] [] es with OOk (m, _, _, _) => mo m = false | OPanic => True | _ => False end).
    { assert (NE : forall o, js_string o <> OErr /\ js_string o <> OFuel) by (intros []; split; discriminate).
      assert (NH : forall l, js_headers_loop l <> OErr /\ js_headers_loop l <> OFuel).
      { induction l as [|h l [I1 I2]]; [split; discriminate|]. cbn [js_headers_loop].
        destruct (js_string (js_get 0 h)) eqn:Z1; try (apply NE in Z1; destruct Z1); cbn [out_bind]; try (split; discriminate).
        destruct (js_string (js_get 1 h)) eqn:Z2; try (apply NE in Z2; destruct Z2); cbn [out_bind]; try (split; discriminate).
        destruct (js_headers_loop l); cbn [out_bind]; split; congruence. }
      assert (L : forall es m u hs b, NoDup (map fst es) ->
        (~ In (bs "method") (map fst es) -> mo m = false) ->
        (In (bs "method") (map fst es) -> (exists m, In (bs "method", JStr m) es /\ mo m = false) \/ (exists v, In (bs "method", v) es /\ forall m, v <> JStr m)) ->
        match request_loop m u hs b es with OOk (m, _, _, _) => mo m = false | OPanic => True | _ => False end).
      { clear es ND X. induction es as [|[k v] es IH]; intros m u hs b ND X1 X2; [cbn; apply X1; intros []|].
        cbn [map fst] in *. inversion ND as [|? ? NI ND']; subst. cbn [request_loop].
        assert (Y : (~ In (bs "method") (map fst es) -> mo (match (if bytes_eqb k (bs "method") then js_string v else OOk m) with OOk x => x | _ => [] end) = false) /\
                    (In (bs "method") (map fst es) -> (exists m, In (bs "method", JStr m) es /\ mo m = false) \/ (exists v, In (bs "method", v) es /\ forall m, v <> JStr m))).
        { split.
          - intro N. destruct (bytes_eqb_spec k (bs "method")) as [->|Ne].
            + destruct X2 as [(m1 & I & Z)|(v1 & I & Z)]; [left; reflexivity| |].
              * destruct I as [I|I]; [injection I as ->; exact Z|]. exfalso. exact (N (named _ _ _ I)).
              * destruct I as [I|I]; [injection I as ->|exfalso; exact (N (named _ _ _ I))]. destruct v1; try exact M0. exfalso. eapply Z. reflexivity.
            + apply X1. intros [Z|Z]; [congruence|contradiction].
          - intro I. assert (Ne : k <> bs "method") by congruence. destruct (X2 (or_intror I)) as [(m1 & J & Z)|(v1 & J & Z)]; [left; exists m1|right; exists v1]; (split; [|exact Z]);
              (destruct J as [J|J]; [congruence|exact J]). }
        destruct Y as (Y1 & Y2).
        destruct (if bytes_eqb k (bs "method") then js_string v else OOk m) as [m1| | |] eqn:E1; cbn [out_bind].
        - destruct (if bytes_eqb k (bs "url") then js_string v else OOk u) as [u1| | |] eqn:E2; cbn [out_bind].
          + destruct (if bytes_eqb k (bs "headers") then js_headers v else OOk hs) as [h1| | |] eqn:E3; cbn [out_bind].
            * apply IH; auto.
            * destruct (bytes_eqb k (bs "headers")); [apply NH in E3; exact E3|discriminate].
            * exact I.
            * destruct (bytes_eqb k (bs "headers")); [apply NH in E3; exact E3|discriminate].
          + destruct (bytes_eqb k (bs "url")); [apply NE in E2; exact E2|discriminate].
          + exact I.
          + destruct (bytes_eqb k (bs "url")); [apply NE in E2; exact E2|discriminate].
        - destruct (bytes_eqb k (bs "method")); [apply NE in E1; exact E1|discriminate].
        - exact I.
        - destruct (bytes_eqb k (bs "method")); [apply NE in E1; exact E1|discriminate]. }
      apply L; [exact ND|intros _; exact M0|]. intro I. destruct X as [X|[X|X]]; [contradiction|left; exact X|right; exact X]. }
    destruct (request_loop [] [] [] [] es) as [[[[m u] hs] b]| | |]; try contradiction; [|reflexivity]. cbn [out_bind]. rewrite G. reflexivity.
  - intros es ND X. unfold response_from_js. cbn [js_entries].
    assert (G : match response_loop 0 [] [] es with OOk (s, _, _) => status_ok s = false | OPanic => True | _ => False end).
    { assert (NE : forall o, js_u16 o <> OErr /\ js_u16 o <> OFuel) by (intros []; split; discriminate).
      assert (NS : forall o, js_string o <> OErr /\ js_string o <> OFuel) by (intros []; split; discriminate).
      assert (NH : forall l, js_headers_loop l <> OErr /\ js_headers_loop l <> OFuel).
      { induction l as [|h l [I1 I2]]; [split; discriminate|]. cbn [js_headers_loop].
        destruct (js_string (js_get 0 h)) eqn:Z1; try (apply NS in Z1; destruct Z1); cbn [out_bind]; try (split; discriminate).
        destruct (js_string (js_get 1 h)) eqn:Z2; try (apply NS in Z2; destruct Z2); cbn [out_bind]; try (split; discriminate).
        destruct (js_headers_loop l); cbn [out_bind]; split; congruence. }
      assert (SZ : forall n, ~ (100 <= n <= 999)%Z -> exists s, js_u16 (JNum n) = OOk s /\ status_ok s = false).
      { intros n R. eexists. split; [reflexivity|]. unfold status_ok. destruct (Z.ltb_spec n 0); [reflexivity|]. destruct (Z.ltb_spec 65535 n); [reflexivity|].
        destruct (N.leb_spec 100 (Z.to_N n)); [|reflexivity]. destruct (N.leb_spec (Z.to_N n) 999); [lia|reflexivity]. }
      assert (L : forall es s hs b, NoDup (map fst es) ->
        (~ In (bs "status_code") (map fst es) -> status_ok s = false) ->
        (In (bs "status_code") (map fst es) -> exists n, In (bs "status_code", JNum n) es /\ ~ (100 <= n <= 999)%Z) ->
        match response_loop s hs b es with OOk (s, _, _) => status_ok s = false | OPanic => True | _ => False end).
      { clear es ND X. induction es as [|[k v] es IH]; intros s hs b ND X1 X2; [cbn; apply X1; intros []|].
        cbn [map fst] in *. inversion ND as [|? ? NI ND']; subst. cbn [response_loop].
        assert (Y1 : ~ In (bs "status_code") (map fst es) -> forall s1, (if bytes_eqb k (bs "status_code") then js_u16 v else OOk s) = OOk s1 -> status_ok s1 = false).
        { intros N s1. destruct (bytes_eqb_spec k (bs "status_code")) as [->|Ne].
          - destruct X2 as (n & I & Z); [left; reflexivity|]. destruct I as [I|I]; [injection I as ->|exfalso; exact (N (named _ _ _ I))].
            destruct (SZ n Z) as (s2 & E & O). congruence.
          - intro Q; injection Q as <-. apply X1. intros [Z|Z]; [congruence|contradiction]. }
        assert (Y2 : In (bs "status_code") (map fst es) -> exists n, In (bs "status_code", JNum n) es /\ ~ (100 <= n <= 999)%Z).
        { intro I. assert (Ne : k <> bs "status_code") by congruence. destruct (X2 (or_intror I)) as (n & J & Z). exists n. split; [|exact Z]. destruct J as [J|J]; [congruence|exact J]. }
        destruct (if bytes_eqb k (bs "status_code") then js_u16 v else OOk s) as [s1| | |] eqn:E1; cbn [out_bind].
        - destruct (if bytes_eqb k (bs "headers") then js_headers v else OOk hs) as [h1| | |] eqn:E3; cbn [out_bind].
          + apply IH; auto.
          + destruct (bytes_eqb k (bs "headers")); [apply NH in E3; exact E3|discriminate].
          + exact I.
          + destruct (bytes_eqb k (bs "headers")); [apply NH in E3; exact E3|discriminate].
        - destruct (bytes_eqb k (bs "status_code")); [apply NE in E1; exact E1|discriminate].
        - exact I.
        - destruct (bytes_eqb k (bs "status_code")); [apply NE in E1; exact E1|discriminate]. }
      apply L; [exact ND|reflexivity|]. intro I. destruct X as [X|X]; [contradiction|exact X]. }
    destruct (response_loop 0 [] [] es) as [[[s hs] b]| | |]; try contradiction; [|reflexivity]. cbn [out_bind]. rewrite G. reflexivity.
Qed.
Print Assumptions C82_bad_objects_trap_refuted.

Example C82_ex :
  request_from_js (fun m => negb (bytes_eqb m [])) (JObj [(bs "body", JArr [JNum 104; JNum 105]); (bs "certificate_version", JArr [JNum 2]);
     (bs "url", JStr (bs "/x")); (bs "headers", JArr [js_header (bs "a", bs "b")]); (bs "method", JStr (bs "GET"))]) =
    OOk (mk_request (bs "GET") (bs "/x") [(bs "a", bs "b")] (bs "hi")) /\
  response_from_js (JObj [(bs "headers", JArr []); (bs "body", JBytes (bs "hi"))]) = OPanic.
Proof. split; reflexivity. Qed.
