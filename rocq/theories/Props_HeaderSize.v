(** C127: how long the certificate header of a response is. *)
From Coq Require Import List Arith Lia NArith Bool.
From Verif Require Import Bytes Sha256 Text HashTree HashTreeSpec RbTree Nested NestedSpec NestedProofs Cbor CborSpec CborProofs Base64 Header HttpTypes HttpHash HttpSpec Cel V2 Wildcard WildcardSpec WildcardProofs Verify VerifySpec HttpTree HttpTreeSpec Props_Wildcard Props_HttpTree Props_Size Props_SizeHttp Props_Header Props_Cost.
Import ListNotations.
Local Open Scope nat_scope.

Lemma enc_head_length m n : length (enc_head m n) <= 9.
Proof.
  unfold enc_head. destruct (n <=? 23)%N; [cbn [length]; lia|]. destruct (n <=? 255)%N; [cbn [length]; rewrite be_enc_length; lia|].
  destruct (n <=? 65535)%N; [cbn [length]; rewrite be_enc_length; lia|]. destruct (n <=? 4294967295)%N; cbn [length]; rewrite be_enc_length; lia.
Qed.
Lemma enc_head_small m n : (n <= 23)%N -> length (enc_head m n) = 1.
Proof. intro L. unfold enc_head. apply N.leb_le in L. rewrite L. reflexivity. Qed.
Lemma enc_bytes_length b : length (enc_bytes b) <= 9 + length b.
Proof. unfold enc_bytes. rewrite app_length. assert (X := enc_head_length 2 (N.of_nat (length b))). lia. Qed.
Lemma enc_text_length b : length (enc_text b) <= 9 + length b.
Proof. unfold enc_text. rewrite app_length. assert (X := enc_head_length 3 (N.of_nat (length b))). lia. Qed.
(** a tree takes at most [11 + limit] bytes per node *)
Lemma enc_tree_length limit t : 32 <= limit -> CborSpec.hashes32 t -> (forall x, In x (strings_of t) -> length x <= limit) ->
  length (enc_tree t) <= (11 + limit) * nodes t.
Proof.
  intro L. induction t as [|a IHa b IHb|k t IH|v|h]; cbn [enc_tree nodes CborSpec.hashes32 strings_of]; intros HS ST; rewrite ?app_length, ?(enc_head_small 4), ?(enc_head_small 0) by lia.
  - nia.
  - destruct HS as [HA HB]. specialize (IHa HA (fun x I => ST x (in_or_app _ _ _ (or_introl I)))). specialize (IHb HB (fun x I => ST x (in_or_app _ _ _ (or_intror I)))). nia.
  - specialize (IH HS (fun x I => ST x (or_intror I))). assert (X := ST k (or_introl eq_refl)). assert (Y := enc_bytes_length k). nia.
  - assert (X := ST v (or_introl eq_refl)). assert (Y := enc_bytes_length v). nia.
  - assert (Y := enc_bytes_length h). nia.
Qed.
Lemma enc_strings_length limit l : (forall x, In x l -> length x <= limit) -> length (enc_strings l) <= 9 + (9 + limit) * length l.
Proof.
  intro A. unfold enc_strings. rewrite app_length. assert (X := enc_head_length 4 (N.of_nat (length l))).
  assert (Y : length (flat_map enc_text l) <= (9 + limit) * length l); [|lia]. clear X. induction l as [|a l IH]; cbn [flat_map length]; [lia|].
  rewrite app_length. assert (Z := enc_text_length a). assert (W := A a (or_introl eq_refl)). specialize (IH (fun x I => A x (or_intror I))). nia.
Qed.
Lemma header_length dc w e : 3 * length (v2_certificate_header dc w e) <= 4 * (length dc + length (enc_tree w) + length (enc_strings e)) + 192.
Proof.
  unfold v2_certificate_header. rewrite !app_length. assert (X := b64_length dc). assert (Y := b64_length (self_describe ++ enc_tree w)). assert (Z := b64_length (self_describe ++ enc_strings e)).
  rewrite app_length in Y, Z. change (length self_describe) with 3 in Y, Z.
  change (length (bs "certificate=:")) with 13. change (length (bs ":, tree=:")) with 9. change (length (bs ":, expr_path=:")) with 14. change (length (bs ":, version=2")) with 12. lia.
Qed.
Lemma witness_bytes H ops t en url w limit : (forall x, length (H x) = 32) -> 32 <= limit ->
  http_run H ops = Some t -> http_witness H t en url = OOk w ->
  (forall e x, In (HInsert e) ops -> In x (entry_tree_path e) -> length x <= limit) ->
  length (enc_tree w) <= (11 + limit) * nodes w.
Proof.
  intros H32 L R W ST. assert (X := witness_shows H ops t en url R). rewrite W in X. destruct X as (m & -> & P & _).
  apply enc_tree_length; [exact L| |].
  - cbn [CborSpec.hashes32]. exact (prunes32 H _ _ H32 (nhtree_full H t) P).
  - intros x [<-|I]; [cbn; lia|]. apply (strings_prunes H _ _ P) in I. destruct (tree_strings H ops t x R I) as [->|(e & Ie & Ix)]; [cbn; lia|exact (ST e x Ie Ix)].
Qed.

Theorem C127_certificate_header_length :
  forall (H : bytes -> bytes) (ops : list http_op) (t : ntree) (en : entry) (request_url data_certificate : bytes) (w : htree)
         (certified here : list (list bytes)) (limit : nat),
  (forall x, length (H x) = 32) -> 32 <= limit ->
  http_run H ops = Some t -> http_witness H t en request_url = OOk w ->
  (* the entry answers the request *)
  In (HInsert en) ops -> answers ops (en_path en) request_url -> unreserved (en_path en) request_url ->
  (* no path segment and no hash in the tree is longer than [limit] *)
  (forall e segment, In (HInsert e) ops -> In segment (entry_tree_path e) -> length segment <= limit) ->
  (* where entries are: all the tree holds, and those at the path of the response *)
  (forall e, held ops e -> In (entry_tree_path e) certified) ->
  (forall e, held ops e -> is_prefix (path_tree_path (en_path en)) (entry_tree_path e) ->
     In (entry_tree_path e) here /\ length (entry_tree_path e) <= length (path_tree_path (en_path en)) + 3) ->
  let segments := length (request_parts request_url) in
  exists height, 2 ^ height <= (length certified + 1) ^ 2 /\
  (* the header of the response: base64 takes four characters for three bytes *)
  3 * length (v2_certificate_header data_certificate w (expr_path (en_path en))) <=
    4 * (length data_certificate +
         (11 + limit) * (2 + (2 * segments + 5) * ((segments + 4) * (5 * height + 2) + 1) + 7 * length here) +
         (9 + limit) * (segments + 2)) + 228.
Proof.
  intros H ops t en url dc w cert here limit H32 L R W IE A UR ST CE HE n.
  destruct (C114_http_witness_is_logarithmic H ops t en url w cert here R W A UR CE HE) as (h & Hh & N). fold n in N.
  exists h. split; [exact Hh|].
  assert (X := witness_bytes H ops t en url w limit H32 L R W ST).
  assert (Y : (11 + limit) * nodes w <= (11 + limit) * (2 + (2 * n + 5) * ((n + 4) * (5 * h + 2) + 1) + 7 * length here)) by (apply Nat.mul_le_mono_l; exact N).
  assert (Z : length (enc_strings (expr_path (en_path en))) <= 9 + (9 + limit) * (n + 2)).
  { destruct (C53_expr_path_is_verifier_path []) as (_ & _ & P & Q). rewrite P. specialize (Q en). destruct Q as (l & Q & _).
    etransitivity; [apply (enc_strings_length limit)|].
    - intros x [<-|I]; [cbn; lia|]. apply (ST en x IE). rewrite Q. apply in_or_app. left. exact I.
    - cbn [length]. assert (K : length (path_tree_path (en_path en)) <= n + 1); [|nia].
      destruct (en_path en) as [p|p]; unfold path_tree_path; rewrite path_to_segments_parts, app_length; cbn [length].
      + cbn [answers] in A. rewrite A. fold n. lia.
      + destruct A as (M & _ & _). apply matches_short in M. fold n in M. lia. }
  assert (T := header_length dc w (expr_path (en_path en))). lia.
Qed.
Print Assumptions C127_certificate_header_length.
Example C127_hypotheses : exists w, http_run sha256 exh_ops = Some exh_tree /\ http_witness sha256 exh_tree exh_w (bs "/zz/y") = OOk w /\
  In (HInsert exh_w) exh_ops /\ answers exh_ops (en_path exh_w) (bs "/zz/y") /\ unreserved (en_path exh_w) (bs "/zz/y") /\
  (forall e segment, In (HInsert e) exh_ops -> In segment (entry_tree_path e) -> length segment <= 32) /\
  (forall e, held exh_ops e -> In (entry_tree_path e) (npaths exh_tree)) /\
  length (v2_certificate_header [] w (expr_path (en_path exh_w))) = 268.
Proof.
  destruct C114_hypotheses as (w & E1 & E2 & A & U & P & _). exists w. split; [exact E1|]. split; [exact E2|].
  split; [cbn; auto|]. split; [exact A|]. split; [exact U|]. split; [|split; [exact P|]].
  - assert (F : forallb (fun o => match o with HInsert e => forallb (fun s => length s <=? 32) (entry_tree_path e) | _ => true end) exh_ops = true) by (vm_compute; reflexivity).
    rewrite forallb_forall in F. intros e s I J. specialize (F _ I). cbn beta iota in F. rewrite forallb_forall in F. apply Nat.leb_le, F, J.
  - assert (X : match http_witness sha256 exh_tree exh_w (bs "/zz/y") with OOk w => length (v2_certificate_header [] w (expr_path (en_path exh_w))) | _ => 0 end = 268) by (vm_compute; reflexivity).
    rewrite E2 in X. exact X.
Qed.
