(** C130: decoding a body depends on what the decoder produces, not on how it hands it out. *)
From Coq Require Import List Arith Lia NArith Bool.
From Verif Require Import Bytes Text Cbor Verify Body.
Import ListNotations.
Local Open Scope nat_scope.

(** ** Specification *)
(** The contract of [std::io::Read]: at most as many bytes as the buffer holds are written, at its front. *)
Definition keeps_contract {D} (read : D -> bytes -> read_result D) : Prop :=
  forall d buf n buf' d', read d buf = ReadOk n buf' d' -> n <= length buf /\ length buf' = length buf /\ skipn n buf' = skipn n buf.
(** what [decoder] hands out when given buffers of [size] bytes, whatever is in them: chunk after chunk, then the end or an error *)
Inductive hands_out {D} (read : D -> bytes -> read_result D) (size : nat) : D -> list bytes -> bool -> Prop :=
| ho_end d : (forall buf, length buf = size -> exists buf' d', read d buf = ReadOk 0 buf' d') -> hands_out read size d [] true
| ho_error d : (forall buf, length buf = size -> read d buf = ReadErr) -> hands_out read size d [] false
| ho_chunk d d' chunk l fine : chunk <> [] ->
    (forall buf, length buf = size -> exists buf', read d buf = ReadOk (length chunk) buf' d' /\ firstn (length chunk) buf' = chunk) ->
    hands_out read size d' l fine -> hands_out read size d (chunk :: l) fine.

Lemma loop_spec {D} (read : D -> bytes -> read_result D) d l fine : keeps_contract read -> hands_out read chunk_size d l fine ->
  forall fuel buf dec, length buf = chunk_size -> length l < fuel ->
  read_loop read fuel d buf dec = if fine then OOk (dec ++ concat l) else OErr.
Proof.
  intros K A. induction A as [d E|d E|d d' c l fine NE E A IH]; intros fuel buf dec L F; (destruct fuel as [|fuel]; [lia|]); cbn [read_loop].
  - destruct (E buf L) as (b' & d' & ->). cbn [concat]. rewrite app_nil_r. reflexivity.
  - rewrite (E buf L). reflexivity.
  - destruct (E buf L) as (b' & R & FN). assert (R' := R). apply K in R. destruct R as (Ln & Lb & _). rewrite R'.
    destruct (length c) as [|n] eqn:C; [destruct c; [congruence|discriminate C]|].
    destruct (Nat.ltb_spec (length b') (S n)) as [X|X]; [lia|]. rewrite IH by (cbn [length] in F; lia). rewrite FN. cbn [concat]. rewrite app_assoc. reflexivity.
Qed.

Theorem C130_body_is_what_the_decoder_produces :
  forall (D : Type) (read : D -> bytes -> read_result D) (decoder : D), keeps_contract read ->
  (* read to the end: everything handed out, in order, once *)
  (forall chunks, hands_out read 1024 decoder chunks true -> forall fuel, length chunks < fuel -> body_from_decoder read fuel decoder = OOk (concat chunks)) /\
  (* an error after any number of chunks is an error, never a shorter body *)
  (forall chunks, hands_out read 1024 decoder chunks false -> forall fuel, length chunks < fuel -> body_from_decoder read fuel decoder = OErr) /\
  (* never a panic *)
  (forall fuel, body_from_decoder read fuel decoder <> OPanic).
Proof.
  change 1024 with chunk_size.
  intros D read d K. split; [|split].
  - intros l A fuel F. unfold body_from_decoder. rewrite (loop_spec read d l true K A) by (try exact F; apply repeat_length). reflexivity.
  - intros l A fuel F. unfold body_from_decoder. rewrite (loop_spec read d l false K A) by (try exact F; apply repeat_length). reflexivity.
  - intro fuel. unfold body_from_decoder. assert (L : length (repeat (n2b 0%N) chunk_size) = chunk_size) by apply repeat_length. revert L. generalize (repeat (n2b 0%N) chunk_size) (@nil byte). revert d.
    induction fuel as [|fuel IH]; intros d b dec L; cbn [read_loop]; [discriminate|]. destruct (read d b) as [|n b' d'] eqn:R; [discriminate|].
    apply K in R. destruct n as [|n]; [discriminate|]. destruct (Nat.ltb_spec (length b') (S n)) as [X|X]; [lia|]. apply IH. lia.
Qed.
Print Assumptions C130_body_is_what_the_decoder_produces.
(** two decoders, or the same data cut differently: the same body *)
Theorem C130_chunking_is_invisible :
  forall (D E : Type) (read : D -> bytes -> read_result D) (read' : E -> bytes -> read_result E) (d : D) (e : E) (l l' : list bytes),
  keeps_contract read -> keeps_contract read' ->
  hands_out read chunk_size d l true -> hands_out read' chunk_size e l' true ->
  (concat l = concat l' <-> exists fuel b, body_from_decoder read fuel d = OOk b /\ body_from_decoder read' fuel e = OOk b).
Proof.
  intros D E read read' d e l l' K K' A A'. destruct (C130_body_is_what_the_decoder_produces D read d K) as (X & _). destruct (C130_body_is_what_the_decoder_produces E read' e K') as (Y & _).
  split.
  - intro Z. exists (S (length l + length l')), (concat l). rewrite (X l A), (Y l' A') by lia. rewrite Z. auto.
  - intros (fuel & b & E1 & E2). assert (M : forall T (rd : T -> bytes -> read_result T) s buf dec m k r, read_loop rd m s buf dec = OOk r -> read_loop rd (m + k) s buf dec = OOk r).
    { intros T rd s buf dec m. revert s buf dec. induction m as [|m IH]; intros s buf dec k r Q; cbn [read_loop Nat.add] in *; [discriminate Q|].
      destruct (rd s buf) as [|n b' s']; [exact Q|]. destruct n as [|n]; [exact Q|]. destruct (length b' <? S n); [exact Q|]. apply IH. exact Q. }
    apply (M _ _ _ _ _ _ (S (length l + length l'))) in E1, E2. fold (body_from_decoder read (fuel + S (length l + length l')) d) in E1. fold (body_from_decoder read' (fuel + S (length l + length l')) e) in E2.
    rewrite (X l A) in E1 by lia. rewrite (Y l' A') in E2 by lia. congruence.
Qed.
Print Assumptions C130_chunking_is_invisible.

(** only the two encodings, written exactly so; this is the decoding the verification model uses *)
Theorem C130_other_encodings_are_left_alone :
  forall (G F : Type) (gz_new : bytes -> G) gz_read (df_new : bytes -> F) df_read (body : bytes) (encoding : option bytes),
  keeps_contract gz_read -> keeps_contract df_read ->
  (encoding <> Some (bs "gzip") -> encoding <> Some (bs "deflate") -> forall fuel, decode_body_loop gz_new gz_read df_new df_read fuel body encoding = OOk body) /\
  (forall gunzip inflate,
     (* [gunzip], [inflate] say what the decoders hand out *)
     (match gunzip body with Some d => exists l, d = concat l /\ hands_out gz_read chunk_size (gz_new body) l true | None => exists l, hands_out gz_read chunk_size (gz_new body) l false end) ->
     (match inflate body with Some d => exists l, d = concat l /\ hands_out df_read chunk_size (df_new body) l true | None => exists l, hands_out df_read chunk_size (df_new body) l false end) ->
     exists enough, forall fuel, enough <= fuel -> decode_body_loop gz_new gz_read df_new df_read fuel body encoding = decode_body gunzip inflate body encoding).
Proof.
  intros G F gn gr dn dr body enc KG KF. split.
  - intros A B fuel. unfold decode_body_loop. destruct enc as [e|]; [|reflexivity]. destruct (bytes_eqb_spec e (bs "gzip")) as [->|_]; [congruence|]. destruct (bytes_eqb_spec e (bs "deflate")) as [->|_]; [congruence|reflexivity].
  - intros gz df A B. unfold decode_body_loop, decode_body. destruct enc as [e|]; [|exists 0; reflexivity].
    destruct (C130_body_is_what_the_decoder_produces G gr (gn body) KG) as (G1 & G2 & _). destruct (C130_body_is_what_the_decoder_produces F dr (dn body) KF) as (F1 & F2 & _).
    destruct (bytes_eqb e (bs "gzip")); [|destruct (bytes_eqb e (bs "deflate")); [|exists 0; reflexivity]].
    + destruct (gz body) as [d|]; [destruct A as (l & -> & A)|destruct A as (l & A)]; exists (S (length l)); intros fuel L; [rewrite (G1 l A) by lia|rewrite (G2 l A) by lia]; reflexivity.
    + destruct (df body) as [d|]; [destruct B as (l & -> & B)|destruct B as (l & B)]; exists (S (length l)); intros fuel L; [rewrite (F1 l B) by lia|rewrite (F2 l B) by lia]; reflexivity.
Qed.
Print Assumptions C130_other_encodings_are_left_alone.

(** a decoder handing out given pieces, stopping with an error if [bad] *)
Definition put (c buf : bytes) : bytes := firstn (length buf) c ++ skipn (length (firstn (length buf) c)) buf.
Definition pieces_read (bad : bool) (d : list bytes) (buf : bytes) : read_result (list bytes) :=
  match d with
  | [] => if bad then ReadErr else ReadOk 0 buf []
  | c :: r => ReadOk (length (firstn (length buf) c)) (put c buf) (if length buf <? length c then skipn (length buf) c :: r else r)
  end.
Lemma pieces_contract bad : keeps_contract (pieces_read bad).
Proof.
  intros d buf n buf' d' E. destruct d as [|c r]; cbn [pieces_read] in E.
  - destruct bad; [discriminate E|]. injection E as <- <- <-. split; [lia|]. auto.
  - injection E as <- <- _. unfold put. assert (L := firstn_length (length buf) c). split; [lia|]. split.
    + rewrite app_length, skipn_length. lia.
    + rewrite skipn_app, skipn_all2, Nat.sub_diag by lia. reflexivity.
Qed.
Lemma pieces_out bad l : Forall (fun c => c <> [] /\ length c <= chunk_size) l -> hands_out (pieces_read bad) chunk_size l l (negb bad).
Proof.
  induction 1 as [|c l [NE L] _ IH].
  - destruct bad; cbn [negb].
    + apply ho_error. reflexivity.
    + apply ho_end. intros buf _. exists buf, []. reflexivity.
  - apply (ho_chunk _ _ _ l c); [exact NE| |exact IH]. intros buf LB. exists (put c buf). cbn [pieces_read]. rewrite LB, (firstn_all2 c L).
    destruct (Nat.ltb_spec chunk_size (length c)) as [X|_]; [lia|]. split; [reflexivity|]. unfold put. rewrite LB, !(firstn_all2 c L), firstn_app, Nat.sub_diag, firstn_all, app_nil_r. reflexivity.
Qed.
Example C130_hypotheses : keeps_contract (pieces_read false) /\
  hands_out (pieces_read false) chunk_size [bs "ab"; bs "cde"] [bs "ab"; bs "cde"] true /\ hands_out (pieces_read false) chunk_size [bs "abcd"; bs "e"] [bs "abcd"; bs "e"] true /\
  hands_out (pieces_read true) chunk_size [bs "ab"] [bs "ab"] false /\
  body_from_decoder (pieces_read false) 3 [bs "ab"; bs "cde"] = OOk (bs "abcde").
Proof.
  split; [apply pieces_contract|]. split; [apply (pieces_out false)|split; [apply (pieces_out false)|split; [apply (pieces_out true)|vm_compute; reflexivity]]];
  repeat (apply Forall_cons || apply Forall_nil); (split; [discriminate|]); apply Nat.leb_le; vm_compute; reflexivity.
Qed.
(** there is no limit: a body decodes to whatever size its decoder produces, and one that keeps producing is read for ever *)
Theorem C130_bounded_work_refuted :
  (* an endless decoder: no number of iterations suffices *)
  (exists read : unit -> bytes -> read_result unit, keeps_contract read /\ forall fuel, body_from_decoder read fuel tt = OFuel) /\
  (* for every size there is a decoder whose body of that size is read in full *)
  (forall n : nat, exists (D : Type) (read : D -> bytes -> read_result D) (d : D) (fuel : nat) (b : bytes),
     keeps_contract read /\ body_from_decoder read fuel d = OOk b /\ length b = n).
Proof.
  split.
  - exists (fun _ buf => ReadOk (if 0 <? length buf then 1 else 0) buf tt). split.
    + intros d buf n buf' d' E. injection E as <- <- _. split; [|auto]. destruct (Nat.ltb_spec 0 (length buf)); lia.
    + intro fuel. unfold body_from_decoder. assert (L : 0 < length (repeat (n2b 0%N) chunk_size)) by (rewrite repeat_length; apply Nat.ltb_lt; vm_compute; reflexivity).
      revert L. generalize (repeat (n2b 0%N) chunk_size) (@nil byte). induction fuel as [|fuel IH]; intros b dec L; cbn [read_loop]; [reflexivity|].
      assert (L' := L). apply Nat.ltb_lt in L'. rewrite L'. destruct (Nat.ltb_spec (length b) 1) as [X|_]; [lia|]. apply IH. exact L.
  - intro n. exists (list bytes), (pieces_read false), (repeat (bs "x") n), (S n), (concat (repeat (bs "x") n)).
    split; [apply pieces_contract|]. split.
    + destruct (C130_body_is_what_the_decoder_produces _ (pieces_read false) (repeat (bs "x") n) (pieces_contract false)) as (X & _). apply X; [|rewrite repeat_length; lia].
      apply (pieces_out false). apply Forall_forall. intros c I. apply repeat_spec in I. subst c. split; [discriminate|]. apply Nat.leb_le. vm_compute. reflexivity.
    + induction n as [|n IH]; [reflexivity|]. cbn [repeat concat]. rewrite app_length, IH. reflexivity.
Qed.
Print Assumptions C130_bounded_work_refuted.
