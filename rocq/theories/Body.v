(** packages/ic-response-verification/src/verification/body.rs: reading a compressed body to its end. *)
From Coq Require Import List Arith NArith.
From Verif Require Import Bytes Text Cbor.
Import ListNotations.
Local Open Scope nat_scope.

(** One call of [Read::read] with the buffer: an io error, or how many bytes, the buffer afterwards and the
    decoder afterwards. The decoders are flate2's, not in /repo: here any state with any [read]. *)
Inductive read_result (D : Type) := ReadErr | ReadOk (count : nat) (buffer : bytes) (next : D).
Arguments ReadErr {D}. Arguments ReadOk {D}.
(** body.rs:5 [MAX_CHUNK_SIZE_TO_DECOMPRESS] *)
Definition chunk_size : nat := 1024.

Section Reader.
  Context {D : Type} (read : D -> bytes -> read_result D).
  (** body.rs:19-27 the loop of [body_from_decoder]. [&buffer[..bytes]] panics beyond the end of the buffer.
      [fuel] bounds the number of iterations; the loop in the code has no bound ([OFuel]: still reading). *)
  Fixpoint read_loop (fuel : nat) (decoder : D) (buffer decoded : bytes) : out bytes :=
    match fuel with
    | 0 => OFuel
    | S fuel =>
        match read decoder buffer with
        | ReadErr => OErr
        | ReadOk 0 _ _ => OOk decoded
        | ReadOk n buffer' next =>
            if length buffer' <? n then OPanic else read_loop fuel next buffer' (decoded ++ firstn n buffer')
        end
    end.
  (** body.rs:15-18 [body_from_decoder]: [Vec::new()], [[0u8; MAX_CHUNK_SIZE_TO_DECOMPRESS]] *)
  Definition body_from_decoder (fuel : nat) (decoder : D) : out bytes := read_loop fuel decoder (repeat (n2b 0%N) chunk_size) [].
End Reader.

(** body.rs:7-13 [decode_body], with the decoders [GzDecoder::new], [DeflateDecoder::new] and their [read] *)
Definition decode_body_loop {G F : Type} (gz_new : bytes -> G) (gz_read : G -> bytes -> read_result G)
    (df_new : bytes -> F) (df_read : F -> bytes -> read_result F) (fuel : nat) (body : bytes) (encoding : option bytes) : out bytes :=
  match encoding with
  | Some e => if bytes_eqb e (bs "gzip") then body_from_decoder gz_read fuel (gz_new body)
              else if bytes_eqb e (bs "deflate") then body_from_decoder df_read fuel (df_new body)
              else OOk body
  | None => OOk body
  end.
