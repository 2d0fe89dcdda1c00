(** A hash function for concrete cases.  The theorems hold for every function with results of 32 bytes, and
    the cases only show that their hypotheses can be met; this function, unlike SHA-256, is cheap to
    evaluate in Coq's kernel (and in coqchk, which has no compiled evaluator). *)
From Coq Require Import List NArith Bool.
From Verif Require Import Bytes.
Import ListNotations.
Local Open Scope N_scope.
Definition low_byte (n : N) : byte := match Byte.of_N (N.land n 255) with Some b => b | None => x00 end.
Definition toy_step (a : N) (b : byte) : N := N.land (a + 4 * a + b2n b + 1) 0xffffffff.
Definition toy (x : bytes) : bytes :=
  let a := fold_left toy_step x 5381 in
  low_byte a :: low_byte (N.shiftr a 8) :: low_byte (N.shiftr a 16) :: low_byte (N.shiftr a 24) :: repeat x2a 28.
Lemma toy_length x : length (toy x) = 32%nat.
Proof. reflexivity. Qed.
Example toy_differs : toy (bs "abc") <> toy (bs "acb").
Proof. intro Z; vm_compute in Z; discriminate Z. Qed.
