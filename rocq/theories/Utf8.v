(** UTF-8.  Rust strings are modelled by their UTF-8 bytes; [String::from_utf8]
    (core::str::from_utf8, run_utf8_validation) accepts exactly the byte strings
    that [utf8_decode] decodes.  Not code of the repository: the semantics of the
    Rust standard library that the repository's code relies on. *)
From Coq Require Import List Arith NArith Lia Bool.
From Verif Require Import Bytes.
Import ListNotations.
Local Open Scope N_scope.

Definition in_range (lo hi : N) (b : byte) : bool := (lo <=? b2n b) && (b2n b <=? hi).
Definition cont (b : byte) : bool := in_range 128 191 b.

(** code points *)
Definition cp2 (a b : byte) : N := (b2n a - 192) * 64 + (b2n b - 128).
Definition cp3 (a b c : byte) : N := (b2n a - 224) * 4096 + (b2n b - 128) * 64 + (b2n c - 128).
Definition cp4 (a b c d : byte) : N :=
  (b2n a - 240) * 262144 + (b2n b - 128) * 4096 + (b2n c - 128) * 64 + (b2n d - 128).

Definition ok2 (a b : byte) : bool := in_range 194 223 a && cont b.
Definition ok3 (a b c : byte) : bool :=
  ((in_range 224 224 a && in_range 160 191 b) || (in_range 225 236 a && cont b)
   || (in_range 237 237 a && in_range 128 159 b) || (in_range 238 239 a && cont b)) && cont c.
Definition ok4 (a b c d : byte) : bool :=
  ((in_range 240 240 a && in_range 144 191 b) || (in_range 241 243 a && cont b)
   || (in_range 244 244 a && in_range 128 143 b)) && cont c && cont d.

(** The characters of a string ([chars()]); [None] when it is not UTF-8. *)
Fixpoint utf8_decode (s : bytes) : option (list N) :=
  match s with
  | [] => Some []
  | a :: s1 =>
      if b2n a <? 128 then option_map (cons (b2n a)) (utf8_decode s1) else
      match s1 with
      | [] => None
      | b :: s2 =>
          if ok2 a b then option_map (cons (cp2 a b)) (utf8_decode s2) else
          match s2 with
          | [] => None
          | c :: s3 =>
              if ok3 a b c then option_map (cons (cp3 a b c)) (utf8_decode s3) else
              match s3 with
              | [] => None
              | d :: s4 =>
                  if ok4 a b c d then option_map (cons (cp4 a b c d)) (utf8_decode s4) else None
              end
          end
      end
  end.
Definition utf8_valid (s : bytes) : bool :=
  match utf8_decode s with Some _ => true | None => false end.

Definition is_ascii (s : bytes) : bool := forallb (fun b => b2n b <? 128) s.
Lemma ascii_decode s : is_ascii s = true -> utf8_decode s = Some (map b2n s).
Proof.
  induction s as [|a s IH]; [reflexivity|]. simpl. intro E. apply andb_true_iff in E. destruct E as [E1 E2].
  rewrite E1, IH by exact E2. reflexivity.
Qed.
Lemma ascii_utf8 s : is_ascii s = true -> utf8_valid s = true.
Proof. intro E. unfold utf8_valid. rewrite ascii_decode by exact E. reflexivity. Qed.

Example utf8_ex1 : utf8_decode (unhex "c3a9e282acf09f9880") = Some [233; 8364; 128512].
Proof. reflexivity. Qed.
Example utf8_ex2 : utf8_valid (unhex "c080") = false /\ utf8_valid (unhex "eda080") = false /\ utf8_valid (unhex "f4908080") = false.
Proof. repeat split. Qed.
