(** The reader of certification expressions of Cel.v with a counter: every call of
    [cel_value] (parser.rs:148-161) adds one. *)
From Coq Require Import List Arith NArith Bool.
From Verif Require Import Bytes Text Cbor Cel.
Import ListNotations.
Local Open Scope nat_scope.

Definition c_pres (A : Type) := (nat * pres A)%type.
(** as [drop_separators]: parser.rs:37-52 *)
Definition c_drop {A} (o c : byte) (p : bytes -> c_pres A) (s : bytes) : c_pres A :=
  match pchar o (skip_ws s) with
  | None => (0, PErr)
  | Some s1 => (fst (p s1), cut match snd (p s1) with
                   | POk v s2 => match pchar c (skip_ws s2) with Some s3 => POk v s3 | None => PErr end
                   | r => r
                   end)
  end.
(** as [sep_loop], [sep_list]: nom 7.1.3 [separated_list0] *)
Fixpoint c_sep_loop {A} (p : bytes -> c_pres A) (g : nat) (s : bytes) : c_pres (list A) :=
  match g with
  | O => (0, PFuel)
  | S g' =>
      match pchar "," (skip_ws s) with
      | None => (0, POk [] s)
      | Some s1 =>
          match snd (p s1) with
          | PErr => (fst (p s1), POk [] s)
          | PFail => (fst (p s1), PFail)
          | PFuel => (fst (p s1), PFuel)
          | POk v s2 => let r := c_sep_loop p g' s2 in
              (fst (p s1) + fst r, match snd r with POk vs s3 => POk (v :: vs) s3 | PErr => PErr | PFail => PFail | PFuel => PFuel end)
          end
      end
  end.
Definition c_sep_list {A} (p : bytes -> c_pres A) (s : bytes) : c_pres (list A) :=
  match snd (p s) with
  | PErr => (fst (p s), POk [] s)
  | PFail => (fst (p s), PFail)
  | PFuel => (fst (p s), PFuel)
  | POk v s1 => let r := c_sep_loop p (S (length s1)) s1 in
      (fst (p s) + fst r, match snd r with POk vs s2 => POk (v :: vs) s2 | PErr => PErr | PFail => PFail | PFuel => PFuel end)
  end.
(** as [key_value]: parser.rs:97-108 *)
Definition c_key_value (p : bytes -> c_pres cv) (s : bytes) : c_pres (bytes * cv) :=
  let (k, s1) := ident (skip_ws s) in
  match pchar ":" (skip_ws s1) with
  | None => (0, PErr)
  | Some s2 => (fst (p s2), match snd (p s2) with POk v s3 => POk (k, v) s3 | PErr => PErr | PFail => PFail | PFuel => PFuel end)
  end.
Definition c_pmap {A B} (f : A -> B) (r : c_pres A) : c_pres B := (fst r, pmap f (snd r)).
(** nom [alt]: the alternatives are tried in turn, and what the failed ones cost counts *)
Definition c_alt {A} (r1 r2 : c_pres A) : c_pres A := match snd r1 with PErr => (fst r1 + fst r2, snd r2) | _ => r1 end.
(** as [cel_value]: parser.rs:80-161 *)
Fixpoint c_cel_value (fuel : nat) (s : bytes) : c_pres cv :=
  match fuel with
  | O => (0, PFuel)
  | S f =>
      let s0 := skip_ws s in
      let object := let (n, s1) := ident s0 in
        c_pmap (fun l => CvObject n (collect l)) (c_drop "{" "}" (c_sep_list (c_key_value (c_cel_value f))) s1) in
      let function := let (n, s1) := ident s0 in
        c_pmap (CvFunction n) (c_drop "(" ")" (c_sep_list (c_cel_value f)) s1) in
      let array := c_pmap CvArray (c_drop "[" "]" (c_sep_list (c_cel_value f)) s0) in
      let string := c_pmap CvString (c_drop x22 x22 (fun i => (0, let (a, b) := parse_str i in POk a b)) s0) in
      let r := c_alt object (c_alt function (c_alt array string)) in
      (1 + fst r, snd r)
  end.
(** as [parse_cel_expression]: parser.rs:163-170; the number of calls, and the result *)
Definition c_parse_cel (s : bytes) : nat * option cv :=
  (fst (c_cel_value (S (length s)) s), match snd (c_cel_value (S (length s)) s) with POk v _ => Some v | _ => None end).
