(** Model of /repo/packages/ic-certificate-verification/src/signature_verification/{mod,signature_cache}.rs. *)
From Coq Require Import List Arith NArith Lia Bool.
From Verif Require Import Bytes.
Import ListNotations.

(** The cache behind the mutex.  Its source (crate [cached] 0.47, [SizedCache])
    is not in /repo, so verification is modelled over any implementation: an
    abstract state with [contents] and the two operations used, [cache_get]
    (returns whether the key was there, may reorder) and [cache_set]. *)
Record cache_impl := mk_impl {
  st : Type;
  contents : st -> list bytes;
  get : bytes -> st -> bool * st;
  set : bytes -> st -> st
}.
(** All that verification relies on: operations never make up keys, and a hit is a key held. *)
Definition sound_impl (I : cache_impl) : Prop :=
  (forall k s, fst (get I k s) = true -> In k (contents I s)) /\
  (forall k s x, In x (contents I (snd (get I k s))) -> In x (contents I s)) /\
  (forall k s x, In x (contents I (set I k s)) -> x = k \/ In x (contents I s)).

(** A call of [verify_signature]: public key, signature, message. *)
Record job := mk_job { j_pk : bytes; j_sig : bytes; j_msg : bytes }.

Section Cache.
  Variable H : bytes -> bytes.                       (* SHA-256 *)
  Variable bls : bytes -> bytes -> bytes -> bool.    (* core_verify(sig, msg, pk) == BLS_OK, as pk sig msg *)

  (** signature_cache.rs:28-38 [SignatureCacheEntry::new] *)
  Definition entry (j : job) : bytes := H (j_pk j ++ j_sig j ++ j_msg j).
  Definition bls_verdict (j : job) : bool := bls (j_pk j) (j_sig j) (j_msg j).

  (** signature_verification/mod.rs:13-33 [verify_signature], run alone *)
  Definition verify_signature (I : cache_impl) (j : job) (s : st I) : bool * st I :=
    let (hit, s1) := get I (entry j) s in
    if hit then (true, s1)
    else if negb (bls_verdict j) then (false, s1)
    else (true, set I (entry j) s1).

  (** The same with other threads running: the lock is held only during
      [contains] and during [insert], so a call has three points at which
      others may intervene. *)
  Inductive pc := Start | Missed | Checked | Done (verdict : bool).
  (** one atomic step of the call [j] at point [p] *)
  Definition step1 (I : cache_impl) (j : job) (p : pc) (s : st I) : option (pc * st I) :=
    match p with
    | Start => let (hit, s1) := get I (entry j) s in Some (if hit then Done true else Missed, s1)
    | Missed => Some (if bls_verdict j then Checked else Done false, s)
    | Checked => Some (Done true, set I (entry j) s)
    | Done _ => None
    end.
  Definition pool := list (job * pc).
  Inductive step (I : cache_impl) : pool * st I -> pool * st I -> Prop :=
  | Step l j p r s p' s' : step1 I j p s = Some (p', s') ->
      step I (l ++ (j, p) :: r, s) (l ++ (j, p') :: r, s').
  (** any number of steps of any threads in any order *)
  Inductive steps (I : cache_impl) : pool * st I -> pool * st I -> Prop :=
  | StepsRefl x : steps I x x
  | StepsCons x y z : steps I x y -> step I y z -> steps I x z.

  (** calls one after the other *)
  Fixpoint run (I : cache_impl) (l : list job) (s : st I) : list bool * st I :=
    match l with
    | [] => ([], s)
    | j :: r => let (v, s1) := verify_signature I j s in
                let (vs, s2) := run I r s1 in (v :: vs, s2)
    end.
End Cache.

(** SizedCache of crate cached 0.47: keys from most to least recently used.
    [cache_get] moves a present key to the front.  [cache_set] first removes the
    last key when the cache is full, then puts an absent key in front; a present
    key keeps its place (its value is unit). *)
Definition lru (cap : nat) : cache_impl :=
  mk_impl (list bytes) (fun s => s)
    (fun k s => if existsb (bytes_eqb k) s then (true, k :: filter (fun x => negb (bytes_eqb x k)) s) else (false, s))
    (fun k s => let s1 := if cap <=? length s then removelast s else s in
                if existsb (bytes_eqb k) s1 then s1 else k :: s1).
(** signature_cache.rs:70 *)
Definition size_of_global_cache : nat := N.to_nat 100000.
