(** The work done by [insert], [modify] and [delete] of
    packages/ic-certification/src/rb_tree/mod.rs: the same functions as in
    RbTree.v, with a counter that goes up by one for every node looked at
    (every comparison with a key, every step to a child) and by one for every
    subtree hash recomputed ([update_subtree_hash], mod.rs:171-173, and
    [Node::new], mod.rs:106-117). *)
From Coq Require Import List NArith Bool.
From Verif Require Import Bytes HashTree RbTree.
Import ListNotations.
Local Open Scope nat_scope.

(** A result and the work done for it; [None] is a panic, as in RbTree.v. *)
Definition cost (A : Type) := option (A * nat).
Definition cret {A} (a : A) : cost A := Some (a, 0).
Definition cbind {A B} (o : cost A) (f : A -> cost B) : cost B :=
  match o with
  | Some (a, n) => match f a with Some (b, m) => Some (b, n + m) | None => None end
  | None => None
  end.
Definition tick {A} (o : cost A) : cost A :=
  match o with Some (a, n) => Some (a, S n) | None => None end.
Notation "'cdo' x <- o ; e" := (cbind o (fun x => e)) (at level 60, x name, o at level 59, right associativity).

Section RbCost.
  Variable H : bytes -> bytes.
  Variable V : Type.
  Variable vhash : V -> bytes.
  Notation rb := (rb V).

  (** mod.rs:171-173 [update_subtree_hash]: one hash recomputed *)
  Definition c_upd (c : color) (l : rb) (k : bytes) (v : V) (r : rb) : cost rb :=
    tick (cret (upd H V vhash c l k v r)).

  (** mod.rs:922-937 [rotate_right] *)
  Definition c_rotate_right (h : rb) : cost rb :=
    match h with
    | T c (T Red xl xk xv xr _) k v r _ =>
        cdo y <- c_upd Red xr k v r; c_upd c xl xk xv y
    | _ => None
    end.

  (** mod.rs:939-954 [rotate_left] *)
  Definition c_rotate_left (h : rb) : cost rb :=
    match h with
    | T c l k v (T Red xl xk xv xr _) _ =>
        cdo y <- c_upd Red l k v xl; c_upd c y xk xv xr
    | _ => None
    end.

  (** mod.rs:956-960 [flip_colors] recomputes nothing. *)
  Definition c_flip_colors (h : rb) : cost rb :=
    match flip_colors V h with Some t => cret t | None => None end.

  (** mod.rs:906-919 [balance] *)
  Definition c_balance (h : rb) : cost rb :=
    cdo h1 <- (if is_red V (right_of V h) && negb (is_red V (left_of V h)) then c_rotate_left h else cret h);
    cdo h2 <- (if is_red V (left_of V h1) && is_red V (left_of V (left_of V h1)) then c_rotate_right h1 else cret h1);
    if is_red V (left_of V h2) && is_red V (right_of V h2) then c_flip_colors h2 else cret h2.

  (** mod.rs:735-758 [insert::go] *)
  Fixpoint c_insert_go (k : bytes) (v : V) (t : rb) : cost rb :=
    tick
    match t with
    | E => tick (cret (new_node H V vhash k v))
    | T c l k' v' r _ =>
        match bcmp k k' with
        | Eq => cdo n <- c_upd c l k' v r; c_balance n
        | Lt => cdo l' <- c_insert_go k v l; cdo n <- c_upd c l' k' v' r; c_balance n
        | Gt => cdo r' <- c_insert_go k v r; cdo n <- c_upd c l k' v' r'; c_balance n
        end
    end.

  (** mod.rs:734-769 [insert] *)
  Definition c_insert (k : bytes) (v : V) (t : rb) : cost rb :=
    cdo t' <- c_insert_go k v t; cret (set_color V Black t').

  (** mod.rs:373-397 [modify] *)
  Fixpoint c_modify (key : bytes) (f : V -> V) (t : rb) : cost rb :=
    tick
    match t with
    | E => cret E
    | T c l k v r _ =>
        match bcmp key k with
        | Eq => c_upd c l k (f v) r
        | Lt => cdo l' <- c_modify key f l; c_upd c l' k v r
        | Gt => cdo r' <- c_modify key f r; c_upd c l k v r'
        end
    end.

  (** mod.rs:773-783 [move_red_left] *)
  Definition c_move_red_left (h : rb) : cost rb :=
    cdo h1 <- c_flip_colors h;
    match h1 with
    | T c l k v r hh =>
        if is_red V (left_of V r) then
          cdo r' <- c_rotate_right r;
          cdo h2 <- c_rotate_left (T c l k v r' hh);
          c_flip_colors h2
        else cret h1
    | E => None
    end.

  (** mod.rs:785-794 [move_red_right] *)
  Definition c_move_red_right (h : rb) : cost rb :=
    cdo h1 <- c_flip_colors h;
    if is_red V (left_of V (left_of V h1)) then
      cdo h2 <- c_rotate_right h1; c_flip_colors h2
    else cret h1.

  (** mod.rs:806-820 [delete_min] *)
  Fixpoint c_delete_min (fuel : nat) (h : rb) : cost rb :=
    match fuel with
    | O => None
    | S fuel' =>
        tick
        match left_of V h with
        | E => assert_ (is_some V h && negb (is_some V (right_of V h))) (cret E)
        | _ =>
            cdo h1 <- (if negb (is_red V (left_of V h)) && negb (is_red V (left_of V (left_of V h)))
                      then c_move_red_left h else cret h);
            match h1 with
            | T c l k v r _ =>
                assert_ (is_some V l)
                  (cdo l' <- c_delete_min fuel' l;
                   cdo n <- c_upd c l' k v r; c_balance n)
            | E => None
            end
        end
    end.

  (** mod.rs:797-804 [min] and the swap at 846-850 *)
  Fixpoint c_swap_min (k : bytes) (v : V) (t : rb) : cost (bytes * V * rb) :=
    tick
    match t with
    | E => None
    | T c E mk mv r h => cret (mk, mv, T c E k v r h)
    | T c l mk mv r h =>
        cdo x <- c_swap_min k v l;
        cret (let '(k', v', l') := x in (k', v', T c l' mk mv r h))
    end.

  (** mod.rs:822-857 [delete::go] *)
  Fixpoint c_delete_go (fuel : nat) (key : bytes) (h : rb) : cost rb :=
    match fuel with
    | O => None
    | S fuel' =>
        tick
        match h with
        | E => None
        | T _ l0 k0 _ _ _ =>
            match bcmp key k0 with
            | Lt =>
                assert_ (is_some V l0)
                  (cdo h1 <- (if negb (is_red V l0) && negb (is_red V (left_of V l0))
                             then c_move_red_left h else cret h);
                   match h1 with
                   | T c l k v r _ =>
                       assert_ (is_some V l)
                         (cdo l' <- c_delete_go fuel' key l;
                          cdo n <- c_upd c l' k v r; c_balance n)
                   | E => None
                   end)
            | _ =>
                cdo h1 <- (if is_red V l0 then c_rotate_right h else cret h);
                match h1 with
                | E => None
                | T _ l1 k1 _ r1 _ =>
                    if bytes_eqb key k1 && negb (is_some V r1) then
                      assert_ (negb (is_some V l1)) (cret E)
                    else
                      assert_ (is_red V r1 || is_some V r1)
                      (cdo h2 <- (if negb (is_red V r1) && negb (is_red V (left_of V r1))
                                 then c_move_red_right h1 else cret h1);
                       match h2 with
                       | E => None
                       | T c l k v r _ =>
                           assert_ (is_some V r)
                             (if bytes_eqb key k then
                                cdo x <- c_swap_min k v r;
                                let '(mk, mv, r') := x in
                                cdo r'' <- c_delete_min fuel' r';
                                cdo n <- c_upd c l mk mv r''; c_balance n
                              else
                                cdo r' <- c_delete_go fuel' key r;
                                cdo n <- c_upd c l k v r'; c_balance n)
                       end)
                end
            end
        end
    end.

  (** mod.rs:360-370 [get] *)
  Fixpoint c_get (key : bytes) (t : rb) : cost (option V) :=
    tick
    match t with
    | E => cret None
    | T _ l k v r _ =>
        match bcmp key k with
        | Eq => cret (Some v)
        | Lt => c_get key l
        | Gt => c_get key r
        end
    end.

  (** mod.rs:772-880 [delete]: the lookup before and the one in the
      [debug_assert!] after are counted. *)
  Definition c_delete (key : bytes) (t : rb) : cost rb :=
    cdo g <- c_get key t;
    match g with
    | None => cret t
    | Some _ =>
        let t1 := if negb (is_red V (left_of V t)) && negb (is_red V (right_of V t))
                  then set_color V Red t else t in
        cdo t2 <- c_delete_go (S (size V t1)) key t1;
        let t3 := set_color V Black t2 in
        cdo g' <- c_get key t3;
        assert_ (match g' with None => true | Some _ => false end) (cret t3)
    end.

  (** One operation of a history, and a history (cf. [step], [run] of RbTree.v). *)
  Definition c_step (t : rb) (o : op V) : cost rb :=
    match o with
    | OpInsert _ k v => c_insert k v t
    | OpDelete _ k => c_delete k t
    | OpModify _ k f => c_modify k f t
    end.
  Fixpoint c_run (ops : list (op V)) (t : rb) : cost rb :=
    match ops with
    | [] => cret t
    | o :: ops' => cdo t' <- c_step t o; c_run ops' t'
    end.
End RbCost.
