(** Specification of network assembly: what the admittance matrix and source
    vector of a list of links should be. *)
From Coq Require Import Reals List Arith Bool ZArith.
From Verif Require Import Num Loops.
Import ListNotations.
Local Open Scope R_scope.

(** Sum over a list. *)
Fixpoint lsum {X} (f : X -> R) (l : list X) : R :=
  match l with [] => 0 | x :: l => f x + lsum f l end.

(** [v] if [b], else 0. *)
Definition when (b : bool) (v : R) : R := if b then v else 0.

(** A passive conductance matrix: symmetric, non-positive off-diagonals and
    non-negative row sums. *)
Definition passive (n : nat) (A : nat -> nat -> R) : Prop :=
  (forall i j, (i < n)%nat -> (j < n)%nat -> A i j = A j i) /\
  (forall i j, (i < n)%nat -> (j < n)%nat -> i <> j -> A i j <= 0) /\
  (forall i, (i < n)%nat -> 0 <= rsum n (fun j => A i j)).
