(** Specification of network islands: connected components. *)
From Coq Require Import List Arith Bool.
Import ListNotations.

(** Nodes joined by a chain of edges. *)
Inductive connected (edge : nat -> nat -> Prop) : nat -> nat -> Prop :=
| conn_refl i : connected edge i i
| conn_step i j k : edge i j \/ edge j i -> connected edge j k -> connected edge i k.

(** Off-diagonal entries of the upper triangle that are not zero. *)
Definition upper_edge (n : nat) (nz : nat -> nat -> bool) (i j : nat) : Prop :=
  i < j /\ j < n /\ nz i j = true.

(** Strictly increasing. *)
Fixpoint increasing (l : list nat) : Prop :=
  match l with
  | [] => True
  | x :: t => match t with [] => True | y :: _ => x < y end /\ increasing t
  end.
