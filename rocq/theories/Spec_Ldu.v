(** Specification of the LDU solver: matrices, factors and input classes.
    Independent of the solver model. *)
From Coq Require Import Reals List Arith Bool.
From Coq Require Import ZArith.
From Verif Require Import Num Loops.
Local Open Scope R_scope.

(** The threshold 1e-100 below which the solver treats a value as zero. *)
Definition tiny : R := / IZR (10 ^ 100).

(** Unit lower factor, diagonal factor and unit upper factor held by an LDU
    array: strictly lower entries, diagonal, strictly upper entries. *)
Definition unitL (M : nat -> nat -> R) (i k : nat) : R :=
  if Nat.ltb k i then M i k else if Nat.eqb k i then 1 else 0.
Definition unitU (M : nat -> nat -> R) (k j : nat) : R :=
  if Nat.ltb k j then M k j else if Nat.eqb k j then 1 else 0.
(** Entry (i,j) of the product L*D*U. *)
Definition ldu_product (n : nat) (M : nat -> nat -> R) (i j : nat) : R :=
  rsum n (fun k => unitL M i k * M k k * unitU M k j).
(** (A x)_i *)
Definition mat_vec (n : nat) (A : nat -> nat -> R) (x : nat -> R) (i : nat) : R :=
  rsum n (fun c => A i c * x c).
(** [A] (lower triangle) is L*D*L^T. *)
Definition is_ldl (n : nat) (A : nat -> nat -> R) (L : nat -> nat -> R) (D : nat -> R) : Prop :=
  forall i j, (j <= i)%nat -> (i < n)%nat ->
    A i j = rsum n (fun k => unitL L i k * D k * unitL L j k).
(** No factor entry lies in the flush band. *)
Definition clear_of_band (n : nat) (L : nat -> nat -> R) (D : nat -> R) : Prop :=
  forall i k, (k < i)%nat -> (i < n)%nat ->
    L i k = 0 \/ (L i k < - tiny /\ L i k * D k < - tiny).
(** Every diagonal entry is non-zero. *)
Definition pivots_nonzero (n : nat) (M : nat -> nat -> R) : Prop :=
  forall k, (k < n)%nat -> M k k <> 0.
(** Symmetric, non-positive off-diagonals, strictly diagonally dominant. *)
Definition strictly_dominant (n : nat) (A : nat -> nat -> R) : Prop :=
  (forall i j, (i < n)%nat -> (j < n)%nat -> A i j = A j i) /\
  (forall i j, (i < n)%nat -> (j < n)%nat -> i <> j -> A i j <= 0) /\
  (forall i, (i < n)%nat ->
     rsum n (fun j => if Nat.eqb j i then 0 else Rabs (A i j)) < A i i).
(** Symmetric positive definite. *)
Definition spd (n : nat) (A : nat -> nat -> R) : Prop :=
  (forall i j, (i < n)%nat -> (j < n)%nat -> A i j = A j i) /\
  (forall x, (exists i, (i < n)%nat /\ x i <> 0) ->
     0 < rsum n (fun i => x i * mat_vec n A x i)).
(** The array is symmetric (U is the transpose of L). *)
Definition sym_factors (n : nat) (M : nat -> nat -> R) : Prop :=
  forall i j, (i < n)%nat -> (j < n)%nat -> M i j = M j i.
(** Product, equality on the leading n x n block, identity. *)
Definition mmul (n : nat) (A B : nat -> nat -> R) : nat -> nat -> R := fun i j => rsum n (fun k => A i k * B k j).
Definition eqn (n : nat) (A B : nat -> nat -> R) : Prop := forall i j, (i < n)%nat -> (j < n)%nat -> A i j = B i j.
Definition idm : nat -> nat -> R := fun i j => if Nat.eqb i j then 1 else 0.
