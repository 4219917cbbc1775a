(** * What table interpolation should compute *)
From Coq Require Import Floats Reals Lra Lia List Bool.
From Verif Require Import Num Ord Round MsgQueue.
Import ListNotations.

Section Spec.
  Context {T : Type} {N : Num T} {V : NumVal T}.

  (** The table has no NaN. *)
  Definition no_nan (n : nat) (x : nat -> T) : Prop := forall i, (i < n)%nat -> nnan (x i) = false.
  Definition all_fin (n : nat) (x : nat -> T) : Prop := forall i, (i < n)%nat -> nfin (x i) = true.

  Definition ascending (n : nat) (x : nat -> T) : Prop :=
    forall i, (i + 1 < n)%nat -> (val (x i) < val (x (i + 1)%nat))%R.
  Definition descending (n : nat) (x : nat -> T) : Prop :=
    forall i, (i + 1 < n)%nat -> (val (x (i + 1)%nat) < val (x i))%R.
End Spec.

(** [v] is on the straight line between two neighbouring points of the table, and
    [t] is between their abscissas.  The table is in either order. *)
Definition on_segment (n : nat) (x z : nat -> R) (t v : R) : Prop :=
  exists i, (i + 1 < n)%nat /\
    (Rmin (x i) (x (i + 1)%nat) <= t <= Rmax (x i) (x (i + 1)%nat))%R /\
    ((v - z i) * (x (i + 1)%nat - x i) = (z (i + 1)%nat - z i) * (t - x i))%R.

(** [v] is the bilinear interpolant at [(s, t)]: on the line, in the second
    variable, between the two values on the lines in the first. *)
Definition on_patch (m n : nat) (x y : nat -> R) (z : nat -> nat -> R) (s t v : R) : Prop :=
  exists u : nat -> R,
    (forall j, (j < n)%nat -> on_segment m x (fun i => z i j) s (u j)) /\
    on_segment n y u t v.

(** The larger of [lo] and the smaller of [x] and [hi]. *)
Definition clip (lo x hi : R) : R := Rmax (Rmin x hi) lo.
