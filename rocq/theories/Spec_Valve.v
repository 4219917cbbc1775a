(** What valve controllers should do, in real numbers and without reference to the functions of
    Valve.v (only its records are used). *)
From Coq Require Import Floats.
From Coq Require Import Reals List Bool ZArith.
From Verif Require Import Num Valve.
Import ListNotations.
Local Open Scope R_scope.

(** Limited to an interval. *)
Definition within (lo x hi : R) : R := Rmax lo (Rmin x hi).

(** Nothing but the drive moves the valve. *)
Definition free {T} (v : valve T) : Prop :=
  v_mstuck v = false /\ v_mfail v = false /\ (v_man v = false \/ v_mman v = true).
(** The drive works. *)
Definition drives {T} (p : powered T) : Prop :=
  free (p_v p) /\ p_mpfail p = false /\ p_mdstuck p = false /\ p_mdfail p = false.

(** The samples of a toggle command that count, those with the enable flag, and how often
    the toggle flag of these goes up. *)
Definition seen (l : list (bool * bool)) : list bool := map snd (filter fst l).
Fixpoint rises (before : bool) (l : list bool) : nat :=
  match l with
  | [] => 0%nat
  | t :: l => ((if t && negb before then 1 else 0) + rises t l)%nat
  end.
