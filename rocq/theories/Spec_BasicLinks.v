(** What may happen to a basic link, and the network laws its flows should obey. *)
From Coq Require Import Reals List Arith Bool ZArith.
From Verif Require Import Num Loops Spec_Assembly BasicLinks.
Import ListNotations.

Section LIFE.
Context {T : Type} {N : Num T}.

(** A link as initialize() leaves it: vectors zero, any potentials and settings. *)
Definition fresh (l : blink (T := T)) : Prop :=
  let b := bbase l in
  b_a0 b = n0 /\ b_a1 b = n0 /\ b_a2 b = n0 /\ b_a3 b = n0 /\ b_w0 b = n0 /\ b_w1 b = n0 /\
  b_upd b = false.

(** Any public setting may change between calls, unvalidated: everything but the
    class of the link and the vectors of GunnsBasicLink. *)
Definition same_vectors (b b' : base (T := T)) : Prop :=
  b_p0 b' = b_p0 b /\ b_p1 b' = b_p1 b /\
  b_a0 b' = b_a0 b /\ b_a1 b' = b_a1 b /\ b_a2 b' = b_a2 b /\ b_a3 b' = b_a3 b /\
  b_w0 b' = b_w0 b /\ b_w1 b' = b_w1 b /\ b_upd b' = b_upd b /\ b_flux b' = b_flux b.
Definition same_law (x y : law (T := T)) : Prop :=
  match x, y with
  | Plain, Plain | Controller _ _ _ _, Controller _ _ _ _
  | Potential _, Potential _ | Demand _ _, Demand _ _ => True
  | _, _ => False
  end.
Definition resets (l l' : blink (T := T)) : Prop :=
  same_vectors (bbase l) (bbase l') /\
  match l, l' with
  | Cond c, Cond c' => same_law (c_law c) (c_law c')
  | Source _ _, Source _ _ | Capacitor _ _ _ _, Capacitor _ _ _ _ => True
  | _, _ => False
  end.

(** The solver reads the update flag and clears it. *)
Definition polled (l : blink (T := T)) : blink := set_base l (fst (need_update (bbase l))).
(** GunnsBasicLink.cpp:291-296 with GunnsBasicLink.hh:489-496: the flag and the
    power are cleared, the settings may change. *)
Definition restarted (l : blink (T := T)) : blink :=
  set_base l (with_power (with_upd (bbase l) false) n0).
Definition placed (x y : T) (l : blink (T := T)) : blink := set_base l (with_pot (bbase l) x y).

(** Links in use: any calls in any order. *)
Inductive reach : blink (T := T) -> Prop :=
| r_new l : fresh l -> reach l
| r_set l l' : reach l -> resets l l' -> reach l'
| r_step dt l : reach l -> reach (step dt l)
| r_minor dt l : reach l -> reach (minor_step dt l)
| r_place x y l : reach l -> reach (placed x y l)
| r_poll l : reach l -> reach (polled l)
| r_flow l : reach l -> reach (flows l)
| r_restart l : reach l -> reach (restarted l).

(** Links within a major step: step() has been called and no flows yet. *)
Inductive built : blink (T := T) -> Prop :=
| bu_step dt l : reach l -> built (step dt l)
| bu_minor dt l : built l -> built (minor_step dt l)
| bu_place x y l : built l -> built (placed x y l)
| bu_poll l : built l -> built (polled l).
End LIFE.

Local Open Scope R_scope.

(** Nodes of a network with ground node [n]. *)
Definition on_network (n : nat) (w : wired (T := R)) : Prop :=
  (0 <= w_n0 w <= Z.of_nat n)%Z /\ (0 <= w_n1 w <= Z.of_nat n)%Z.

(** Links whose flux is zeroed when the drop is below 100 DBL_EPSILON of the
    higher potential. *)
Definition plain_like (l : blink (T := R)) : bool :=
  match l with
  | Cond c => match c_law c with Plain | Controller _ _ _ _ => true | _ => false end
  | _ => false
  end.

(** Flux such a link may fail to move. *)
Definition lost (n : nat) (p : nat -> R) (w : wired (T := R)) : R :=
  Rabs (b_a0 (bbase (w_link w))) * (Rmax 0 (Rmax (port_pot n p (w_n0 w)) (port_pot n p (w_n1 w))) * (100 * Reps)).
Definition touches (w : wired (T := R)) (i : nat) : bool :=
  (Z.eqb (w_n0 w) (Z.of_nat i) || Z.eqb (w_n1 w) (Z.of_nat i))%bool.
Definition slack (n : nat) (p : nat -> R) (i : nat) (w : wired (T := R)) : R :=
  when (touches w i && plain_like (w_link w)) (lost n p w).

(** Charge moved by a capacitor is its capacitance times the change of its drop. *)
Definition drop_of (l : blink (T := R)) : R := b_p0 (bbase l) - b_p1 (bbase l).
Definition flux_of (l : blink (T := R)) : R := b_flux (bbase l).
Definition power_of (l : blink (T := R)) : R := b_power (bbase l).
Definition capacitance_of (l : blink (T := R)) : R :=
  match l with Capacitor c _ _ _ => c | _ => 0 end.
