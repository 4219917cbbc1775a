(** The diode with a junction drop and reverse leakage, and a linear network around it.
    Source: /repo/aspects/electrical/Diode/GunnsElectRealDiode.cpp:158-229 and .hh:167-221 on
    GunnsBasicPotential (BasicLinks.v). *)
From Coq Require Import List Bool ZArith.
From Verif Require Import Num MathUtil BasicLinks.
Import ListNotations.

Section DIODE.
Context {T : Type} {N : Num T}.
(** Forward and reverse conductivity, junction drop, blockage if there is. *)
Record diode := mkdio { d_def : T; d_rev : T; d_vd : T; d_block : option T }.
(** validate, :158-171; the forward conductivity is checked by GunnsBasicConductor. *)
Definition diode_valid (d : diode) : bool := negb (d_rev d <~ n0) && negb (d_vd d <~ n0).
(** setReverseConductivity and setVoltageDrop, .hh:173-189. *)
Definition set_rev (x : T) (d : diode) : diode := mkdio (d_def d) (nmax n0 x) (d_vd d) (d_block d).
Definition set_vd (x : T) (d : diode) : diode := mkdio (d_def d) (d_rev d) (nmax n0 x) (d_block d).
(** updateState, :188-197, and GunnsBasicConductor::step: conductance and source potential. *)
Definition diode_law (d : diode) (rev : bool) : T * T :=
  let '(eff, sp) := if rev then (d_rev d, n0) else (d_def d, nopp (d_vd d)) in
  let g := match d_block d with Some b => eff *~ (n1 -~ b) | None => eff end in
  (limit_range n0 g conductance_limit, sp).
(** buildPotential and computeFlux, GunnsBasicPotential.hh:175-190. *)
Definition diode_w0 (d : diode) (rev : bool) : T := nopp (snd (diode_law d rev)) *~ fst (diode_law d rev).
Definition diode_flux (d : diode) (rev : bool) (drop : T) : T := drop *~ fst (diode_law d rev) -~ diode_w0 d rev.
(** updateBias, .hh:216-221, and confirmSolutionAcceptable, :220-229: the new bias and whether the
    solution is rejected. *)
Definition update_bias (d : diode) (rev : bool) (drop : T) : bool * bool :=
  let new := drop <~ d_vd d in (new, negb (Bool.eqb new rev)).
(** The drop solved in a linear network that has open voltage [v] and conductance [gs] at the diode's
    ports: gs (v - drop) = flux. *)
Definition solve (gs v : T) (d : diode) (rev : bool) : T := (gs *~ v +~ diode_w0 d rev) /~ (gs +~ fst (diode_law d rev)).
(** Minor steps until the solution is accepted, at most [k]. *)
Fixpoint settle (k : nat) (gs v : T) (d : diode) (rev : bool) : option (bool * T) :=
  match k with
  | O => None
  | S k => let x := solve gs v d rev in let '(new, reject) := update_bias d rev x in
           if reject then settle k gs v d new else Some (new, x)
  end.
End DIODE.
Arguments diode T : clear implicits.
