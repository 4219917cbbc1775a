(** What a fluid node and a closed network of them should conserve. *)
From Coq Require Import Reals List.
From Verif Require Import Num Fluid FluidNode Spec_Fluid.
Import ListNotations.
Open Scope R_scope.

(** The fluid types of a mixture with their properties. *)
Definition kind (f : fluid R) : list (nat * props R) := map (fun c => (c_type c, c_pr c)) (f_cs f).

(** A node in whose flows nothing is amiss: contents of consistent composition, an
    inflow that is a stream of the influx rate, and the same fluid types throughout. *)
Record sound (n : fnode R) : Prop := {
  so_in : kind (n_inflow n) = kind (n_content n);
  so_out : kind (n_outflow n) = kind (n_content n);
  so_types : real_types (n_content n);
  so_content : balanced (n_content n);
  so_inflow : stream (n_inflow n);
  so_rate : f_w (n_inflow n) = n_in n
}.

(** Mass rate out of the contents, and what is to be left of mass and species. *)
Definition taken (n : fnode R) : R := n_sched n * f_mw (n_content n).
Definition mass_after (n : fnode R) (dt : R) : R :=
  f_mass (n_content n) + (n_in n - taken n) * dt.
Definition species_after (n : fnode R) (dt : R) : list R :=
  map (fun q => c_mass (fst q) + (n_in n * c_x (snd q) - taken n * c_x (fst q)) * dt)
      (combine (f_cs (n_content n)) (f_cs (n_inflow n))).
(** The energy the node is to have when nothing else acts on it. *)
Definition energy_after (n : fnode R) (dt : R) : R :=
  f_mass (n_content n) * f_h (n_content n) +
  (n_heat n - taken n * f_h (n_content n)) * dt.

(** Flows the node can take: it is not drained, and no amount is below the thresholds
    of the code without being zero. *)
Record calm (n : fnode R) (dt : R) : Prop := {
  ca_sched : 0 <= n_sched n;
  ca_drain : n_sched n * dt <= f_mole (n_content n);
  ca_out : n_sched n = 0 \/
           (Reps <= taken n /\
            forall c, In c (f_cs (n_content n)) -> c_x c = 0 \/ Reps * Reps <= taken n * c_x c);
  ca_in : n_in n = 0 \/ Reps < n_in n * dt;
  ca_mass : Reps <= mass_after n dt;
  ca_species : Forall (fun s => s = 0 \/ Reps * Reps * mass_after n dt <= s) (species_after n dt)
}.

(** Temperature change of a gas whose pressure goes from [n_pp] to that of the contents,
    [sf] of the isentropic one. *)
Definition expansion (pw : R -> R -> R) (n : fnode R) : R :=
  let c := n_content n in
  match f_phase c with
  | Some O => if Rlt_dec 0 (n_pp n) then
                if Rlt_dec Reps (f_p c / n_pp n) then
                  if Rlt_dec Reps (f_gam c) then
                    n_expsf n * (f_t c * pw (f_p c / n_pp n) ((f_gam c - 1) / f_gam c) - f_t c)
                  else 0
                else 0
              else 0
  | _ => 0
  end.
(** The share of a change of energy that the thermal damping mass takes up. *)
Definition damped (n : fnode R) (c' : fluid R) (dt : R) : R :=
  if Rlt_dec 0 (n_dampmass n) then
    (energy_after n dt - mass_after n dt * compute_h c' (f_t (n_content n)) - n_undamped n * dt)
    * (n_dampmass n / (mass_after n dt + n_dampmass n))
  else 0.

(** ** A closed network *)
(** A node before a step: contents of consistent composition. *)
Record well (k : list (nat * props R)) (n : fnode R) : Prop := {
  we_content : balanced (n_content n);
  we_types : real_types (n_content n);
  we_kind : kind (n_content n) = k;
  we_in : kind (n_inflow n) = k;
  we_out : kind (n_outflow n) = k
}.
(** The mole flow of a conductor is either nothing or, out of the node it comes from,
    more than the thresholds of the code. *)
Definition clear_flux (cs : list (fluid R)) (k : fcond R) : Prop :=
  cond_flux k = 0 \/
  exists c, nth_error cs (if Rlt_dec 0 (cond_flux k) then k_from k else k_to k) = Some c /\
    Reps < Rabs (cond_flux k) /\ 100 * Reps < Rabs (cond_flux k) * f_mw c /\
    forall d, In d (f_cs c) -> c_x d = 0 \/ Reps * Reps <= Rabs (cond_flux k) * f_mw c * c_x d.
(** Both ports are on nodes other than the ground. *)
Definition closed (m : nat) (k : fcond R) : Prop := (k_from k < m)%nat /\ (k_to k < m)%nat.
(** Totals over nodes. *)
Definition tmass (ns : list (fnode R)) : R := rsum (map (fun n => f_mass (n_content n)) ns).
Definition tspecies (i : nat) (ns : list (fnode R)) : R :=
  rsum (map (fun n => nth i (map c_mass (f_cs (n_content n))) 0) ns).
Definition tenergy (ns : list (fnode R)) : R := rsum (map (fun n => f_mass (n_content n) * f_h (n_content n)) ns).
(** A node whose temperature the code can find: no damping, no expansion, some energy,
    and afterwards fractions and a temperature for which the fits hold. *)
Record plain (dt : R) (n n' : fnode R) : Prop := {
  pl_damp : n_dampmass n <= 0;
  pl_exp : n_expsf n = 0;
  pl_energy : Reps <= energy_after n dt;
  pl_traces : no_traces (n_content n');
  pl_slope : heat_b (n_content n') <> 0;
  pl_range : in_range (n_content n') (f_t (n_content n'));
  pl_root : let c' := n_content n' in
            0 <= heat_a c' * heat_a c' + 4 * heat_b c' * (energy_after n dt / f_mass c')
}.
