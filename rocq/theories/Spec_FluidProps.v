(** What the derived properties of a mixture should be, in exact arithmetic. *)
From Coq Require Import Reals List.
From Verif Require Import Num Fluid Spec_Fluid.
Import ListNotations.
Open Scope R_scope.

(** The sum over the constituents that are more than a trace. *)
Definition over (g : const R -> R) (f : fluid R) : R :=
  total (fun c => if Rlt_dec Reps (Rabs (c_y c)) then g c else 0) f.
Definition over_x (g : const R -> R) (f : fluid R) : R :=
  total (fun c => if Rlt_dec Reps (Rabs (c_x c)) then g c else 0) f.

(** All constituents have the temperature of the mixture and their partial pressure;
    viscosity, Prandtl number and adiabatic index are means by moles, specific heat and
    conductivity by mass, and the densities at the partial pressures add up. *)
Record derived (f : fluid R) : Prop := {
  der_c : forall c, In c (f_cs f) -> c_t c = f_t f /\ c_p c = c_y c * f_p f;
  der_rho : f_rho f = over (fun c => p_rho (c_pr c) (f_t f) (c_y c * f_p f)) f;
  der_visc : f_visc f = over (fun c => c_y c * p_visc (c_pr c) (f_t f) (c_y c * f_p f)) f;
  der_cp : f_cp f = over (fun c => c_x c * cp (c_pr c) (f_t f)) f;
  der_h : f_h f = f_cp f * f_t f;
  der_k : f_k f = over (fun c => c_x c * p_k (c_pr c) (f_t f) (c_y c * f_p f)) f;
  der_pr : f_pr f = over (fun c => c_y c * p_pr (c_pr c) (f_t f) (c_y c * f_p f)) f;
  der_gam : f_gam f = over (fun c => c_y c * p_gam (c_pr c) (f_t f) (c_y c * f_p f)) f
}.

(** An ideal gas with the gas constant [r]. *)
Definition ideal (r : R) (p : props R) : Prop :=
  (forall t q, p_rho p t q = p_mw p / r * q / t) /\
  (forall t d, p_press p t d = r / p_mw p * t * d).
