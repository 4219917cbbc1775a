(** Rocket engines.
    Source: /repo/aspects/fluid/conductor/GunnsFluidSimpleRocket.cpp.

    [std::sqrt] is [sq] and [std::pow] is [pw].  The combustion model is what it returns in the step, if
    it is there and does not throw.  Port directions and the transport of fluid are left out. *)
From Coq Require Import List Bool ZArith.
From Verif Require Import Num MathUtil FluidFlow.
Import ListNotations.

Section ROCKET.
Context {T : Type} {N : Num T}.
Variables (sq : T -> T) (pw : T -> T -> T).

Definition gas_const : T := ndec 8314472 (-6).
Definition gravity : T := ndec 980665 (-5).
Definition mach_tol : T := ndec 1 (-4).                      (* :23 *)
Definition r2 : T := ndec 2 0.
(** Configuration: throat area, area ratio, characteristic velocity, combustion temperature and gamma,
    tuning of thrust and recombination, needs ignition. *)
Record rkc := mkrk { k_throat : T; k_ratio : T; k_cstar : T; k_temp : T; k_gamma : T; k_thrust : T; k_rtf : T; k_needs : bool }.
(** validate, :273-316. *)
Definition rk_valid (k : rkc) : bool :=
  negb ((k_throat k <~ neps) || (k_ratio k <~ n1) || (k_cstar k <~ neps) || (k_temp k <~ neps)
        || (k_gamma k <~ n1 +~ neps) || (k_thrust k <~ n0) || negb (is_in_range n0 (k_rtf k) n1)).
(** initialize, :228-238. *)
Definition rk_default (k : rkc) : T := pa_per_kpa *~ k_throat k /~ k_cstar k.
Definition rk_mw (k : rkc) : T :=
  let g := k_gamma k in
  pa_per_kpa *~ gas_const *~ k_temp k *~ (n1 /~ g) *~ pw ((g +~ n1) /~ r2) ((g +~ n1) /~ (g -~ n1)) /~ k_cstar k /~ k_cstar k.

(** Temperature, molecular weight and gamma. *)
Record gas := mkgas { x_t : T; x_mw : T; x_g : T }.
Record rks := mkrks { s_comb : bool; s_count : Z; s_gas : gas }.
Definition rk_init (k : rkc) (comb : bool) : rks := mkrks comb 0 (mkgas (k_temp k) (rk_mw k) (k_gamma k)).
(** updateCombustion, :380-436; [model] is the combustion model's result.  The count is an int that is
    not wrapped here. *)
Definition rk_burning (k : rkc) (flow : T) (ignition was : bool) : bool :=
  if k_needs k then if feps <~ flow then was || ignition else false else feps <~ flow.
Definition rk_combust (k : rkc) (flow : T) (ignition : bool) (inlet : gas) (model : option gas) (s : rks) : rks :=
  let c := rk_burning k flow ignition (s_comb s) in
  let '(c, x) := match model with
                 | Some m => if c then if x_t m <=~ x_t inlet then (false, s_gas s) else (true, m) else (c, s_gas s)
                 | None => (c, s_gas s)
                 end in
  mkrks c (if c then s_count s + 1 else 0)%Z x.
(** updateChamber, :442-458. *)
Definition rk_chamber (inlet : gas) (s : rks) : gas :=
  let x := if s_comb s then s_gas s else inlet in
  mkgas (nmax (x_t x) n1) (nmax (x_mw x) r2) (nmax (x_g x) (n1 +~ feps)).
(** updateExitMach, :552-575. *)
Definition area_of (g mach : T) : T :=
  n1 /~ mach *~ pw (r2 /~ (g +~ n1) +~ mach *~ mach /~ ((g +~ n1) /~ (g -~ n1))) ((g +~ n1) /~ (g -~ n1) /~ r2).
Fixpoint mach_loop (fuel : nat) (g ratio prev mach : T) : T :=
  match fuel with
  | O => mach
  | S f =>
      let delta := half *~ nabs (mach -~ prev) in
      if delta <~ mach_tol then mach
      else mach_loop f g ratio mach (if ratio <~ area_of g mach then mach -~ delta else mach +~ delta)
  end.
Definition exit_mach (g ratio : T) : T := mach_loop 30 g ratio (ndec 20 0) (ndec 10 0).
(** updateNozzle, :479-543; [recomb] is the recombination model's drop of enthalpy and gas. *)
Record nozzle := mknz { z_p : T; z_ue : T; z_gas : gas; z_isp : T; z_flow : T }.
Definition rk_nozzle (k : rkc) (comb : bool) (pc mach : T) (c : gas) (recomb : option (T * gas)) : nozzle :=
  let gm1 := x_g c -~ n1 in
  let gmm := n1 +~ half *~ gm1 *~ mach *~ mach in
  let pe := pc *~ pw gmm (nopp (x_g c) /~ gm1) in
  let ue := sq ((n1 -~ n1 /~ gmm) *~ r2 *~ x_g c *~ x_t c *~ pa_per_kpa *~ gas_const /~ gm1 /~ x_mw c) in
  let te := x_t c /~ gmm in
  let rtf := limit_range n0 (k_rtf k) n1 in
  let '(ue, e) :=
    match recomb with
    | Some (dh, r) =>
        if comb && (feps <~ rtf) && (n0 <~ dh) then
          let mix a b := (n1 -~ rtf) *~ a +~ rtf *~ b in
          (mix ue (sq (r2 *~ dh)), mkgas (mix te (x_t r)) (mix (x_mw c) (x_mw r)) (mix (x_g c) (x_g r)))
        else (ue, mkgas te (x_mw c) (x_g c))
    | None => (ue, mkgas te (x_mw c) (x_g c))
    end in
  mknz pe ue e (if comb then ue /~ gravity else n0)
    (k_throat k *~ k_ratio k *~ ue *~ pe *~ x_mw e /~ gas_const /~ x_t e).
(** updateConductance, :583-614; [p0] and [p1] are the fluids' pressures, [v0] and [v1] the potentials. *)
Definition rk_conductance (k : rkc) (count : Z) (mdot mw minp limit p0 p1 v0 v1 : T) : T :=
  let p0 := nmax p0 (p1 +~ minp) in
  if (neps <~ mw) && (v1 -~ feps <~ v0) then
    let g := if (count =? 1)%Z then rk_default k else mdot /~ (p0 -~ p1) in
    limit_range n0 (g /~ mw) limit
  else n0.
(** transportFlows, :665-684: characteristic velocity, thrust, power. *)
Definition rk_cstar (k : rkc) (v0 flow : T) : T :=
  if feps <~ flow then v0 *~ pa_per_kpa *~ k_throat k /~ flow else n0.
Definition rk_thrust (k : rkc) (flow isp : T) : T := k_thrust k *~ flow *~ isp *~ gravity.
Definition rk_power (thrust ue : T) : T := half *~ thrust *~ ue.

(** A history of flows, ignition commands, inlet gases and model results. *)
Definition rk_run (k : rkc) (us : list (T * bool * gas * option gas)) (s : rks) : rks :=
  fold_left (fun s u => let '(flow, ign, inlet, model) := u in rk_combust k flow ign inlet model s) us s.
End ROCKET.
Arguments rkc T : clear implicits.
Arguments rks T : clear implicits.
Arguments gas T : clear implicits.
Arguments nozzle T : clear implicits.
