(** Orifices and valves with choked flow.
    Source: /repo/aspects/fluid/hi-fi/GunnsFluidHiFiOrifice.cpp and GunnsFluidHiFiValve.cpp.

    [std::sqrt] is [sq] and [std::pow] is [pw].  The fluids are the outflows of the nodes, [d_gas] is
    GAS == phase, and any other phase is a liquid's.  The temperature of the flow, port directions and
    messages are left out. *)
From Coq Require Import List Bool ZArith.
From Verif Require Import Num MathUtil FluidFlow.
Import ListNotations.

Section HIFI.
Context {T : Type} {N : Num T}.
Variables (sq : T -> T) (pw : T -> T -> T).

(** ** GunnsFluidHiFiOrifice *)
Definition pi_over_4 : T := ndec 78539816339744828 (-17).
Definition of_area (diam : T) : T := pi_over_4 *~ diam *~ diam.
Inductive coeff := Discharge | FlowFactor | FlowCoeff.
Definition kv_to_cd : T := ndec 509117 (-1).
(** initialize, :184-211. *)
Definition of_default (k : coeff) (v diam : T) : T :=
  match k with
  | Discharge => v
  | FlowFactor => v /~ (of_area diam *~ kv_to_cd)
  | FlowCoeff => v /~ (of_area diam *~ (kv_to_cd /~ ndec 865 (-3)))
  end.
(** :180-183 and validate, :235-260. *)
Definition of_valid (diam cd rec expand tuning : T) : bool :=
  negb ((diam <~ neps) || negb (is_in_range neps cd n1) || (rec <~ n0)
        || negb (is_in_range n0 expand n1) || (tuning <~ n0)).
(** step, :301-307; [visc] is the inlet's viscosity. *)
Definition of_reynolds (flow area diam visc : T) (a : fl) : T :=
  d_rho a *~ (nabs flow /~ d_rho a /~ area) *~ diam /~ visc.
Definition of_cd (cd rec re : T) : T :=
  let c := cd *~ sq (nmin rec re /~ nmax rec neps) in if c <~ neps then cd else c.
(** :410-438 and :474-478. *)
Definition critical_flux (g p0 rho : T) : T :=
  sq (g *~ p0 *~ rho *~ pw (ndec 2 0 /~ (g +~ n1)) ((g +~ n1) /~ (g -~ n1))).
Definition sub_flux (g p0 rho p1 : T) : T :=
  sq (ndec 2 0 *~ p0 *~ rho *~ g /~ (g -~ n1)
      *~ (pw (p1 /~ p0) (ndec 2 0 /~ g) -~ pw (p1 /~ p0) ((g +~ n1) /~ g))).
Definition bernoulli_flux (rho dp : T) : T := sq (ndec 2 0 *~ rho *~ dp).
(** computeGasConductivity, :368-394: pressure ratio and conductivity, or the exception. *)
Definition of_gas (cd minp : T) (a b : fl) : option (T * T) :=
  let g := d_gamma a in
  if g <=~ n1 then None else
  let p1 := nmax (d_p b) n0 in
  let p0 := nmax (d_p a) (p1 +~ minp) in
  let p1 := p1 *~ pa_per_kpa in
  let p0 := p0 *~ pa_per_kpa in
  let pstar := p0 *~ pw (ndec 2 0 /~ (g +~ n1)) (g /~ (g -~ n1)) in
  let ratio := p1 /~ pstar in
  let flux := if ratio <~ n1 then cd *~ critical_flux g p0 (d_rho a) else cd *~ sub_flux g p0 (d_rho a) p1 in
  Some (ratio, flux *~ pa_per_kpa /~ (p0 -~ p1)).
(** computeLiquidConductivity, :449-460. *)
Definition of_liquid (cd minp : T) (a b : fl) : T :=
  let dp := pa_per_kpa *~ nmax (d_p a -~ d_p b) minp in
  cd *~ bernoulli_flux (mean_density a b) dp *~ pa_per_kpa /~ dp.
(** The rest of computeConductance, :337-356; [k] is the conductivity, [area] the effective area. *)
Definition of_conductance (tuning k area : T) (a b : fl) : T :=
  if neps <~ use_mw a b
  then limit_range n0 (tuning *~ k *~ area /~ use_mw a b) (ndec 1 15) else n0.
(** getEffectiveArea, :609-616. *)
Definition of_effective (diam : T) (block : option T) : T :=
  match block with Some v => of_area diam *~ (n1 -~ v) | None => of_area diam end.
(** computeFlux, :589-599, of the pressures of the ports and the admittance. *)
Definition of_flux (p0 p1 admit : T) : T :=
  let drop := p0 -~ p1 in
  if nabs drop <~ nmax p0 p1 *~ (ndec 100 0 *~ neps) then n0 else drop *~ admit.
(** step, :288-298: the inlet is port 1 and whether anything is done; [ground] tells which ports are
    on the ground node. *)
Definition of_inlet (ground : bool * bool) (p0 p1 : T) : option bool :=
  let one := fst ground || (p0 <~ p1) in
  if (if one then snd ground else fst ground) then None else Some one.

(** ** GunnsFluidHiFiValve *)
(** validate, :185-198. *)
Definition hv_valid (pos leak : T) : bool := negb (negb (is_in_range n0 pos n1) || (leak <~ n0)).
(** mLastLeakRate and mLeakArea. *)
Record hv := mkhv { h_last : T; h_area : T }.
(** What an update reads: the malfunction, fluids and pressures of both ports, the last pressure
    ratio and discharge coefficient. *)
Record hv_in := mkhi { g_leak : option T; g_f0 : @fl T; g_f1 : @fl T; g_p0 : T; g_p1 : T; g_ratio : T; g_cd : T }.
(** :229-255. *)
Definition hv_flux (tuning : T) (u : hv_in) : T :=
  let one := g_p0 u <~ g_p1 u in
  let fin := if one then g_f1 u else g_f0 u in
  let fout := if one then g_f0 u else g_f1 u in
  let p0 := pa_per_kpa *~ (if one then g_p1 u else g_p0 u) in
  let p1 := pa_per_kpa *~ (if one then g_p0 u else g_p1 u) in
  let flux :=
    if d_gas (g_f0 u) then
      if g_ratio u <~ n1 then g_cd u *~ critical_flux (d_gamma fin) p0 (d_rho fin)
      else g_cd u *~ sub_flux (d_gamma fin) p0 (d_rho fin) p1
    else g_cd u *~ bernoulli_flux (half *~ (d_rho fin +~ d_rho fout)) (p0 -~ p1) in
  flux *~ tuning.
(** updateState, :220-268. *)
Definition hv_update (diam tuning : T) (u : hv_in) (s : hv) : hv :=
  match g_leak u with
  | None => mkhv n0 n0
  | Some v =>
      if negb (h_last s ==~ v) then
        let flux := hv_flux tuning u in
        mkhv v (if neps <~ flux then limit_range n0 (v /~ flux) (of_area diam) else h_area s)
      else s
  end.
(** getEffectiveArea, :276-283. *)
Definition hv_effective (diam : T) (block : option T) (pos : T) (leak : option T) (s : hv) : T :=
  let area := pos *~ of_effective diam block in
  match leak with Some _ => nmax area (h_area s) | None => area end.
Definition hv_run (diam tuning : T) (us : list hv_in) : hv := fold_left (fun s u => hv_update diam tuning u s) us (mkhv n0 n0).
End HIFI.
Arguments hv T : clear implicits.
Arguments hv_in T : clear implicits.
