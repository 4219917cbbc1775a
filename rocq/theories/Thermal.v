(** Thermal links.
    Source: /repo/aspects/thermal/GunnsThermalCapacitor.cpp, GunnsThermalCapacitorHeatQueues.cpp,
    GunnsThermalSource.cpp, GunnsThermalPanel.cpp, GunnsThermalMultiPanel.cpp,
    GunnsThermalHeater.cpp, GunnsThermalRadiation.cpp, GunnsThermalPhaseChangeBattery.{cpp,hh},
    GunnsThermoelectricEffect.cpp, GunnsThermoelectricDevice.cpp and
    /repo/ms-utils/software/SimBus/SimBusQutils.cpp.

    The basic links they are derived from are those of BasicLinks.v.  Left out: port rules and
    port commands (Links.v), names, messages, and the copies of the temperature for display. *)
From Coq Require Import List Bool ZArith.
From Verif Require Import Num Loops MathUtil BasicLinks.
Import ListNotations.

Section THERMAL.
Context {T : Type} {N : Num T}.

(** SimBusQutils.cpp:49-56, GunnsThermalCapacitor.cpp:223-229. *)
Definition sum (l : list T) : T := fold_left nadd l n0.

(** ** GunnsThermalCapacitor *)
(** updateState, GunnsThermalCapacitor.cpp:220-256; [ov]: mOverrideVector[0]. *)
Definition tcap_update (dt cap : T) (ov : bool) (ext : list T) (b : base) : base :=
  if (neps <~ cap) && negb ov then with_pot b (b_p0 b +~ sum ext *~ dt /~ cap) (b_p1 b) else b.
(** step, GunnsBasicCapacitor.cpp:200-216 with that updateState. *)
Definition tcap_step (dt cap : T) (ov : bool) (ext : list T) (b : base) : base :=
  build_capacitance dt cap (tcap_update dt cap ov ext b).
(** An array with one element changed. *)
Fixpoint upd (l : list T) (i : nat) (x : T) : list T :=
  match l, i with
  | [], _ => []
  | _ :: l, O => x :: l
  | y :: l, S i => y :: upd l i x
  end.
(** setExternalHeatFlux, GunnsThermalCapacitor.cpp:279-284 ([None]: it throws). *)
Definition num_ext : nat := 15.
Definition set_ext (ext : list T) (i : nat) (x : T) : option (list T) :=
  if Nat.ltb i num_ext then Some (upd ext i x) else None.
(** GunnsThermalCapacitorHeatQueues.cpp:171-178 with SimBusQutils.cpp:69-78. *)
Fixpoint queues_step (i : nat) (queues : list (list T)) (ext : list T) : option (list T) :=
  match queues with
  | [] => Some ext
  | q :: queues =>
      match q with
      | [] => queues_step (S i) queues ext
      | _ => match set_ext ext i (sum q /~ ndec (Z.of_nat (length q)) 0) with
             | None => None
             | Some ext => queues_step (S i) queues ext
             end
      end
  end.

(** ** GunnsThermalSource and its derived classes *)
(** GunnsThermalSource.cpp:133. *)
Definition fraction_tolerance : T := ndec 11 (-3).
(** validate, GunnsThermalSource.cpp:247-281; [ports]: the number of ports. *)
Definition source_valid (ports : nat) (fracs : list T) (demand : T) : bool :=
  negb (Nat.eqb (length fracs) 0) && Nat.eqb ports (length fracs) && negb (demand <~ n0) &&
  forallb (fun f => is_in_range n0 f n1) fracs && negb (fraction_tolerance <~ nabs (n1 -~ sum fracs)).
(** The flux of step, GunnsThermalSource.cpp:308-319. *)
Definition source_flux (tuning demand : T) (ovf : bool) (ovv : T) (malf : bool) (malfv : T) : T :=
  let f := tuning *~ demand in
  if ovf then ovv else if malf then f *~ (n1 -~ malfv) else f.
(** buildSourceVector :351-360; computeFlows :366-374 hands the same to the nodes. *)
Definition source_vector (fracs : list T) (flux : T) : list T := map (fun f => f *~ flux) fracs.
(** determineAvgPortTemperature :379-392. *)
Definition avg_temperature (pots : list T) : T := sum pots /~ ndec (Z.of_nat (length pots)) 0.

(** GunnsThermalPanel.cpp:165-174, 153 and 199. *)
Definition panel_valid (absorptivity area : T) : bool := is_in_range n0 absorptivity n1 && negb (area <~ n0).
Definition panel_incident (demand absorptivity area : T) : T := demand /~ (absorptivity *~ area).
Definition panel_demand (absorptivity area incident : T) : T := absorptivity *~ area *~ incident.
(** GunnsThermalMultiPanel.cpp:247-253; the five (absorptivity, view scalar, flux). *)
Definition multi_demand (l : list (T * T * T)) (area : T) : T :=
  fold_left (fun s x => let '(a, v, f) := x in s +~ a *~ v *~ f) l n0 *~ area.

(** ** GunnsThermalRadiation *)
(** The effective conductivity, GunnsBasicConductor.cpp:204 and GunnsThermalRadiation.cpp:198-205. *)
Definition pow4 (x : T) : T := x *~ x *~ x *~ x.
Definition radiation_eff (view def : T) (b : base) : T :=
  if neps <~ nabs (b_p0 b -~ b_p1 b)
  then view *~ def *~ (pow4 (b_p0 b) -~ pow4 (b_p1 b)) /~ (b_p0 b -~ b_p1 b)
  else def.
(** GunnsBasicConductor.cpp:196-215. *)
Definition radiation_step (view def : T) (b : base) : base :=
  let g := radiation_eff view def b in
  let g := if b_malf b then g *~ (n1 -~ b_malfv b) else g in
  set_adm b (limit_range n0 g conductance_limit).

(** ** GunnsThermalPhaseChangeBattery *)
Record pcb := mkpcb {
  k_tpc : T; k_heat : T; k_hot : T; k_cold : T; k_str : T;   (* the configuration *)
  k_mass : T; k_t : T; k_frac : T; k_leak : bool; k_rate : T;
  k_actual : T; k_ext : T; k_adm : T; k_src : T; k_power : T
}.
(** UnitConversion::UNIT_PER_KILO and KILO_PER_UNIT. *)
Definition kilo : T := ndec 1000 0.
Definition milli : T := ndec 1 (-3).
Definition ideal_admittance : T := ndec 1 6.                     (* :23 *)
(** GunnsThermalPhaseChangeBattery.cpp:184-223; [true]: no exception. *)
Definition pcb_valid (k : pcb) : bool :=
  negb (k_tpc k <~ neps) && negb (k_heat k <~ neps) && negb (k_hot k <~ neps) && negb (k_cold k <~ neps) &&
  negb (k_str k <~ neps) && negb (k_mass k <~ neps) && negb (k_t k <~ neps) &&
  is_in_range n0 (k_frac k) n1 && negb (k_rate k <~ n0).
(** :301-310. *)
Definition pcb_capacitance (k : pcb) : T :=
  if n0 ==~ k_frac k then k_str k +~ k_mass k *~ k_cold k *~ kilo
  else if n1 ==~ k_frac k then k_str k +~ k_mass k *~ k_hot k *~ kilo
  else k_str k.
(** step with updateState, :244-291; [ext] are the external heat fluxes, [ov] mOverrideVector[0]. *)
Definition pcb_step (dt : T) (ov : bool) (ext : list T) (k : pcb) : pcb :=
  let k := mkpcb (k_tpc k) (k_heat k) (k_hot k) (k_cold k) (k_str k) (k_mass k) (k_t k)
                 (limit_range n0 (k_frac k) n1) (k_leak k) (k_rate k) (k_actual k) (sum ext) (k_adm k) (k_src k) (k_power k) in
  let cap := pcb_capacitance k in
  let '(adm, t) :=
    if ov then (neps, k_t k)
    else if k_str k <~ cap then (cap /~ nmax dt neps, k_t k +~ k_ext k *~ dt /~ cap)
    else (ideal_admittance, k_tpc k +~ k_ext k /~ ideal_admittance) in
  mkpcb (k_tpc k) (k_heat k) (k_hot k) (k_cold k) (k_str k) (k_mass k) t
        (k_frac k) (k_leak k) (k_rate k) (k_actual k) (k_ext k) adm (t *~ adm) (k_power k).
(** updatePhaseFraction :402-422. *)
Definition phase_fraction (dt : T) (k : pcb) : T :=
  if (n0 ==~ k_frac k) && (k_tpc k <~ k_t k) then
    k_frac k +~ k_cold k *~ k_mass k *~ (k_t k -~ k_tpc k) /~ k_heat k /~ k_mass k
  else if (n1 ==~ k_frac k) && (k_t k <~ k_tpc k) then
    k_frac k +~ k_hot k *~ k_mass k *~ (k_t k -~ k_tpc k) /~ k_heat k /~ k_mass k
  else if (n0 <~ k_frac k) && (k_frac k <~ n1) then
    k_frac k +~ milli *~ k_power k *~ dt /~ k_heat k /~ k_mass k
  else k_frac k.
(** updateMassLeak :431-452: mass, fraction, actual leak rate; [rate] is limited already. *)
Definition mass_leak (dt : T) (leak : bool) (rate mass frac : T) : T * T * T :=
  if leak && (n0 <~ frac) && (n0 <~ dt) then
    let hot := mass *~ frac in
    let minm := nmax n0 (nmin (hot -~ neps) (mass -~ ndec 2 0 *~ neps)) in
    let actual := nmin rate (minm /~ dt) in
    let hot := hot -~ actual *~ dt in
    let mass := mass -~ actual *~ dt in
    (mass, hot /~ mass, actual)
  else (mass, frac, n0).
(** computeFlows :332-392 after the solution set the port's potential to [t]. *)
Definition pcb_flux (k : pcb) (t : T) : T := t *~ k_adm k -~ k_src k.
Definition pcb_flows (dt t : T) (k : pcb) : pcb :=
  let power := pcb_flux k t +~ k_ext k in
  let k := mkpcb (k_tpc k) (nmax (k_heat k) neps) (k_hot k) (k_cold k) (k_str k) (nmax (k_mass k) (neps *~ ndec 3 0)) t
                 (k_frac k) (k_leak k) (nmax n0 (k_rate k)) (k_actual k) (k_ext k) (k_adm k) (k_src k) power in
  let frac := phase_fraction dt k in
  let '(mass, frac, actual) := mass_leak dt (k_leak k) (k_rate k) (k_mass k) frac in
  mkpcb (k_tpc k) (k_heat k) (k_hot k) (k_cold k) (k_str k) mass t
        (limit_range n0 frac n1) (k_leak k) (k_rate k) actual (k_ext k) (k_adm k) (k_src k) power.

(** ** GunnsThermoelectricEffect *)
Record ted := mkted {
  e_r0 : T; e_r1 : T;                 (* mResistanceCoeffs *)
  e_s0 : T; e_s1 : T; e_s2 : T;       (* mSeebeckCoeffs *)
  e_k0 : T; e_k1 : T; e_k2 : T;       (* mThermalConductanceCoeffs *)
  e_min : T; e_max : T; e_malf : bool; e_scale : T; e_i : T; e_th : T; e_tc : T
}.
Record ted_out := mkted_out {
  o_k : T; o_g : T; o_thru : T; o_hot : T; o_cold : T; o_v : T   (* conductances, heat fluxes, voltage *)
}.
(** GunnsThermoelectricEffect.cpp:176-191; the coefficients of the configuration. *)
Definition ted_init (num geom r0 r1 s0 s1 s2 k0 k1 k2 plate tmin tmax : T) (malf : bool) (scale i th tc : T) : ted :=
  let twoN := ndec 2 0 *~ num in
  let k0' := twoN *~ geom *~ k0 in
  let k0' := if neps <~ plate then n1 /~ (n1 /~ k0' +~ ndec 2 0 /~ plate) else k0' in
  mkted (twoN *~ r0 /~ geom) (twoN *~ r1 /~ geom) (twoN *~ s0) (twoN *~ s1) (twoN *~ s2)
        k0' (twoN *~ geom *~ k1) (twoN *~ geom *~ k2) tmin tmax malf scale i th tc.
(** update, GunnsThermoelectricEffect.cpp:267-325. *)
Definition ted_update (e : ted) : ted_out :=
  let h := limit_range (e_min e) (e_th e) (e_max e) in
  let c := limit_range (e_min e) (e_tc e) (e_max e) in
  let dT := h -~ c in
  let dT2 := h *~ h -~ c *~ c in
  let dT3 := h *~ h *~ h -~ c *~ c *~ c in
  let avg := ndec 5 (-1) *~ (c +~ h) in
  let far := neps <~ nabs dT in
  let k := if far then e_k0 e +~ (dT2 /~ dT *~ (e_k1 e /~ ndec 2 0) +~ dT3 /~ dT *~ (e_k2 e /~ ndec 3 0)) else e_k0 e in
  let sa := if far then e_s0 e +~ (dT2 /~ dT *~ (e_s1 e /~ ndec 2 0) +~ dT3 /~ dT *~ (e_s2 e /~ ndec 3 0)) else e_s0 e in
  let sh := e_s0 e +~ e_s1 e *~ h +~ e_s2 e *~ h *~ h in
  let sc := e_s0 e +~ e_s1 e *~ c +~ e_s2 e *~ c *~ c in
  let m := if e_malf e then nmax n0 (e_scale e) else n1 in
  let '(sa, sh, sc) := if e_malf e then (sa *~ m, sh *~ m, sc *~ m) else (sa, sh, sc) in
  let g := n1 /~ nmax (e_r0 e +~ e_r1 e *~ avg) neps in
  let joule := e_i e *~ e_i e /~ g in
  mkted_out k g (k *~ (e_th e -~ e_tc e)) (joule /~ ndec 2 0 -~ e_i e *~ h *~ sh) (joule /~ ndec 2 0 +~ e_i e *~ c *~ sc)
            (sa *~ dT).
(** ** GunnsThermoelectricDevice *)
(** step :177-196; the effect's temperatures are the potentials. *)
Definition device_effect (e : ted) (b : base) : ted :=
  mkted (e_r0 e) (e_r1 e) (e_s0 e) (e_s1 e) (e_s2 e) (e_k0 e) (e_k1 e) (e_k2 e) (e_min e) (e_max e) (e_malf e)
        (e_scale e) (e_i e) (b_p0 b) (b_p1 b).
Definition device_step (e : ted) (b : base) : base :=
  let o := ted_update (device_effect e b) in
  let g := if b_malf b then o_k o *~ (n1 -~ b_malfv b) else o_k o in
  with_src (set_adm b (limit_range n0 g conductance_limit)) (o_hot o) (o_cold o).
(** computeFlows: GunnsBasicConductor.cpp:237-259, GunnsThermoelectricDevice.cpp:202-232; the flux,
    the power and the net heat into the two nodes. *)
Definition device_flux (b : base) : T := flux_dead (with_drop b (delta b)).
Definition device_power (b : base) : T := device_flux b +~ b_w1 b -~ b_w0 b.
Definition device_into (b : base) : T * T := (b_w0 b -~ device_flux b, device_flux b +~ b_w1 b).
End THERMAL.
Arguments pcb : clear implicits.
Arguments ted : clear implicits.
Arguments ted_out : clear implicits.
