(** Sources and other special links of the fluid aspect: the heater, the boundary source, the
    hydrogen fuel cell, displacement pumps and their cavitation, evaporation, the selective
    membrane and the phase change source.
    Source: /repo/aspects/fluid/source/GunnsFluidHeater.cpp, GunnsFluidSourceBoundary.cpp,
    GunnsFluidSimpleH2Redox.cpp, GunnsGasDisplacementPump.cpp, GunnsLiquidDisplacementPump.cpp,
    GunnsFluidEvaporation.cpp, GunnsFluidSelectiveMembrane.cpp, GunnsFluidPhaseChangeSource.cpp
    and /repo/aspects/fluid/potential/GunnsPumpCavitation.cpp.

    The contents of nodes are the values their getters return, given as arguments; user port
    commands and messages are left out.  [sq] is std::sqrt, [pw] is std::pow. *)
From Coq Require Import List Bool ZArith.
From Verif Require Import Num MathUtil FluidFlow FluidSorb.
Import ListNotations.

Section SOURCES.
Context {T : Type} {N : Num T}.
Variables (sq : T -> T) (pw : T -> T -> T).

(** The blockage of a link where its value is not limited. *)
Definition block_by (block : bool) (v x : T) : T := if block then x *~ (n1 -~ v) else x.

(** ** GunnsFluidHeater *)
(** validate, GunnsFluidHeater.cpp:179-187. *)
Definition heater_valid (eff : T) : bool := is_in_range n0 eff n1.
(** step, :211-214, and what transportFlows, :251-256, gives to the nodes of ports 0 and 1. *)
Definition heater_heat (power eff : T) (block : bool) (v : T) : T := block_by block v (power *~ eff).
Definition heater_nodes (q : T) : T * T := (nopp q, q).

(** ** GunnsFluidSourceBoundary *)
Record bnd := mkbnd {
  b_over : bool; b_flip : bool; b_trace : bool; b_block : bool; b_bval : T;   (* flags *)
  b_dem : T; b_rates : list T; b_orates : list T; b_otc : list T; b_oheat : T }.
(** updateState, GunnsFluidSourceBoundary.cpp:304-320: the flow demand. *)
Definition bnd_demand (b : bnd) : T := if b_over b then fold_left nadd (b_orates b) n0 else b_dem b.
(** step, :269-280. *)
Definition bnd_flow (b : bnd) : T :=
  let d := bnd_demand b in
  block_by (b_block b) (b_bval b) (if b_flip b then d *~ nopp n1 else d).
(** step, :285-290; [w] is the molecular weight of the internal fluid. *)
Definition bnd_flux (b : bnd) (w : T) : T :=
  if b_trace b || (w <~ neps) then n0 else bnd_flow b /~ w.
(** transportFlows, :359-364. *)
Definition bnd_volume (b : bnd) (rho : T) : T := if neps <~ rho then bnd_flow b /~ rho else n0.
(** transportFluid, :468-470: the mass flow rate of internal fluid the node collects. *)
Definition bnd_influx (b : bnd) : option T :=
  if negb (b_trace b) && (sorb_limit <~ nabs (bnd_flow b)) then Some (bnd_flow b) else None.
(** updateFluid, :426-430: the heat the node collects; [None]: none is collected. *)
Definition bnd_heat (b : bnd) : option T :=
  if b_over b then Some (if b_flip b then nopp (b_oheat b) else b_oheat b) else None.
(** transportFlows, :373-388: the rates of the trace compounds the node collects. *)
Definition bnd_tc (b : bnd) : option (list T) :=
  if b_over b then Some (map (fun r => if b_flip b then nopp r else r) (b_otc b))
  else if b_trace b && (neps <~ nabs (bnd_flow b)) then Some (map (fun r => bnd_flow b *~ r) (b_rates b))
  else None.
(** :435 and :392-394: the mass of the internal fluid and of its trace compounds. *)
Definition bnd_mass (b : bnd) (dt : T) : T := nabs (bnd_flow b *~ dt).
Definition bnd_tc_mass (b : bnd) (dt : T) : list T := map (fun r => bnd_mass b dt *~ r) (b_rates b).
(** computeFlows, :332-336. *)
Definition bnd_drop (b : bnd) (w p : T) : T := if bnd_flux b w <~ n0 then p else nopp p.

(** ** GunnsFluidSimpleH2Redox *)
Record rx_cfg := mkrx { x_cells : T; x_volt : T; x_react : T; x_max : T; x_heat : T }.
Record rx_out := mkrxo {
  r_trip : bool; r_eff : T;
  r_h2 : T; r_o2 : T; r_h2o : T;          (* mass rates *)
  r_nh2 : T; r_no2 : T; r_nh2o : T;       (* mole rates *)
  r_volt : T; r_heat : T }.
(** mH2Fluid, mO2Fluid, mH2OFluid->getMWeight(): /repo/ms-utils/properties/FluidProperties.cpp,
    113, 117 and 121. *)
Definition w_h2 : T := ndec 201588 (-5).
Definition w_o2 : T := ndec 319988 (-4).
Definition w_h2o : T := ndec 180153 (-4).
(** step, GunnsFluidSimpleH2Redox.cpp:285-294; the partial pressures of hydrogen and water at
    port 0 and of oxygen at port 1. *)
Definition rx_trips (cur ph2 po2 ph2o : T) : bool :=
  if n0 <~ cur then (ph2 <~ ndec 1 (-3)) || (po2 <~ ndec 1 (-3)) else ph2o <~ ndec 1 (-3).
(** :297-301. *)
Definition rx_eff (c : rx_cfg) (block : bool) (v : T) : T := limit_range neps (block_by block v (x_max c)) n1.
(** step, :277-343; [old] is mTrippedOff before. *)
Definition rx_step (c : rx_cfg) (old block : bool) (v cur ph2 po2 ph2o : T) : rx_out :=
  let t := old || rx_trips cur ph2 po2 ph2o in
  let e := rx_eff c block v in
  let r := nopp cur *~ x_react c *~ x_cells c in
  let r := if n0 <~ cur then r /~ e else r *~ e in
  let u := if t then n0 else x_volt c *~ x_cells c in
  if t || (nabs r <~ sorb_limit) then mkrxo t e n0 n0 n0 n0 n0 n0 u (x_heat c *~ nopp n0)
  else
    let h := r /~ w_h2 in
    let o := ndec 5 (-1) *~ h in
    let w := nopp h in
    mkrxo t e r (o *~ w_o2) (w *~ w_h2o) h o w u (x_heat c *~ nopp h).
(** buildSource, :348-352. *)
Definition rx_source (o : rx_out) : T * T := (r_nh2 o +~ r_nh2o o, r_no2 o).
(** transportFlows, :397-402: mass rates of hydrogen and water into node 0, oxygen into node 1. *)
Definition rx_influx (o : rx_out) : option (T * T * T) :=
  if sorb_limit <=~ nabs (r_h2 o) then Some (r_h2 o, r_h2o o, r_o2 o) else None.

(** ** GunnsGasDisplacementPump and GunnsLiquidDisplacementPump *)
Record dp_cfg := mkdp { g_cycle : T; g_ratio : T; g_check : bool }.
(** updateState, GunnsGasDisplacementPump.cpp:295-310; [old] is mImpellerSpeed before. *)
Definition dp_speed (c : dp_cfg) (motor old : T) : T := if neps <~ g_ratio c then motor /~ g_ratio c else old.
Definition dp_valve (c : dp_cfg) (q : T) : T := if (n0 <~ q) || negb (g_check c) then n1 else n0.
Definition dp_volume (c : dp_cfg) (speed : T) : T :=
  let q := speed *~ g_cycle c /~ ndec 60 0 in q *~ dp_valve c q.
(** :317-321; [q] is the volume flow after the cavitation of a liquid pump. *)
Definition dp_demand (speed q rho0 rho1 : T) : T := if n0 <~ speed then q *~ rho0 else q *~ rho1.
(** updateFluid, :339-344; [k] is UnitConversion::SEC_PER_MIN_PER_2PI. *)
Definition dp_power (q drop : T) : T := ndec 1000 0 *~ nabs (q *~ drop).
Definition dp_torque (c : dp_cfg) (k motor power : T) : T :=
  if (feps <~ nabs motor) && (neps <~ g_ratio c) then nopp power *~ k /~ motor else n0.

(** ** GunnsPumpCavitation *)
Record cav_cfg := mkcav {
  v_auto : bool; v_adur : T; v_aamp : T;                  (* automatic cavitation *)
  v_full : bool; v_fdur : T; v_part : bool; v_pdur : T; v_pamp : T }.  (* malfunctions *)
Record cav := mkcavs { v_time : T; v_dur : T; v_frac : T }.
(** initialize, GunnsPumpCavitation.cpp:80-88. *)
Definition cav_init : cav := mkcavs n0 n0 n0.
(** :117-134: whether cavitation is full, the amplitude of the noise, the duration; [None]: none. *)
Definition cav_mode (c : cav_cfg) (p psat : T) : option (bool * T * T) :=
  if v_full c then Some (true, v_pamp c, v_fdur c)
  else if v_auto c && (p <~ psat) then Some (true, v_aamp c, v_adur c)
  else if v_part c then Some (false, v_pamp c, v_pdur c)
  else None.
(** :139-145. *)
Definition cav_frac (full : bool) (dt d f : T) : T :=
  limit_range n0
    (if full then f +~ ndec 2 0 *~ sq (nmax f (ndec 1 (-2))) *~ dt /~ d
     else f -~ ndec 2 0 *~ sq (n1 -~ nmin f (ndec 99 (-2))) *~ dt /~ d) n1.
(** update, :104-160; [p] the inlet node's pressure, [psat] mInletVaporPressure, [noise] what
    TsNoise::getNoise returns. *)
Definition cav_update (c : cav_cfg) (dt p psat noise source : T) (s : cav) : T * cav :=
  let m := cav_mode c p psat in
  let '(full, amp, d) := match m with Some x => x | None => (false, n0, v_dur s) end in
  let t := match m with Some _ => v_time s +~ dt | None => n0 end in
  let d := nmax d neps in
  let f := cav_frac full dt d (v_frac s) in
  let q := source *~ (n1 -~ f) in
  let k := if full || v_part c then amp *~ nmax n0 (n1 -~ t /~ d) else n0 in
  (if n0 <~ k then nmax n0 (q +~ k *~ noise) else q, mkcavs t d f).

(** ** GunnsFluidEvaporation *)
Record evap_cfg := mkevap { e_coef : T; e_exp : T }.
(** updateVaporRate, GunnsFluidEvaporation.cpp:341-373, with a pool connected to port 0: the mass
    rate of vapor; [drop] is mPotentialDrop, [pool] the usable mass, [wg], [wl] the molecular
    weights of vapor and liquid. *)
Definition evap_rate (c : evap_cfg) (block : bool) (v dt drop pool wg wl : T) : T :=
  if (neps <~ wg) && (neps <~ wl) && (neps <~ dt) && (feps <~ pool) then
    let g := nmax drop n0 *~ e_coef c *~ pw pool (e_exp c) in
    let g := block_by block (limit_range n0 v n1) g in
    nmin (g *~ wl /~ wg) (pool /~ dt) *~ wg /~ wl
  else n0.
(** step, :311-313, updateVaporPotential, :331, updatePower, :384-385. *)
Definition evap_flux (rate wg : T) : T := rate /~ nmax wg neps.
Definition evap_source (flux : T) : T * T := (nopp flux, flux).
Definition evap_drop (psat p x : T) : T := psat -~ p *~ x.
Definition evap_power (hvap rate : T) : T := hvap *~ ndec 1000 0 *~ rate.
(** transportFlows, :431-444: mass rates out of node 0 and into node 1. *)
Definition evap_transport (rate flux wl : T) : option (T * T) :=
  if sorb_limit <~ rate then Some (flux *~ wl, rate) else None.

(** ** GunnsFluidSelectiveMembrane *)
(** The internal upstream node, the internal downstream node and the external node: the partial
    pressure of the compound, its saturation pressure and its heat of vaporization at the node's
    temperature. *)
Record side := mkside { z_p : T; z_sat : T; z_hv : T }.
Record memb := mkmemb { z_rate : T; z_isat : bool; z_esat : bool; z_change : bool; z_heat : T }.
(** step, GunnsFluidSelectiveMembrane.cpp:345-376; [flow] is mFlowRate, [x] the upstream mass
    fraction of the compound, [old] mInternalSaturated before. *)
Definition memb_rate (coef flow x : T) (deg : bool) (v : T) (up down ext : side) : T :=
  let du := z_p up -~ z_p ext in
  let dd := z_p down -~ z_p ext in
  if dd *~ du <~ n0 then n0
  else
    let r := if n0 <~ du then nmin (du *~ coef) (ndec 99 (-2) *~ nabs flow *~ x)
             else nmin (dd *~ coef) (ndec 1000000 0) in
    block_by deg (limit_range n0 v n1) r.
Definition saturated (s : side) : bool := z_sat s <~ z_p s.
Definition memb_isat (old : bool) (up down ext : side) : bool :=
  let du := z_p up -~ z_p ext in
  let dd := z_p down -~ z_p ext in
  if dd *~ du <~ n0 then old else if n0 <~ du then saturated up else saturated down.
(** :372 and :351, then :395-411. *)
Definition memb_step (coef flow x : T) (deg : bool) (v : T) (up down ext : side) (old : bool) : memb :=
  let r := memb_rate coef flow x deg v up down ext in
  let i := memb_isat old up down ext in
  let e := saturated ext in
  let ch := if (z_p down -~ z_p ext) *~ (z_p up -~ z_p ext) <~ n0 then false else xorb i e in
  let h := if ch
           then if r <~ n0
                then let h := z_hv ext *~ r *~ ndec 1000 0 in if e then h *~ nopp n1 else h
                else let h := z_hv up *~ r *~ ndec 1000 0 in if i then h *~ nopp n1 else h
           else n0 in
  mkmemb r i e ch h.
(** :380-389: the sources to the upstream, downstream and external nodes. *)
Definition memb_source (r w : T) : T * T * T :=
  let f := r /~ w in
  if n0 <~ f then (nopp f, n0, f) else (n0, nopp f, f).
(** transportFlows, :514-542: what the three nodes gain, as mass rates. *)
Definition memb_gain (r : T) : T * T * T :=
  if sorb_limit <~ r then (nopp r, n0, r) else if r <~ nopp sorb_limit then (n0, nopp r, r) else (n0, n0, n0).
(** :545-551: the heat each of them gains. *)
Definition memb_warm (m : memb) : T * T * T :=
  if z_change m then if sorb_limit <~ z_rate m then (n0, z_heat m, n0) else (n0, n0, z_heat m)
  else (n0, n0, n0).

(** ** GunnsFluidPhaseChangeSource *)
(** step, GunnsFluidPhaseChangeSource.cpp:325-381; the rises in enthalpy and the heats of
    vaporization (in kJ/kg) when boiling and when condensing; [w] the gas's molecular weight. *)
Definition pcs_power (input eff : T) (block : bool) (v : T) : T := block_by block v (input *~ eff).
Definition pcs_heat (power dhb lb dhc lc : T) : T :=
  if n0 <~ power then dhb +~ lb *~ ndec 1000 0 else dhc +~ lc *~ ndec 1000 0.
Definition pcs_rate (power dhb lb dhc lc : T) : T := power /~ nmax (pcs_heat power dhb lb dhc lc) feps.
Definition pcs_source (rate w : T) : T * T :=
  let f := rate /~ w in if sorb_limit <~ nabs rate then (nopp f, f) else (n0, n0).
(** transportFluid, :451-473: the mass rates the nodes of ports 0 and 1 gain. *)
Definition pcs_gain (rate : T) : T * T :=
  if sorb_limit <~ rate then (nopp rate, rate) else if rate <~ nopp sorb_limit then (nopp rate, rate) else (n0, n0).
End SOURCES.
