(** Accumulators: a liquid chamber behind a bellows, pressed by a spring and by a gas chamber.
    Source: /repo/aspects/fluid/capacitor/GunnsFluidAccum.cpp, GunnsFluidAccumGas.cpp.

    A fluid is its mass, temperature and pressure; its density, specific enthalpy and the temperature
    at a specific enthalpy are functions given by the caller.  Messages are not modelled. *)
From Coq Require Import List Bool ZArith.
From Verif Require Import Num MathUtil FluidFlow FluidSorb.
Import ListNotations.

Section ACCUM.
Context {T : Type} {N : Num T}.

(** ** Configuration *)
Record acfg := mkacfg {
  a_maxcond : T; a_minscale : T; a_vol : T; a_minpct : T; a_bandpct : T; a_maxrate : T; a_hold : T;
  a_tmin : T; a_tmax : T; a_pmax : T; a_thr : T; a_oneway : T; a_c0 : T; a_c1 : T; a_c2 : T }.
Definition hundred : T := ndec 100 0.
Definition fifty : T := hundred /~ ndec 2 0.
(** validate, GunnsFluidAccum.cpp:1362-1446; [tiny] FLT_EPSILON, [pos] the initial bellows position,
    [fluid] whether there is fluid input data. *)
Definition acc_valid (tiny : T) (c : acfg) (pos : T) (fluid : bool) : bool :=
  negb (a_maxcond c <~ n0) && is_in_range neps (a_minscale c) n1 && negb (a_vol c <=~ tiny) &&
  negb (a_minpct c <=~ n0) && negb (fifty <=~ a_minpct c) && negb (a_bandpct c <=~ a_minpct c) && negb (fifty <=~ a_bandpct c) &&
  negb (a_maxrate c <=~ n0) && negb (a_hold c <~ n0) && negb (a_tmin c <=~ n0) && negb (a_tmax c <=~ n0) && negb (a_tmax c <=~ a_tmin c) &&
  negb (a_pmax c <~ neps) && negb ((neps <~ a_thr c) && (a_oneway c <~ neps)) && is_in_range n0 pos n1 && fluid.
Record ageo := mkageo { g_min : T; g_max : T; g_band : T; g_range : T; g_total : T }.
(** initialize, :703-707. *)
Definition acc_geo (c : acfg) : ageo :=
  let lo := a_vol c *~ a_minpct c /~ hundred in
  mkageo lo (a_vol c) (a_vol c *~ a_bandpct c /~ hundred) (a_vol c -~ lo) (a_vol c +~ lo).

(** ** Ramps and timers *)
(** rampValue, :812-840: value, target, rate, complete. *)
Definition ramp (dt cur goal rate glo ghi rlo rhi : T) : T * T * T * bool :=
  let goal := limit_range glo goal ghi in
  let rate := limit_range rlo rate rhi in
  let step := rate *~ dt in
  let cur := if cur <~ goal then nmin (cur +~ step) goal else if goal <~ cur then nmax (cur -~ step) goal else cur in
  (cur, goal, rate, goal ==~ cur).
(** processTimer, :786-794. *)
Definition timer (dt t lim : T) : T * bool := if t <~ lim then (t +~ dt, false) else (t, true).

(** ** Chambers *)
(** mBellowsPosition, mLiquidVolume, mPressurizerVolume, mass and temperature of mInternalFluid. *)
Record chamber := mkch { x_pos : T; x_liq : T; x_gas : T; x_mass : T; x_temp : T }.
(** updatePressurizerVolume, :1327-1336. *)
Definition gas_volume (g : ageo) (liq : T) : T :=
  if g_max g <=~ liq then g_min g else if liq <=~ g_min g then g_max g
  else limit_range (g_min g) (g_total g -~ liq) (g_max g).
(** deriveChamberVolumes, :527-532. *)
Definition derive (g : ageo) (x : chamber) : chamber :=
  let liq := limit_range (g_min g) (x_pos x *~ g_range g +~ g_min g) (g_max g) in
  mkch (x_pos x) liq (gas_volume g liq) (x_mass x) (x_temp x).
(** computeMass, :454-457 and :468-475; m100EpsilonLimit is [sorb_limit]. *)
Definition mass_of (vol rho : T) : T := nmax (vol *~ rho) neps.
Definition mass_step (dt flow m : T) : T := nmax (if sorb_limit <~ nabs flow then m +~ flow *~ dt else m) neps.
(** The fluid's functions: density at a temperature, specific enthalpy at a temperature, temperature
    at a specific enthalpy. *)
Record afluid := mkaf { f_rho : T -> T; f_h : T -> T; f_t : T -> T }.
(** computeTemperature, :488-520; [hin] the specific enthalpy of the node, [q] the housing's heat. *)
Definition acc_temp (c : acfg) (f : afluid) (hold : bool) (dt flow hin q m t : T) : T :=
  let m' := mass_step dt flow m in
  let t' :=
    if hold then t
    else if n0 <~ m' then
      let hf := if flow <~ nopp sorb_limit then flow *~ f_h f t else if sorb_limit <~ flow then flow *~ hin else n0 in
      f_t f ((m *~ f_h f t +~ (q +~ hf) *~ dt) /~ m')
    else t in
  limit_range (a_tmin c) t' (a_tmax c).
(** The surroundings of a step: mFlowRate, the node's specific enthalpy, mLiquidHousingQ,
    mHoldTemperatureFlag, mHoldAccumFlag. *)
Record around := mkar { r_flow : T; r_hin : T; r_q : T; r_holdt : bool; r_hold : bool }.
Definition chamber_temp (c : acfg) (f : afluid) (dt : T) (r : around) (m t : T) : T :=
  acc_temp c f (r_holdt r) dt (r_flow r) (r_hin r) (r_q r) m t.
(** forceLiqChamber, :613-652: chamber, position, rate, complete. *)
Definition force_liq (c : acfg) (g : ageo) (f : afluid) (dt : T) (r : around) (goal rate : T) (utemp : bool) (x : chamber)
  : chamber * T * T * bool :=
  let '(pos, goal, rate, done) := ramp dt (x_pos x) goal rate n0 n1 n0 (a_maxrate c) in
  let y := derive g (mkch pos (x_liq x) (x_gas x) (x_mass x) (x_temp x)) in
  let m := mass_of (x_liq y) (f_rho f (x_temp x)) in
  let t := if utemp then chamber_temp c f dt r m (x_temp x) else x_temp x in
  (mkch pos (x_liq y) (x_gas y) m t, goal, rate, done).
(** updateLiqChamber, :1230-1262. *)
Definition update_liq (c : acfg) (g : ageo) (f : afluid) (dt : T) (r : around) (x : chamber) : chamber :=
  if r_hold r then x
  else
    let t := chamber_temp c f dt r (x_mass x) (x_temp x) in
    let m := mass_step dt (r_flow r) (x_mass x) in
    let rho := f_rho f t in
    let liq := if n0 <~ rho then limit_range (g_min g) (m /~ rho) (g_max g) else x_liq x in
    let pos := if n0 <~ g_range g then limit_range n0 ((liq -~ g_min g) /~ g_range g) n1 else x_pos x in
    mkch pos liq (gas_volume g liq) m t.
(** editTemperature, :572-581: the value edited, mass, temperature. *)
Definition edit_temp (c : acfg) (f : afluid) (vol v : T) : T * T * T :=
  let v := limit_range (a_tmin c) v (a_tmax c) in (v, mass_of vol (f_rho f v), v).

(** ** The bellows: malfunctions and edits *)
Record bellows := mkbel {
  b_x : chamber; b_stuck : bool;
  b_edit : bool; b_epos : T; b_erate : T; b_timer : T;       (* the edit of the position *)
  b_tedit : bool; b_tval : T;                                (* the edit of the temperature *)
  b_stick : bool; b_to : bool; b_tpos : T; b_trate : T;      (* the malfunctions stick, stick to position *)
  b_set : bool }.                                            (* mBellowsMalfSet *)
(** What the pressurizer imposes on the bellows: nothing, to stay (GunnsFluidAccumGas.cpp:384-390),
    to go to the position of a rupture at a rate (:378-383). *)
Inductive impose := Free | Stay | Rupture (pos rate : T).
Definition with_x (x : chamber) (b : bellows) : bellows :=
  mkbel x (b_stuck b) (b_edit b) (b_epos b) (b_erate b) (b_timer b) (b_tedit b) (b_tval b) (b_stick b) (b_to b) (b_tpos b) (b_trate b) (b_set b).
(** resetEditFlagsAndTimers, :847-853. *)
Definition no_edits (b : bellows) : bellows :=
  mkbel (b_x b) (b_stuck b) false (b_epos b) (b_erate b) n0 false (b_tval b) (b_stick b) (b_to b) (b_tpos b) (b_trate b) (b_set b).
(** The part of updateFluid on the liquid, :1184-1214, with editTemperature, editLiqChamber :541-553
    and failLiqChamber :590-601; [react] mEditsAreReactive, [both] mSimultaneousEditsInProgress. *)
Definition liquid_step (c : acfg) (g : ageo) (f : afluid) (dt : T) (r : around) (react both : bool) (i : impose) (b : bellows) : bellows :=
  let x := b_x b in
  let '(tval, x) := if b_tedit b then let '(v, m, t) := edit_temp c f (x_liq x) (b_tval b) in
                                      (v, mkch (x_pos x) (x_liq x) (x_gas x) m t) else (b_tval b, x) in
  let b := mkbel x false (b_edit b) (b_epos b) (b_erate b) (b_timer b) false tval (b_stick b) (b_to b) (b_tpos b) (b_trate b) (b_set b) in
  match i with
  | Rupture pos rate =>
      let b := no_edits b in
      let '(x, _, _, done) := force_liq c g f dt r pos rate true x in
      mkbel x false false (b_epos b) (b_erate b) n0 false (b_tval b) (b_stick b) (b_to b) (b_tpos b) (b_trate b) (b_set b || done)
  | Stay =>
      (* the target is a reference to the position itself *)
      let p := limit_range n0 (x_pos x) n1 in
      let '(x, _, _, done) := force_liq c g f dt r p n0 false (mkch p (x_liq x) (x_gas x) (x_mass x) (x_temp x)) in
      mkbel x false (b_edit b) (b_epos b) (b_erate b) (b_timer b) false (b_tval b) (b_stick b) (b_to b) (b_tpos b) (b_trate b) (b_set b || done)
  | Free =>
      if b_stick b || b_to b then
        let b := no_edits b in
        if b_stick b then mkbel x true false (b_epos b) (b_erate b) n0 false (b_tval b) true (b_to b) (b_tpos b) (b_trate b) (b_set b)
        else
          let '(x, pos, rate, done) := force_liq c g f dt r (b_tpos b) (b_trate b) true x in
          mkbel x done false (b_epos b) (b_erate b) n0 false (b_tval b) false (b_to b) pos rate (b_set b)
      else if b_edit b then
        let '(x, pos, rate, done) := force_liq c g f dt r (b_epos b) (b_erate b) (react && negb both) x in
        let '(t, out) := if done then timer dt (b_timer b) (a_hold c) else (b_timer b, false) in
        mkbel x false (negb out) pos rate t false (b_tval b) false false (b_tpos b) (b_trate b) (b_set b)
      else
        mkbel (update_liq c g f dt r x) false false (b_epos b) (b_erate b) n0 false (b_tval b) false false (b_tpos b) (b_trate b) (b_set b)
  end.

(** ** Flow *)
(** computeFlux :394-399, computeFlowRate :369-382, computeVolFlowRate :410-425. *)
Definition acc_flux (pnode p cond : T) : T := (pnode -~ p) *~ cond.
Definition acc_flow (flux wnode w : T) : T := if n0 <~ flux then flux *~ wnode else if flux <~ n0 then flux *~ w else n0.
Definition acc_volflow (flow rnode rho : T) : T := if n0 <~ flow then flow /~ rnode else if flow <~ n0 then flow /~ rho else n0.
(** transportAccumFluid, :928-940: what the node collects as influx, as outflux. *)
Definition acc_move (flow : T) : T * T :=
  if sorb_limit <~ flow then (n0, flow) else if flow <~ nopp sorb_limit then (nopp flow, n0) else (n0, n0).
(** computeFlows, :433-444: what is scheduled on the node, the direction of the port. *)
Inductive aport := PNone | PSource | PSink.
Definition acc_port (flux : T) : T * aport :=
  if neps <~ flux then (flux, PSource) else if flux <~ nopp neps then (n0, PSink) else (n0, PNone).

(** ** Conductivity *)
(** computeConductivity, :336-357. *)
Definition acc_cond (cap hi cur lo dt : T) : T :=
  if neps <~ dt then if lo <=~ hi then limit_range lo (cap /~ dt) hi else limit_range n0 (cap /~ dt) hi else cur.
Inductive zone := ZEmpty | ZLow | ZMiddle | ZHigh | ZFull.
Inductive fmode := Filling | Draining | Equalized.
Definition zone_of (g : ageo) (liq : T) : zone :=
  let w := g_band g -~ g_min g in
  if liq <=~ g_min g then ZEmpty else if g_max g <=~ liq then ZFull
  else if (liq <~ g_band g) && (g_min g <~ liq) then ZLow
  else if (g_max g -~ w <~ liq) && (liq <~ g_max g) then ZHigh else ZMiddle.
Definition fmode_of (thr pin pout : T) : fmode :=
  if thr <~ pout -~ pin then Filling else if thr <~ pin -~ pout then Draining else Equalized.
(** updateEffConductivityScale, :1014-1149: mEffConductivityScale and mEffCondScaleOneWayRate; [pin],
    [pout] the pressures of the liquid and of the node, [busy] an override or an edit of the bellows. *)
Definition acc_scale (c : acfg) (g : ageo) (dt pin pout liq gas : T) (stuck busy : bool) (s rate : T) : T * T :=
  let w := g_band g -~ g_min g in
  if w <=~ n0 then (s, rate)
  else
    let hi := if n0 <~ dt then n1 /~ dt else n0 in
    let low := limit_range n0 ((liq -~ g_min g) /~ w) n1 in
    let high := limit_range n0 ((gas -~ g_min g) /~ w) n1 in
    let up := let '(s', _, rate', _) := ramp dt s n1 rate n0 n1 n0 hi in (s', rate') in
    let z := zone_of g liq in
    let m := fmode_of (a_thr c) pin pout in
    if stuck then (n0, rate)
    else match z, busy with
    | ZMiddle, _ => (n1, rate)
    | _, true => (n1, rate)
    | _, false =>
      match neps <~ a_thr c, m with
      | true, Filling => match z with ZHigh => (high, rate) | ZFull => (n0, rate) | _ => up end
      | true, Draining => match z with ZLow => (low, rate) | ZEmpty => (n0, rate) | _ => up end
      | _, _ =>
        match z, m with
        | ZLow, _ => (low, rate)
        | ZHigh, _ => (high, rate)
        | ZEmpty, Filling => (a_minscale c, rate)
        | ZFull, Draining => (a_minscale c, rate)
        | _, _ => (n0, rate)
        end
      end
    end.
(** updateEffectiveConductivity, :1159-1171. *)
Definition acc_eff (c : acfg) (scale cap eff dt : T) : T :=
  limit_range n0 (scale *~ acc_cond cap (a_maxcond c) eff n0 dt) (a_maxcond c).
(** updateCapacitance, :958-968. *)
Definition spring_cap (c : acfg) (g : ageo) (pos head rho w : T) : T :=
  let k := ndec 2 0 *~ pos *~ a_c2 c +~ a_c1 c +~ head /~ nmax pos neps in
  if neps <~ k then n1 /~ k *~ g_range g *~ rho /~ w else n0.
(** updatePressure, :1304-1313: spring pressure, pressure of the liquid. *)
Definition spring (c : acfg) (pos : T) : T := pos *~ pos *~ a_c2 c +~ pos *~ a_c1 c +~ a_c0 c.
Definition liq_press (c : acfg) (pos head gas : T) : T := limit_range neps (spring c pos +~ head +~ gas) (a_pmax c).

(** ** GunnsFluidAccumGas *)
(** validate, GunnsFluidAccumGas.cpp:680-704. *)
Definition gas_valid (hi lo rate : T) (fluid : bool) : bool := negb (hi <~ n0) && negb (lo <~ neps) && negb (rate <=~ n0) && fluid.
(** updateCapacitance, :440-472; [cap] mGasCapacitance. *)
Definition gas_liq_cap (c : acfg) (cap springc rhog wg rhol wl : T) : T :=
  if (n0 <~ rhog) && (n0 <~ wl) then
    let l := cap *~ rhol *~ wg /~ rhog /~ wl in
    if (neps <~ a_c0 c) || (neps <~ a_c1 c) || (neps <~ a_c2 c) then nmin l springc else l
  else n0.
Record gasch := mkgas { y_mass : T; y_temp : T; y_press : T }.
(** forceGasChamber, :247-285; [p] the pressure of the liquid, [sp] mSpringPressure, [rho] the density
    at a temperature and a pressure; [r] the surroundings on the gas side. *)
Definition force_gas (c : acfg) (f : afluid) (rho : T -> T -> T) (maxrate dt : T) (r : around) (p sp vol goal rate : T) (utemp : bool) (y : gasch)
  : gasch * T * T * bool :=
  let '(p', goal, rate, done) := ramp dt p goal rate neps (a_pmax c) n0 maxrate in
  let pg := p' -~ sp in
  let m := mass_of vol (rho (y_temp y) pg) in
  let t := if utemp then chamber_temp c f dt r m (y_temp y) else y_temp y in
  (mkgas m t pg, goal, rate, done).
(** updateGasChamber, :481-516; [pr] computePressure at a temperature and a density.  The mass after
    mixFluidMasses (core/GunnsFluidUtils.cpp:1186) is the sum; it raises an error below DBL_EPSILON. *)
Definition update_gas (c : acfg) (f : afluid) (pr : T -> T -> T) (dt : T) (r : around) (vol : T) (y : gasch) : option gasch :=
  if r_hold r then Some y
  else
    let t := chamber_temp c f dt r (y_mass y) (y_temp y) in
    let new := mass_step dt (r_flow r) (y_mass y) in
    let mixed := dt *~ r_flow r +~ y_mass y in
    let m := if neps <~ r_flow r then mixed else new in
    if (neps <~ r_flow r) && (mixed <~ neps) then None
    else Some (mkgas m t (if n0 <~ vol then limit_range neps (pr t (new /~ vol)) (a_pmax c) else y_press y)).
(** The decisions of updatePressurizerFluid, :544-648: mPressurizerOrideBellowsFlag,
    mSimultaneousEditsInProgress and what is done with the gas: the normal update, the pressure of the
    rupture, the edit (with or without the normal temperature), or the pressure held. *)
Inductive gdo := GUpdate | GRupture | GEdit (utemp : bool) | GHold.
Definition gas_plan (rupt pset bset pedit bedit react both : bool) : bool * bool * gdo :=
  if rupt then (true, both, if pset && bset then GUpdate else GRupture)
  else
    let both := if pedit && bedit then true else if negb pedit && negb bedit then false else both in
    if pedit then (negb bedit && (negb react || both), both, GEdit (react && negb both))
    else (false, both, if both || (bedit && negb react) then GHold else GUpdate).
End ACCUM.
Arguments acfg : clear implicits.
Arguments ageo : clear implicits.
Arguments chamber : clear implicits.
Arguments bellows : clear implicits.
Arguments around : clear implicits.
Arguments afluid : clear implicits.
Arguments gasch : clear implicits.
