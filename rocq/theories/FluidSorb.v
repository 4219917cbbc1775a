(** Links that take a constituent out of a gas stream: adsorbers, the compounds of a bed, the bed
    of several compounds, and the gas side of a water separator.
    Source: /repo/aspects/fluid/source/GunnsFluidAdsorber.cpp, GunnsFluidHotAdsorber.cpp,
    GunnsFluidAdsorptionCompound.cpp, GunnsFluidMultiAdsorber.cpp, GunnsFluidSeparatorGas.cpp.

    The internal fluid is the values its getters return.  The heat between wall and fluid is
    [conv_flux] of FluidFlow; the relative humidity is an argument.  Messages are left out. *)
From Coq Require Import List Bool ZArith.
From Verif Require Import Num MathUtil FluidFlow FluidTrace.
Import ListNotations.

Section SORB.
Context {T : Type} {N : Num T}.
Variable pw : T -> T -> T.

(** m100EpsilonLimit. *)
Definition sorb_limit : T := ndec 100 0 *~ neps.
(** UnitConversion::UNIT_PER_MEGA. *)
Definition mega : T := ndec 1000000 0.

(** ** GunnsFluidAdsorber *)
Record ads_cfg := mkadscfg {
  a_eff : T; a_max_rate : T; a_max : T; a_drate : T;      (* configuration *)
  a_cycle : bool; a_malf : bool; a_mval : T }.            (* mDesorbtionCycle and the malfunction *)
Record ads := mkads { a_ads : T; a_mass : T; a_rate : T; a_src : T * T }.
(** What the node at a port receives: the port (true is 1) and a mass flow rate. *)
Definition influx : Type := option (bool * T).

(** validate, GunnsFluidAdsorber.cpp:310-349, but for the gas and the wall temperature;
    [m] is the initial adsorbed mass. *)
Definition ads_valid (c : ads_cfg) (m : T) : bool :=
  is_in_range n0 (a_eff c) n1 && negb (a_max_rate c <~ n0) && negb (a_max c <~ n0) &&
  negb (a_drate c <~ n0) && negb (m <~ n0).
(** computeEfficiency, :512-528. *)
Definition ads_efficiency (c : ads_cfg) : T :=
  if a_malf c then a_mval c else if a_cycle c then nopp n1 else a_eff c.
(** adsorb, :427-436: the mass that joins the bed; [x] is the gas's mass fraction. *)
Definition adsorb_mass (c : ads_cfg) (dt rate x eff held : T) : T :=
  nmax (nmin (x *~ rate *~ dt *~ eff) (nmin (a_max_rate c *~ dt) (a_max c -~ held))) n0.
(** desorb, :475. *)
Definition desorb_mass (c : ads_cfg) (dt eff held : T) : T :=
  nopp (nmax (nmin held (nopp eff *~ a_drate c *~ dt)) n0).
(** updateFluid, :373-416, but for temperatures; [cyc] and [eff] are what computeEfficiency
    leaves, [w] is the molecular weight of the adsorbed gas. *)
Definition ads_run (c : ads_cfg) (cyc : bool) (eff dt flow x w : T) (s : ads) : ads * influx :=
  if neps <~ dt then
    let m := if cyc then desorb_mass c dt eff (a_ads s) else adsorb_mass c dt (nabs flow) x eff (a_ads s) in
    let r := nopp m /~ dt in
    if sorb_limit <~ nabs r then
      let fwd := n0 <=~ flow in
      (mkads (a_ads s +~ m) m r (if fwd then (n0, r /~ w) else (r /~ w, n0)), Some (fwd, r))
    else (mkads (a_ads s +~ m) m r (a_src s), None)
  else (mkads (a_ads s) n0 n0 (a_src s), None).
Definition ads_update (c : ads_cfg) (dt flow x w : T) (s : ads) : ads * influx :=
  ads_run c (a_cycle c) (ads_efficiency c) dt flow x w s.
(** GunnsFluidHotAdsorber.cpp:226-237: the efficiency follows the temperature and its sign picks
    the cycle. *)
Definition hot_efficiency (c : ads_cfg) (bias k t : T) : T :=
  if a_malf c then a_mval c else limit_range (nopp n1) (bias +~ k *~ t) n1.
Definition hot_update (c : ads_cfg) (bias k t dt flow x w : T) (s : ads) : ads * influx :=
  let e := hot_efficiency c bias k t in ads_run c (e <~ n0) e dt flow x w s.

(** The trace compounds in adsorb, :440-460: efficiency, capacity and mass held of each, beside
    the cells of the internal fluid; [flux] is the link's molar flux. *)
Record tbed := mktbed { t_eff : T; t_max : T; t_held : T }.
Definition tc_efficiency (b : tbed) : T :=
  if neps <~ t_max b then t_eff b *~ nmax n0 ((t_max b -~ t_held b) /~ t_max b) else t_eff b.
Definition tc_take (dt : T) (p : tbed * @cell T) : tbed * @cell T :=
  let (b, c) := p in
  let e := tc_efficiency b in
  if neps <~ e then
    let r := c_m c *~ e in
    (mktbed (t_eff b) (t_max b) (t_held b +~ r *~ dt), mkcell (c_w c) (c_m c -~ r) (c_x c))
  else (b, c).
Definition tc_adsorb (dt flux : T) (bs : list tbed) (cs : list (@cell T)) : list tbed * list (@cell T) :=
  let ps := map (tc_take dt) (combine bs (update_masses flux cs)) in
  (map fst ps, update_fracs flux (map snd ps)).

(** ** GunnsFluidAdsorptionCompound *)
Record comp := mkcomp {
  p_trace : bool; p_index : nat; p_w : T;                 (* mTraceCompound, mIndex, mMWeight *)
  p_c0 : T; p_c1 : T; p_max : T; p_dpp : T; p_dfac : T; p_heat : T; p_taper : bool; p_bexp : T;
  p_dep : option nat;                                     (* mDependentCompound in the bed *)
  p_malf : bool; p_mval : T }.
Record cst := mkcst { q_ads : T; q_fill : T; q_rate : T; q_heat : T }.
(** initialize, :207-241, but for the compound's type. *)
Definition comp_valid (c : comp) (m : T) : bool :=
  negb (p_max c <~ neps) && negb (p_dfac c <~ n0) && is_in_range n0 m (p_max c) &&
  is_in_range n0 (p_mval c) n1 && is_in_range n1 (p_bexp c) (ndec 100 0).
(** updateFillFraction, GunnsFluidAdsorptionCompound.hh:155-158. *)
Definition fill_of (c : comp) (m : T) : T := m /~ nmax (p_max c) neps.
(** The stream: mass and mole fractions of the fluids, cells of the trace compounds. *)
Record stream := mkstream { st_mass : list T; st_mole : list T; st_tc : list (@cell T) }.
Definition tc_frac (f : stream) (i : nat) : T := match nth_error (st_tc f) i with Some c => c_x c | None => n0 end.
Definition tc_mass (f : stream) (i : nat) : T := match nth_error (st_tc f) i with Some c => c_m c | None => n0 end.
(** The rate through and the rate wanted, :261-289; [None]: getMassFraction threw for an index
    that is not one of the fluid's. *)
Definition comp_thru (c : comp) (f : stream) (mdot : T) : option T :=
  if p_trace c && (sorb_limit <~ nabs mdot) then Some (tc_mass f (p_index c))
  else match nth_error (st_mass f) (p_index c) with Some x => Some (x *~ nabs mdot) | None => None end.
Definition comp_wanted (c : comp) (f : stream) (t p mdot : T) : option T :=
  let eff := limit_range (nopp n1) (p_c0 c +~ p_c1 c *~ t) n1 in
  let pp := p *~ (if p_trace c then tc_frac f (p_index c) else nth (p_index c) (st_mole f) n0) in
  if (pp <~ p_dpp c) || (eff <~ n0)
  then Some (nmin n0 (pp -~ p_dpp c) *~ p_dfac c *~ nabs eff)
  else match comp_thru c f mdot with Some r => Some (eff *~ r) | None => None end.
(** :294-324; [dep] is the fill fraction of the compound it depends on. *)
Definition comp_shape (c : comp) (dep : option T) (fill r : T) : T :=
  let r := if p_taper c
           then if n0 <~ r then r *~ (n1 -~ pw (nmax (ndec 1 (-1)) fill) (limit_range n1 (p_bexp c) (ndec 100 0)))
                else r *~ fill
           else r in
  let r := match dep with Some d => if n0 <~ r then r *~ d else r *~ (n1 -~ d) | None => r end in
  if p_malf c then r *~ p_mval c else r.
Definition comp_cap (c : comp) (dt held r : T) : T :=
  if n0 <~ r then nmin r ((p_max c -~ held) /~ dt) else nmax r (nopp held /~ dt).
(** :327-342. *)
Definition comp_snap (c : comp) (m : T) : T :=
  if m <~ neps then n0 else if p_max c -~ m <~ neps then p_max c else m.
Definition comp_sorb (c : comp) (dep : option T) (f : stream) (dt t p mdot : T) (s : cst) : option cst :=
  match comp_wanted c f t p mdot with
  | None => None
  | Some r =>
      let r := comp_cap c dt (q_ads s) (comp_shape c dep (q_fill s) r) in
      let m := comp_snap c (q_ads s +~ r *~ dt) in
      Some (mkcst m (fill_of c m) r (nopp (p_heat c) *~ r *~ mega /~ p_w c))
  end.

(** ** GunnsFluidMultiAdsorber *)
(** The loop at :321-328, compound by compound; a dependency reads the fill fraction its compound
    has at that moment. *)
Definition dep_fill (c : comp) (done todo : list cst) : option T :=
  match p_dep c with
  | Some j => match nth_error (done ++ todo) j with Some s => Some (q_fill s) | None => None end
  | None => None
  end.
Fixpoint bed_loop (f : stream) (dt t p mdot : T) (cs : list comp) (done todo : list cst) : option (list cst) :=
  match cs, todo with
  | c :: cs', s :: todo' =>
      match comp_sorb c (dep_fill c done todo) f dt t p mdot s with
      | Some s' => bed_loop f dt t p mdot cs' (done ++ [s']) todo'
      | None => None
      end
  | _, _ => Some done
  end.
(** The total over the fluids, :321-328, and over all the heats. *)
Definition bulk_rate (cs : list comp) (ss : list cst) : T :=
  fold_left (fun a p => if p_trace (fst p) then a else a +~ q_rate (snd p)) (combine cs ss) n0.
Definition bed_heat (ss : list cst) : T := fold_left (fun a s => a +~ q_heat s) ss n0.
(** :352-362: the trace compounds of the stream; [mole] is the moles of the stream. *)
Fixpoint set_mass (l : list (@cell T)) (i : nat) (d : T) : list (@cell T) :=
  match l, i with
  | c :: r, O => mkcell (c_w c) (c_m c -~ d) (c_x c) :: r
  | c :: r, S k => c :: set_mass r k d
  | [], _ => []
  end.
Definition bed_trace (mole : T) (cs : list comp) (ss : list cst) (tc : list (@cell T)) : list (@cell T) :=
  update_fracs mole (fold_left (fun l p =>
    if p_trace (fst p) then set_mass l (p_index (fst p)) (q_rate (snd p)) else l) (combine cs ss) tc).
Record bed_out := mkbed { b_st : list cst; b_heat : T; b_tc : list (@cell T); b_src : T * T; b_in : influx }.
(** updateFluid, :292-381; [wall] the heat from the wall, [t_in] the temperature of the inlet
    node's outflow, [t] that of the stream, [p0], [p1] the potentials, [w] the molecular weight of
    the sorbed mixture; [old] is the source vector before. *)
Definition bed_update (cs : list comp) (f : stream) (mole wall dt flow t_in t p0 p1 w : T)
    (old : T * T) (ss : list cst) : option bed_out :=
  if neps <~ dt then
    match bed_loop f dt (ndec 5 (-1) *~ (t_in +~ t)) (ndec 5 (-1) *~ (p0 +~ p1)) flow cs [] ss with
    | None => None
    | Some ss' =>
        let r := bulk_rate cs ss' in
        let q := wall +~ bed_heat ss' in
        if sorb_limit <~ nabs r then
          let back := flow <~ n0 in
          Some (mkbed ss' q (bed_trace mole cs ss' (st_tc f))
                 (if back then (nopp r /~ w, n0) else (n0, nopp r /~ w)) (Some (negb back, nopp r)))
        else Some (mkbed ss' q (st_tc f) (n0, n0) None)
    end
  else Some (mkbed ss wall (st_tc f) old None).

(** ** GunnsFluidSeparatorGas *)
Record sep_cfg := mksepcfg { s_exp : T; s_max : T; s_curve : T; s_removal : T }.
Record sep := mksep { s_speed : T; s_transfer : T; s_liquid : T; s_err : T; s_rate : T; s_over : bool;
  s_dp : T; s_src : T * T }.
(** derive, :306-345. *)
Definition sep_derive (expo cap rspeed rpress rrate : T) : sep_cfg :=
  mksepcfg expo cap (rpress /~ rspeed /~ pw cap expo) (rrate /~ rspeed).
(** validate, :229-281, but for the gas. *)
Definition sep_valid (expo cap rspeed rpress rrate speed liquid : T) : bool :=
  is_in_range (ndec 1 (-1)) expo (ndec 10 0) && negb (cap <~ feps) && negb (rspeed <~ feps) &&
  negb (rpress <~ feps) && negb (rrate <~ feps) && negb (speed <~ n0) && negb (liquid <~ n0).
(** updateFluid, :356-423; [hum] the relative humidity, [x] the gas's mass fraction, [w] its
    molecular weight. *)
Definition sep_update (c : sep_cfg) (dt flow hum x w : T) (s : sep) : sep * influx :=
  let none := (flow <~ sorb_limit) || (hum <~ n1) in
  let l := s_liquid s -~ nmax n0 (s_transfer s *~ dt) in
  let (l, e) := if l <~ n0 then (n0, s_err s -~ l) else (l, s_err s) in
  let '(l, r, over) :=
    if (dt <~ neps) || none then (l, n0, false)
    else
      let cond := nmin (x *~ nabs flow *~ dt) (s_removal c *~ s_speed s *~ dt) in
      let m := nmin cond (s_max c -~ l) in
      (l +~ m, m /~ dt, m <~ cond) in
  let dp := s_curve c *~ s_speed s *~ pw l (s_exp c) in
  let go := sorb_limit <~ r in
  (mksep (s_speed s) (s_transfer s) l e r over dp (if go then (n0, nopp r /~ w) else (n0, n0)),
   if go then Some (true, nopp r) else None).
End SORB.
