(** The core fluid links other than the conductor: flow source, capacitor, pressure source, flow
    controller, the two ends of an external connection, the flow integrator and the analyzers of
    islands.
    Source: /repo/core/GunnsFluidSource.cpp, GunnsFluidCapacitor.cpp, GunnsFluidPotential.cpp,
    GunnsFluidFlowController.cpp, GunnsFluidExternalSupply.cpp, GunnsFluidExternalDemand.cpp,
    GunnsFluidFlowIntegrator.cpp, GunnsFluidIslandAnalyzer.cpp, GunnsBasicIslandAnalyzer.cpp.

    A node's fluid is the values its getters return; messages, user port commands and the virtual
    updateFluid are left out. *)
From Coq Require Import List Bool ZArith.
From Verif Require Import Num MathUtil FluidFlow.
Import ListNotations.

Section CORE.
Context {T : Type} {N : Num T}.
Variables (sq : T -> T) (pw : T -> T -> T).

(** ** GunnsFluidSource *)
(** determineSourcePort, GunnsFluidLink.cpp:370-382: whether port 1's node supplies the fluid;
    [g0], [g1]: the port is on the Ground node. *)
Definition from_port1 (flow : T) (g0 g1 : bool) : bool :=
  ((flow <~ n0) && negb g1) || ((n0 <~ flow) && g0).
(** GunnsFluidSource.cpp:204-207. *)
Definition src_demand (demand : T) (block : bool) (bv : T) : T :=
  if block then demand *~ (n1 -~ bv) else demand.
(** GunnsFluidSource.cpp:211-223; [internal] is the internal fluid's molecular weight and [w0],
    [w1] those of the outflows of the two nodes. *)
Definition src_flux (internal : option T) (w0 w1 : T) (g0 g1 : bool) (flow : T) : T :=
  let w := match internal with Some w => w | None => if from_port1 flow g0 g1 then w1 else w0 end in
  if neps <~ w then flow /~ w else n0.
(** buildSource, GunnsFluidSource.hh:205-209. *)
Definition src_vector (flux : T) : T * T := (nopp flux, flux).
(** computeFlows, GunnsFluidSource.cpp:240-251: the molar flux scheduled out of either node. *)
Definition src_schedule (flux : T) : T * T :=
  if neps <~ flux then (flux, n0) else if flux <~ nopp neps then (n0, nopp flux) else (n0, n0).
(** GunnsFluidSource.cpp:262-272: the mass and the volume flow rate. *)
Definition src_rates (w0 w1 r0 r1 : T) (g0 g1 : bool) (flux : T) : T * T :=
  let from1 := from_port1 flux g0 g1 in
  let rate := flux *~ (if from1 then w1 else w0) in
  let rho := if from1 then r1 else r0 in
  (rate, if neps <~ rho then rate /~ rho else n0).

(** ** GunnsFluidCapacitor *)
(** The node: its content, volume, previous volume and previous temperature; [rho t p] is the
    content's density. *)
Record cnode := mkcnode { c_f : @fl T; c_vol : T; c_pvol : T; c_pt : T }.
Definition with_vols (n : cnode) (v pv : T) : cnode := mkcnode (c_f n) v pv (c_pt n).
(** GunnsFluidNode.cpp:294-304, 319-333 ([None]: they throw). *)
Definition init_vol (n : cnode) (v : T) : option cnode :=
  if v <~ n0 then None else Some (with_vols n v v).
Definition set_vol (n : cnode) (v : T) : option cnode :=
  if v <~ n0 then None
  else if (n0 ==~ v) || (n0 ==~ c_pvol n) then init_vol n v
  else Some (with_vols n v (c_pvol n)).
(** computeCompression, GunnsFluidNode.cpp:452-475. *)
Definition squeeze (n : cnode) : T * cnode :=
  (d_rho (c_f n) *~ (c_pvol n -~ c_vol n) /~ d_mw (c_f n), with_vols n (c_vol n) (c_vol n)).
(** computeThermalCapacitance, GunnsFluidNode.cpp:424-444. *)
Definition warm (rho : T -> T -> T) (n : cnode) : T * cnode :=
  let f := c_f n in
  let t := if d_t f <~ feps then feps else d_t f in
  let t1 := t *~ ndec 999 (-3) in
  let t2 := t *~ ndec 1001 (-3) in
  let ct := (rho t1 (d_p f) -~ rho t2 (d_p f)) *~ c_vol n /~ (d_mw f *~ (t2 -~ t1)) in
  (ct *~ (d_t f -~ c_pt n), mkcnode f (c_vol n) (c_pvol n) (d_t f)).

Record fcap := mkfcap {
  k_c : T; k_a : T; k_upd : bool;            (* mCapacitance, mAdmittanceMatrix[0], mAdmittanceUpdate *)
  k_p0 : T; k_p1 : T; k_w0 : T;              (* mPotentialVector, mSourceVector[0] *)
  k_edit : bool; k_ev : T;                   (* mEditVolumeFlag, mEditVolume *)
  k_nocorr : bool                            (* mDisablePressureCorrection *)
}.
(** buildAdmittanceMatrix, GunnsFluidCapacitor.cpp:339-361: the entry and the flag. *)
Definition cap_adm (dt c a : T) (u : bool) : T * bool :=
  let g := if dt <~ neps then c /~ neps else c /~ dt in
  if n0 <~ nabs (a -~ g) then (g, true) else (a, u).
(** step, GunnsFluidCapacitor.cpp:263-294, 369-380; [vol] is the volume getVolume returns, given
    the node's, and [corr] the node's pressure correction. *)
Definition cap_step (dt : T) (vol : T -> T) (corr : T) (rho : T -> T -> T) (k : fcap) (n : cnode)
  : option (fcap * cnode) :=
  match (if k_edit k then init_vol n (k_ev k) else Some n) with
  | None => None
  | Some n =>
    match set_vol n (vol (c_vol n)) with
    | None => None
    | Some n =>
      let c := capacitance (c_f n) (rho (d_t (c_f n))) (vol (c_vol n)) in
      let p0 := if k_nocorr k then k_p0 k else k_p0 k +~ corr in
      let (a, u) := cap_adm dt c (k_a k) (k_upd k) in
      let (s, n) := squeeze n in
      let w := (p0 -~ k_p1 k) *~ a +~ s in
      let (w, n) := if neps <~ dt then let (h, n) := warm rho n in (w +~ h /~ dt, n) else (w, n) in
      Some (mkfcap c a u p0 (k_p1 k) w false (k_ev k) (k_nocorr k), n)
    end
  end.
(** computeFlows, GunnsFluidCapacitor.cpp:303-304, at the solved pressures. *)
Definition cap_flux (k : fcap) (p0 p1 : T) : T := (p0 -~ p1) *~ k_a k -~ k_w0 k.

(** ** GunnsFluidPotential *)
(** buildPotential and computeFlux, GunnsFluidPotential.cpp:208-209, .hh:178-181. *)
Definition pot_vector (ps a : T) : T * T := let w := nopp ps *~ a in (w, nopp w).
Definition pot_flux (a w0 p0 p1 : T) : T := (p0 -~ p1) *~ a -~ w0.

(** ** GunnsFluidFlowController *)
(** updateState, GunnsFluidFlowController.cpp:211-240, with the default exponent of
    predictConductivity; [p0], [p1] are the potentials and [last] mLastConductivity: the new one,
    and the effective one. *)
Definition ctl_target (malf : bool) (mv cmd mx minp : T) (a b : @fl T) (p0 p1 : T) (rev : bool) : T :=
  let k := nmin mx (predict_cond sq pw (if malf then mv else cmd) minp a b half) in
  if (p0 <~ p1) && negb rev then n0 else k.
Definition ctl_filter (gain target last : T) : T :=
  let k := last +~ limit_range n0 gain n1 *~ (target -~ last) in
  if k <~ neps then n0 else k.
Definition ctl_state (gain : T) (malf : bool) (mv cmd minp : T) (a b : @fl T) (p0 p1 : T) (rev : bool)
  (last mx : T) : T :=
  ctl_filter gain (ctl_target malf mv cmd mx minp a b p0 p1 rev) last.

(** ** GunnsFluidExternalSupply *)
Definition eps100 : T := ndec 100 0 *~ neps.              (* GunnsBasicLink.cpp:43 *)
(** step, GunnsFluidExternalSupply.cpp:352-369: the molar and mass flow of the demands; [wi], [wn]
    are the molecular weights of the internal fluid and of node 0's content. *)
Definition sup_flow (wi wn flux rate : T) : T * T :=
  let q := if flux <~ nopp neps then (flux, flux *~ wi)
           else if neps <~ flux then (flux, flux *~ wn)
           else if rate <~ nopp neps then (rate /~ wi, rate)
           else if neps <~ rate then (rate /~ wn, rate)
           else (flux, rate) in
  if nabs (snd q) <~ eps100 then (n0, n0) else q.

(** ** GunnsFluidExternalDemand *)
Record dfilter := mkdf {
  e_ming : T; e_mindp : T; e_gain : T;    (* mFilterMinConductivity, mFilterMinDeltaP, mFilterCapacitanceGain *)
  e_dem : T; e_p : T; e_dp : T;           (* mAvgDemand, mAvgSupplyP, mAvgSupplyDeltaP *)
  e_cap : T                               (* mEstimatedCapacitance *)
}.
Definition snap (x : T) : T := if nabs x <~ neps then n0 else x.
(** updateState, GunnsFluidExternalDemand.cpp:404-428; [ps]: mSourcePressure. *)
Definition dem_filter (dt flux ps : T) (e : dfilter) : dfilter :=
  let dem := snap (half *~ (e_dem e +~ flux)) in
  let p := half *~ (e_p e +~ ps) in
  let dp := nopp (e_p e) +~ p in
  let cap := if e_mindp e <~ nabs dp
             then snap ((n1 -~ e_gain e) *~ e_cap e +~ e_gain e *~ (nopp dem *~ dt /~ dp))
             else e_cap e in
  mkdf (e_ming e) (e_mindp e) (e_gain e) dem (snap p) dp cap.
(** GunnsFluidExternalDemand.cpp:433-441, 451-454; [sc]: mSupplyCapacitance. *)
Definition dem_cond (dt sc : T) (e : dfilter) : T :=
  if neps <~ dt then
    if neps <~ sc then sc /~ dt else nmax (e_cap e /~ dt) (e_ming e)
  else e_ming e.

(** ** GunnsFluidFlowIntegrator *)
(** stepPreSolver and stepPostSolver, GunnsFluidFlowIntegrator.cpp:178-221; a frame is the mass
    fractions of the two nodes before the solution and the link's flow rate after it. *)
Record frame := mkframe { r_x0 : list T; r_x1 : list T; r_flow : T; r_dt : T }.
Definition integrate (ms : list T) (r : frame) : list T :=
  let xs := if n0 <~ r_flow r then r_x0 r else r_x1 r in
  map (fun mx => fst mx +~ snd mx *~ r_flow r *~ r_dt r) (combine ms xs).
Fixpoint integrate_all (ms : list T) (rs : list frame) : list T :=
  match rs with [] => ms | r :: rs => integrate_all (integrate ms r) rs end.

(** ** GunnsBasicIslandAnalyzer, GunnsFluidIslandAnalyzer *)
(** An extreme and the index of its node, GunnsBasicIslandAnalyzer.cpp:218-240 and the same loop
    for pressures, temperatures and mole fractions, GunnsFluidIslandAnalyzer.cpp:291-354;
    [ge x y]: the value found replaces the extreme so far. *)
Definition far : T := ndec 1 15.
Definition extreme (ge : T -> T -> bool) (start : T) (v : Z -> T) (island : list Z) : T * Z :=
  fold_left (fun s i => if ge (v i) (fst s) then (v i, i) else s) island (start, (-1)%Z).
Definition highest (v : Z -> T) (island : list Z) : T * Z :=
  extreme (fun x y => y <=~ x) (nopp far) v island.
Definition lowest (v : Z -> T) (island : list Z) : T * Z :=
  extreme (fun x y => x <=~ y) far v island.
(** GunnsBasicIslandAnalyzer.cpp:229, GunnsFluidIslandAnalyzer.cpp:343-344, 377-379. *)
Definition island_sum (v : Z -> T) (island : list Z) : T :=
  fold_left (fun s i => s +~ v i) island n0.
(** mIslandNodes: the node's flag, reset at 250-252 and set at 317. *)
Definition in_island (island : list Z) (node : Z) : bool :=
  existsb (Z.eqb node) island.
(** stepPostSolver, GunnsBasicIslandAnalyzer.cpp:178-243 and GunnsFluidIslandAnalyzer.cpp:224-285:
    the island the step looks at ([None]: everything stays reset); [islands node] is the node's
    island vector and [num] the number of nodes with Ground. *)
Definition looked_at (islands : Z -> option (list Z)) (num attached : Z) : option (list Z) :=
  if ((-1 <? attached) && (attached <? num - 1))%Z then islands attached else None.
Record isl := mkisl {
  a_size : nat; a_nodes : Z -> bool; a_hi : T * Z; a_lo : T * Z; a_sum : T
}.
Definition island_report (v w : Z -> T) (o : option (list Z)) : isl :=
  match o with
  | None => mkisl 0 (fun _ => false) (n0, (-1)%Z) (n0, (-1)%Z) n0
  | Some l => mkisl (length l) (in_island l) (highest v l) (lowest v l) (island_sum w l)
  end.
End CORE.
