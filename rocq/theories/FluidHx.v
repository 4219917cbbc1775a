(** Heat exchangers and other links that change the fluid passing through them.
    Source: /repo/aspects/fluid/conductor/GunnsFluidHeatExchanger.cpp, GunnsFluidHxDynHtc.cpp,
    GunnsFluidCondensingHx.cpp, GunnsFluidHatch.cpp, GunnsFluidSimpleQd.cpp, GunnsFluidPipe.cpp and
    GunnsFluidPhaseChangeConductor.cpp.

    The segment arrays of a heat exchanger are one list of segments.  [std::exp] and [std::pow] are
    the arguments [ex] and [pw].  What is given to the nodes is part of the results. *)
From Coq Require Import List Bool ZArith.
From Verif Require Import Num MathUtil FluidFlow.
Import ListNotations.

Section HX.
Context {T : Type} {N : Num T}.
Variables (pw : T -> T -> T) (ex : T -> T).

(** ** The heat exchanger *)
Record seg := mkseg {
  g_def : T; g_htc : T; g_wall : T; g_gain : T;          (* mSegHtcDefault, mSegHtc, mSegTemperature, mSegEnergyGain *)
  g_malf : bool; g_malfv : T                             (* mMalfSegDegradeFlag, mMalfSegDegradeValue *)
}.
Record hx := mkhx {
  x_segs : list seg; x_over : T;                         (* mTemperatureOverride *)
  x_malf : bool; x_malfv : T;                            (* mMalfHxDegradeFlag, mMalfHxDegradeValue *)
  x_total : T; x_delta : T                               (* mTotalEnergyGain, mDeltaTemperature *)
}.
(** initialize and validate, GunnsFluidHeatExchanger.cpp:171-270; [ovs] are the mSegmentHtcOverrides,
    at least as many as the segments when given; [None]: it threw. *)
Definition hx_init (n : nat) (htc wall over : T) (ovs : option (list T)) : option hx :=
  if Nat.ltb n 1 || (htc <~ feps) || (wall <~ feps) then None
  else
    let share := htc /~ ndec (Z.of_nat n) 0 in
    let def (i : nat) := match ovs with
                         | Some l => let o := nth i l share in if n0 <=~ o then o else share
                         | None => share
                         end in
    Some (mkhx (map (fun i => mkseg (def i) (def i) wall n0 false n0) (seq 0 n)) over false n0 n0 n0).
(** computeHeatTransferCoefficient, :372-385. *)
Definition seg_degrade (f : bool) (v : T) (g : seg) : seg :=
  let h := if g_malf g then g_def g *~ g_malfv g else if f then g_def g *~ v else g_def g in
  mkseg (g_def g) (limit_range n0 h (g_def g)) (g_wall g) (g_gain g) (g_malf g) (g_malfv g).
Definition with_gain (g : seg) (q : T) : seg :=
  mkseg (g_def g) (g_htc g) (g_wall g) q (g_malf g) (g_malfv g).
(** applyTemperatureOverride, :358-362. *)
Definition overridden (over t : T) : T := if feps <~ over then over else t.
Definition at_temp (f : fl) (t : T) : fl :=
  mkfl (d_p f) t (d_rho f) (d_mw f) (d_gas f) (d_gamma f) (d_k f) (d_cp f).
(** The loop of updateSegments over segments in the order of the flow, :338-345; the specific heat and
    the enthalpy of the fluid are functions of its temperature.  The segments' gains, their sum
    onto [acc] and the temperature the fluid ends with. *)
Fixpoint along (f : fl) (cp h : T -> T) (flow over : T) (gs : list seg) (t acc : T) : list seg * T * T :=
  match gs with
  | [] => ([], acc, t)
  | g :: r =>
      let fluid := mkfl (d_p f) t (d_rho f) (d_mw f) (d_gas f) (d_gamma f) (d_k f) (cp t) in
      let (t', q) := conv_flux ex fluid h flow (g_htc g) (g_wall g) in
      let '(r', acc', tn) := along f cp h flow over r (overridden over t') (acc +~ q) in
      (with_gain g q :: r', acc', tn)
  end.
(** updateSegments, :313-352. *)
Definition hx_segments (dt flow : T) (f : fl) (cp h : T -> T) (over : T) (gs : list seg) : list seg * T * T :=
  if (neps <~ nabs flow) && (neps <~ dt) then
    let t0 := overridden over (d_t f) in
    if flow <~ n0 then
      let '(r, q, t) := along f cp h flow over (rev gs) t0 n0 in (rev r, q, t)
    else along f cp h flow over gs t0 n0
  else (map (fun g => with_gain g n0) gs, n0, d_t f).
(** updateFluid, :293-303: the exchanger and the internal fluid's temperature; [t0] is the outflow
    temperature of node 0. *)
Definition hx_fluid (dt flow : T) (f : fl) (cp h : T -> T) (t0 : T) (x : hx) : hx * T :=
  let gs := map (seg_degrade (x_malf x) (x_malfv x)) (x_segs x) in
  let '(gs', q, t) := hx_segments dt flow f cp h (x_over x) gs in
  (mkhx gs' (x_over x) (x_malf x) (x_malfv x) q (t -~ t0), t).
(** The setters, :394-443; a segment that is not there is ignored. *)
Definition set_hx_malf (b : bool) (v : T) (x : hx) : hx :=
  mkhx (x_segs x) (x_over x) b v (x_total x) (x_delta x).
Definition on_seg (i : Z) (k : seg -> seg) (x : hx) : hx :=
  if (0 <=? i)%Z && (i <? Z.of_nat (length (x_segs x)))%Z then
    mkhx (map (fun p => if Nat.eqb (fst p) (Z.to_nat i) then k (snd p) else snd p)
              (combine (seq 0 (length (x_segs x))) (x_segs x)))
         (x_over x) (x_malf x) (x_malfv x) (x_total x) (x_delta x)
  else x.
Definition set_seg_malf (i : Z) (b : bool) (v : T) : hx -> hx :=
  on_seg i (fun g => mkseg (g_def g) (g_htc g) (g_wall g) (g_gain g) b v).
Definition set_seg_temp (i : Z) (v : T) : hx -> hx :=
  on_seg i (fun g => mkseg (g_def g) (g_htc g) (nmax n0 v) (g_gain g) (g_malf g) (g_malfv g)).
Definition set_over (v : T) (x : hx) : hx :=
  mkhx (x_segs x) (nmax n0 v) (x_malf x) (x_malfv x) (x_total x) (x_delta x).

(** ** Heat transfer coefficient as a function of flow *)
Record dyn := mkdyn { y_c0 : T; y_c1 : T; y_e : T; y_lim : T }.
(** GunnsFluidHxDynHtc.cpp:68-76 and, without the degradation, GunnsFluidCondensingHx.cpp:327-335. *)
Definition dyn_raw (y : dyn) (mdot : T) : T :=
  let m := nmin (ndec 10 0) (nabs mdot) in
  if feps <~ m then y_c0 y +~ y_c1 y *~ pw m (limit_range (ndec 5 (-2)) (y_e y) (ndec 20 0)) else y_c0 y.
Definition dyn_htc (y : dyn) (mdot d : T) : T := limit_range n0 (dyn_raw y mdot *~ d) (y_lim y).
(** GunnsFluidHxDynHtc.cpp:235-303, the checks and the segments' share; [None]: it threw. *)
Definition dyn_ok (e lim : T) : bool := is_in_range (ndec 5 (-2)) e (ndec 20 0) && negb (lim <~ feps).
Definition dyn_init (n : nat) (y : dyn) (ovs : list dyn) : option (list dyn) :=
  match ovs with
  | [] => if dyn_ok (y_e y) (y_lim y) then
            let k := ndec (Z.of_nat n) 0 in
            Some (map (fun _ => mkdyn (y_c0 y /~ k) (y_c1 y /~ k) (y_e y) (y_lim y /~ k)) (seq 0 n))
          else None
  | _ => if Nat.eqb (length ovs) n && forallb (fun o => dyn_ok (y_e o) (y_lim o)) ovs then Some ovs else None
  end.
(** computeHeatTransferCoefficient, GunnsFluidHxDynHtc.cpp:311-323, of one segment. *)
Definition dyn_seg (f : bool) (v mdot : T) (y : dyn) (g : seg) : seg :=
  let d := if g_malf g then g_malfv g else if f then v else n1 in
  mkseg (g_def g) (dyn_htc y mdot (limit_range n0 d n1)) (g_wall g) (g_gain g) (g_malf g) (g_malfv g).

(** ** The condensing heat exchanger *)
(** The internal fluid is a value of [F] known by its getters; [hF f t] is computeSpecificEnthalpy at
    [t] and the fluid's own pressure; [cond f r] is addState of the condensate at the rate [-r] followed by
    setPressure. *)
Section COND.
Variables (F : Type) (mF ppF cpF tF xF : F -> T) (hF : F -> T -> T) (setT : F -> T -> F) (cond : F -> T -> F).
Variables (satT satP hvap : T -> T).                     (* of water *)
Definition t_lo : T := ndec 27315 (-2).
Definition t_hi : T := ndec 572999 (-3).
Definition kilo : T := ndec 1 3.
(** One of the four iterations for the condensation temperature, GunnsFluidCondensingHx.cpp:416-448: the latent heat,
    the latent specific heat, the limited coefficient, its ratio and the temperature. *)
Record iter := mkiter { i_dh : T; i_cpl : T; i_lim : T; i_ratio : T; i_t : T }.
Definition cond_iter (htc mdot pp cpdew x tdew tseg : T) (i : iter) : iter :=
  let tavg := half *~ (tdew +~ i_t i) in
  let dT := ndec 1 (-3) in
  let slope := (satP tavg -~ satP (tavg -~ dT)) /~ dT in
  let dh := hvap tavg *~ kilo in
  let cpl := x *~ slope /~ pp *~ dh in
  let c := mdot *~ (cpl +~ cpdew) in
  let lim := nmin htc (ndec 100 0 *~ mdot *~ (cpl +~ cpdew)) in
  let ratio := lim /~ c in
  mkiter dh cpl lim ratio (tseg +~ ex (nopp ratio) *~ (tdew -~ tseg)).
Definition four (htc mdot pp cpdew x tdew tseg lim ratio : T) : iter :=
  let k := cond_iter htc mdot pp cpdew x tdew tseg in
  k (k (k (k (mkiter n0 n0 lim ratio tseg)))).
(** What a segment does, :371-482: the fluid after it, its sensible and latent heat and condensation. *)
Record part := mkpart { r_sens : T; r_lat : T; r_rate : T }.
Definition cond_seg (htc wall : T) (f : F) : F * part :=
  let mdot := mF f in
  let pp := ppF f in
  let tin := tF f in
  let tdew := satT pp in
  let cpdew := hF f tdew /~ tin in
  let cpavg := half *~ (cpF f +~ cpdew) in
  let qdew := nmax n0 ((tin -~ tdew) *~ cpavg *~ mdot) in
  let lim := nmin htc (ndec 100 0 *~ mdot *~ cpavg) in
  let ratio := lim /~ (mdot *~ cpavg) in
  let tout := wall +~ ex (nopp ratio) *~ (tin -~ wall) in
  let qs := lim *~ (tin -~ tout) /~ ratio in
  if (qdew <~ qs) && (neps <~ pp) then
    let tseg := limit_range t_lo wall t_hi in
    let i := four htc mdot pp cpdew (xF f) tdew tseg lim ratio in
    let qc := i_lim i *~ (tdew -~ i_t i) /~ i_ratio i in
    let ql := qc /~ (n1 +~ cpdew /~ i_cpl i) in
    let rate := ql /~ i_dh i in
    let f1 := setT (cond f rate) tout in
    (setT f1 (satT (ppF f1)), mkpart (qdew +~ qc -~ ql) ql rate)
  else (setT f tout, mkpart qs n0 n0).
Fixpoint cond_segs (htc : T) (walls : list T) (f : F) : F * list part :=
  match walls with
  | [] => (f, [])
  | w :: r => let (f1, p) := cond_seg htc w f in let (f2, ps) := cond_segs htc r f1 in (f2, p :: ps)
  end.
(** updateHeatExchanger, :353-487: fluid, segments' heats, sensible, latent and total heat, condensation. *)
Definition sum_of (k : part -> T) (ps : list part) : T := fold_left (fun s p => s +~ k p) ps n0.
Record chx := mkchx { h_segs : list T; h_sens : T; h_lat : T; h_tot : T; h_rate : T }.
Definition cond_hx (flow htc : T) (walls : list T) (f : F) : F * chx :=
  if neps <~ flow then
    let (f', ps) := cond_segs htc walls f in
    (f', mkchx (map (fun p => n0 +~ r_lat p +~ r_sens p) ps) (sum_of r_sens ps) (sum_of r_lat ps)
               (sum_of r_sens ps +~ sum_of r_lat ps) (sum_of r_rate ps))
  else (f, mkchx (map (fun _ => n0) walls) n0 n0 (n0 +~ n0) n0).
(** The segments' coefficient, :327-346; limitRange has its bounds in order. *)
Definition chx_htc (y : dyn) (n : nat) (malf : bool) (v flow : T) : T :=
  let h := limit_range n0 (dyn_raw y flow) (y_lim y) /~ ndec (Z.of_nat n) 0 in
  if malf then h *~ nmax n0 v else h.
(** transportFluid, :496-514: the rates taken from node 0 and node 1 and given to them. *)
Definition chx_transport (flow : T) (f : F) : (T * T) * (T * T) :=
  let lim := ndec 100 0 *~ neps in
  if lim <~ flow then ((flow, n0), (n0, mF f))
  else if flow <~ nopp lim then ((n0, nopp flow), (nopp flow, n0))
  else ((n0, n0), (n0, n0)).
End COND.

(** ** The hatch: GunnsFluidHatch.cpp:36-37, 254-291. *)
Definition dp_limit : T := ndec 1 (-2).
Definition dt_limit : T := ndec 20 0.
(** The diffusive flow rate and the heat taken from node 0 and given to node 1; [diff] is what
    computeGasDiffusion returns when it is called; [None]: it threw. *)
Definition hatch_update (dt : T) (ground0 ground1 : bool) (vol0 vol1 drop : T)
  (diff : option T) (area : T) (a b : fl) (l0 l1 : T) : option (T * T) :=
  if (neps <~ dt) && negb ground0 && negb ground1 && (n0 <~ vol0) && (n0 <~ vol1) then
    let still := (nabs drop <~ dp_limit) && (nabs (d_t a -~ d_t b) <~ dt_limit) in
    match (if still then diff else Some n0) with
    | None => None
    | Some d => match cond_flux area a b l0 l1 with None => None | Some q => Some (d, q) end
    end
  else Some (n0, n0).

(** ** Quick disconnect: GunnsFluidSimpleQd.cpp:230-237. *)
Definition qd_conductivity (connected : bool) (k : T) : T := if connected then k else n0.
(** Pipe and quick disconnect: the thermal area, GunnsFluidPipe.cpp:163-169, 236-239. *)
Definition pipe_area (len dia : T) (pi : T) : T := len *~ pi *~ dia.

(** ** Phase change: GunnsFluidPhaseChangeConductor.cpp:307-371. *)
Section PHASE.
Variables (satG satL hL hG hvL hvG : T -> T).            (* of the gas and the liquid properties *)
Definition phase_exit (eff flow p0 p1 t0 t1 : T) : T :=
  if negb (eff ==~ n0) then (if n0 <=~ flow then satG p1 else satL p0)
  else (if n0 <=~ flow then t0 else t1).
Definition phase_dh (eff flow p0 p1 t0 t1 : T) : T :=
  if negb (eff ==~ n0) then
    let t := phase_exit eff flow p0 p1 t0 t1 in
    if n0 <=~ flow then hL t0 -~ hL t -~ hvL t *~ kilo
    else hG t1 -~ hG t +~ hvG t *~ kilo
  else n0.
Definition phase_wall (eff flow p0 p1 t0 t1 wall : T) : T :=
  let q := eff *~ phase_dh eff flow p0 p1 t0 t1 *~ nabs flow in
  let t := phase_exit eff flow p0 p1 t0 t1 in
  if ((q <~ n0) && (wall <~ t)) || ((n0 <~ q) && (t <~ wall)) then n0 else q.
(** Taken from node 0 and node 1, given to node 0 (liquid) and node 1 (gas). *)
Definition phase_transport (flow : T) : (T * T) * (T * T) :=
  let lim := ndec 100 0 *~ neps in
  if lim <~ flow then ((flow, n0), (n0, flow))
  else if flow <~ nopp lim then ((n0, nopp flow), (nopp flow, n0))
  else ((n0, n0), (n0, n0)).
End PHASE.
End HX.
Arguments seg : clear implicits. Arguments hx : clear implicits. Arguments dyn : clear implicits.
Arguments chx : clear implicits. Arguments part : clear implicits. Arguments iter : clear implicits.
