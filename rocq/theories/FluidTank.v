(** Tanks with edits, balloons and the liquid end of a separator.
    Source: /repo/aspects/fluid/capacitor/GunnsFluidTank.cpp, GunnsFluidBalloon.cpp,
    /repo/aspects/fluid/source/GunnsFluidSeparatorLiquid.cpp.

    The content of the node is the values its getters return; messages are not modelled. *)
From Coq Require Import List Bool ZArith.
From Verif Require Import Num MathUtil FluidFlow FluidSorb.
Import ListNotations.

Section TANK.
Context {T : Type} {N : Num T}.

(** ** GunnsFluidTank: edits of partial pressures at a rate *)
(** mEditPartialPressureRateFlag, -Value, -RateValue and the mass in the internal fluid, of one
    constituent. *)
Record ped := mkped { j_flag : bool; j_goal : T; j_rate : T; j_mass : T }.
(** One pass of the loop, GunnsFluidTank.cpp:336-383: [p] mPartialPressure, [rho] computeDensity at
    the temperature of the node; [true]: the edit is complete. *)
Definition edit1 (dt vol p : T) (rho : T -> T) (e : ped) : ped * bool :=
  if j_flag e then
    let r := nabs (j_rate e) in
    if r <~ neps then (mkped false (j_goal e) (j_rate e) (j_mass e), true)
    else
      let d := r *~ dt in
      if p <~ j_goal e -~ d then (mkped true (j_goal e) (j_rate e) ((rho (p +~ d) -~ rho p) *~ vol), false)
      else if j_goal e +~ d <~ p then (mkped true (j_goal e) (j_rate e) ((rho (p -~ d) -~ rho p) *~ vol), false)
      else (mkped false (j_goal e) (j_rate e) (j_mass e), true)
  else (mkped false (j_goal e) (j_rate e) n0, true).
(** updateState, :315-405: the edits and mFlowRate, [ps] the partial pressures with their density
    functions. *)
Definition tank_state (dt vol : T) (ps : list (T * (T -> T))) (es : list ped) : list ped * T :=
  if dt <~ feps then (es, n0)
  else
    let rs := map (fun q => edit1 dt vol (fst (fst q)) (snd (fst q)) (snd q)) (combine ps es) in
    let es' := map fst rs in
    if forallb snd rs then (es', n0)
    else (es', nopp (fold_left nadd (map j_mass es') n0) /~ dt).
(** buildSourceVector, :416-424; [cap] the capacitor's. *)
Definition tank_source (cap flow w : T) : T := cap -~ flow /~ w.
(** editPartialPressureRate, :740-753. *)
Definition set_ped (flag : bool) (p r : T) (e : ped) : ped :=
  if flag then mkped true p r (j_mass e) else mkped false (j_goal e) (j_rate e) (j_mass e).

(** ** The shell and the edits of temperature and pressure *)
(** updateFluid, :468-473 and :540-543: heat from the shell; [editing] the edit still runs, [q] the
    value before, [p] mPotentialVector[0] after. *)
Definition shell_heat (area radius k tsh t : T) (editing : bool) (p q : T) : T :=
  let h := if (feps <~ area) && (feps <~ radius) then k *~ (tsh -~ t) *~ (area /~ radius) else q in
  let h := if editing then n0 else h in
  if p <~ n1 then n0 else h.
Record tped := mktped {
  tp_t : bool; tp_tp : bool; tp_tpp : bool;         (* the three flags *)
  tp_temp : T; tp_press : T; tp_parts : list T;     (* the values *)
  tp_over : bool; tp_disable : bool }.              (* mOverrideVector[0], mDisablePressureCorrection *)
(** computeEditTargetPressure, :567-584. *)
Definition edit_target (e : tped) : T :=
  if tp_tp e then tp_press e else if tp_tpp e then fold_left nadd (tp_parts e) n0 else n0.
(** checkEditTemperatureValue, :554-560. *)
Definition edit_temp (e : tped) (t : T) : T := if tp_temp e <~ feps then t else tp_temp e.
(** The edits of updateFluid, :476-536; [t], [p], [parts], [flux] temperature, pressure, partial
    pressures and net flux of the node, [goal] mEditFluxTarget.  Returns the edits, and the content's
    edit performed: temperature with a total pressure or with partial pressures. *)
Inductive content_edit := ETotal (t p : T) | EParts (t : T) (ps : list T).
Definition tank_edit (t p : T) (parts : list T) (flux goal : T) (e : tped) : tped * option content_edit :=
  if tp_tp e || tp_tpp e then
    let te := edit_temp e t in
    let pe := edit_target e in
    let zero := pe <~ feps in
    let ps := if zero then parts else tp_parts e in
    let pe := if zero then fold_left nadd parts n0 else pe in
    if (nabs (te -~ t) <~ feps) && (nabs (pe -~ p) <~ feps) && (nabs flux <~ goal) then
      (mktped (tp_t e) false false te pe ps false false, None)
    else
      (mktped (tp_t e) (tp_tp e) (tp_tpp e) te pe ps true true,
       Some (if tp_tp e then ETotal te pe else EParts te ps))
  else
    let e1 := if tp_disable e then mktped (tp_t e) false false (tp_temp e) (tp_press e) (tp_parts e) false false else e in
    if tp_t e then
      let te := edit_temp e t in
      (mktped false false false te (tp_press e1) (tp_parts e1) (tp_over e1) (tp_disable e1), Some (ETotal te p))
    else (e1, None).
(** validate, :248-286. *)
Definition tank_valid (gain damping goal area radius tsh : T) : bool :=
  is_in_range n0 gain n1 && negb (damping <~ n0) && negb (goal <~ n0) && negb (area <~ n0) &&
  negb (radius <~ n0) && negb (tsh <~ n0).
(** computeDpdt, :620-636: mDpdt; [prev] mPreviousPressure. *)
Definition tank_dpdt (gain dt p prev d : T) : T :=
  if (neps <~ dt) && negb (gain ==~ n0) then
    let d := d +~ gain *~ ((p -~ prev) /~ dt -~ d) in
    if nabs d <~ neps then n0 else d
  else n0.

(** ** GunnsFluidBalloon *)
Definition bal_min : T := ndec 1 (-12).
(** updateInflatability, GunnsFluidBalloon.cpp:308-315. *)
Definition bal_k (k : T) (malf : bool) (scale : T) : T := if malf then nmax (k *~ scale) neps else nmax k neps.
(** computeVolumeFromPressure, GunnsFluidBalloon.hh:259-264; [p1] mPotentialVector[1]. *)
Definition bal_volume (k p1 vmax p : T) : T := limit_range bal_min (k *~ (p -~ p1)) vmax.
Inductive bal_state := DEFLATED | INFLATED | INFLATING | DEFLATING | PARTIALLY_INFLATED.
(** updateInflation, GunnsFluidBalloon.cpp:337-358: volume, mInflation and state; [v] the node's. *)
Definition bal_update (stuck : bool) (k p1 vmax p v infl : T) : T * T * bal_state :=
  let '(vol, i) := if stuck then (infl *~ (vmax -~ bal_min) +~ bal_min, infl)
                   else let x := bal_volume k p1 vmax p in (x, (x -~ bal_min) /~ (vmax -~ bal_min)) in
  (vol, i, if bal_min ==~ vol then DEFLATED else if vmax ==~ vol then INFLATED
           else if v +~ feps <~ vol then INFLATING else if vol <~ v -~ feps then DEFLATING else PARTIALLY_INFLATED).
(** validate, :228-241. *)
Definition bal_valid (k vmax : T) : bool := negb (k <~ feps) && negb (vmax <~ bal_min +~ feps).
(** processVolumeEdit, :365-390: the edits and the volume the node is given; [ev] mEditVolumeFlag
    with mEditVolume. *)
Definition bal_edit (k p1 vmax t : T) (ev : option T) (e : tped) : tped * option T :=
  if tp_tp e || tp_tpp e then (e, Some (limit_range bal_min (bal_volume k p1 vmax (edit_target e)) vmax))
  else match ev with
  | Some x =>
      (mktped (tp_t e) true (tp_tpp e) t (limit_range bal_min x vmax /~ k +~ p1) (tp_parts e) (tp_over e) (tp_disable e),
       Some (if x <~ bal_min then bal_min else if vmax <~ x then vmax else x))
  | None => (e, None)
  end.
(** The flexible part of the capacitance of step, :282-289. *)
Definition bal_cap (stuck : bool) (v vmax k rho w : T) : T :=
  if (v ==~ vmax) || stuck then n0 else k *~ rho /~ w.
(** correctPpRateEdits, :400-426: flow rate and masses; [gs] density at the partial pressure with
    the mass, [None] density: not a gas. *)
Definition bal_correct (dt flow w cap k : T) (gs : list (option T * T)) : T * list T :=
  if neps <~ nabs flow then
    let moles := nopp dt *~ flow /~ w in
    let dv := moles /~ cap *~ k in
    (fold_left (fun f g => match fst g with Some rho => f -~ rho *~ dv /~ dt | None => f end) gs flow,
     map (fun g => match fst g with Some rho => rho *~ dv +~ snd g | None => snd g end) gs)
  else (flow, map snd gs).
(** computePressureCorrection, :434-488: the correction; [pc] the node's, [nrt] T m R / MW. *)
Definition bal_pc (sq : T -> T) (stuck : bool) (infl k p v nrt pc : T) : T :=
  let g :=
    if (n0 <~ infl) && (infl <~ n1) && negb stuck then
      let a := k *~ pc *~ pc in
      let b := pc *~ (k *~ p +~ v) in
      let c := v *~ p -~ nrt in
      let q := b *~ b -~ ndec 4 0 *~ a *~ c in
      if (n0 <~ nabs a) && (n0 <~ q) then
        let sp := (nopp b +~ sq q) *~ half /~ a in
        let sm := (nopp b -~ sq q) *~ half /~ a in
        if nabs sp <~ nabs sm then sp else sm
      else n0
    else n1 in
  g *~ pc.
(** buildSourceVector, :497-507. *)
Definition bal_source (p adm flow w dt cap : T) : T :=
  let s := p *~ adm -~ flow /~ w in if neps <~ dt then s +~ cap /~ dt else s.

(** ** GunnsFluidSeparatorLiquid.cpp:274-309; [last] the index of the boundary node. *)
Definition sep_flow (flux w : T) : T := flux *~ w.
Definition sep_port (port node last : nat) : bool :=
  if Nat.eqb port 1 && Nat.eqb node last then false
  else if Nat.eqb port 0 && negb (Nat.eqb node last) then false else true.
End TANK.
