(** The link that joins a fluid network to a distributed interface.
    Source: /repo/core/GunnsFluidDistributedIf.cpp.

    The interface itself is Bus.v.  A fluid is its temperature, mole fractions of the mixture and of
    trace compounds (per mole of mixture); the conversions between mass and mole fractions around
    them are left out, as are notifications, port directions and mFluidState, a copy.  [enth] is the
    specific enthalpy of a mixture at a temperature, [tfrom] computeTemperature. *)
From Coq Require Import List Bool ZArith.
From Verif Require Import Num MathUtil FluidFlow Bus.
Import ListNotations.

Section DISTIF.
Context {T : Type} {N : Num T}.
Variables (enth tfrom : list T -> T -> T).

Definition kilo_per_unit : T := ndec 1 (-3).                 (* UnitConversion.cpp:103 *)
Record fluid := mkfluid { f_temp : T; f_x : list T; f_tc : list T }.
(** Sizes of the node's mixture and trace compounds, then of the interface's; mUseEnthalpy and
    mDemandOption. *)
Record difc := mkdc { c_n : nat; c_nt : nat; c_bn : nat; c_bt : nat; c_enth : bool; c_opt : bool }.
(** mWorkFluidState or mWorkFlowState: source, energy, fractions. *)
Record mix := mkmix { m_src : T; m_energy : T; m_x : list T; m_tc : list T }.
(** FluidDistributedMixtureData::setMoleFractions and getMoleFractions, Distributed2WayBusFluid.cpp:117-183. *)
Definition resize (n : nat) (l : list T) : list T := firstn n l ++ repeat n0 (n - length l).
Definition to_bus (c : difc) (w : mix) : list T := resize (c_bn c) (m_x w) ++ resize (c_bt c) (m_tc w).
Definition from_bus (c : difc) (d : T * T * list T) : mix :=
  let '(src, energy, fr) := d in
  mkmix src energy (resize (c_n c) (firstn (c_bn c) fr)) (resize (c_nt c) (skipn (c_bn c) fr)).

Definition sum (l : list T) : T := fold_left nadd l n0.
(** inputFluid, :425-480: the sum of the mixture's fractions and the fluid; [w] is the working state
    and [energy] mWorkFluidState.mEnergy; [None] is the exception. *)
Definition input_fluid (c : difc) (w : mix) (energy : T) : option (T * fluid) :=
  let s := sum (m_x w) in
  if s <~ neps then None else
  let x := map (fun a => a /~ s) (m_x w) in
  Some (s, mkfluid (if c_enth c then tfrom x energy else energy) x (map (fun a => a /~ s) (m_tc w))).
(** outputFluid, :565-614. *)
Definition output_fluid (c : difc) (f : fluid) : T * mix :=
  let s := fold_left nadd (f_x f) (sum (f_tc f)) in
  (s, mkmix n0 (if c_enth c then enth (f_x f) (f_temp f) else f_temp f)
            (map (fun a => a /~ s) (f_x f)) (map (fun a => a /~ s) (f_tc f))).

(** The link with its node's volume [d_vol] and content, and the capacitor's pending edit. *)
Record dif := mkdif {
  d_bus : @fbus T; d_vol : T; d_edit : option T; d_saved : T;
  d_fluid : mix; d_flow : mix;         (* mWorkFluidState, mWorkFlowState *)
  d_psrc : T; d_dflux : T;             (* mSourcePressure, mDemandFlux *)
  d_content : fluid; d_internal : fluid (* content of the node, mInternalFluid *)
}.
(** processInputs, :389-412, with processInputsDemand, :508-522, and processInputsSupply, :485-503;
    [pot] is the potential of the node. *)
Definition swap_in (was : bool) (b : @fbus T) (s : dif) : dif :=
  let now := in_demand b in
  if now && negb was then mkdif b (d_vol s) (Some n0) (d_vol s) (d_fluid s) (d_flow s) (d_psrc s) (d_dflux s) (d_content s) (d_internal s)
  else if was && negb now then mkdif b (d_vol s) (Some (d_saved s)) n0 (d_fluid s) (d_flow s) (d_psrc s) (d_dflux s) (d_content s) (d_internal s)
  else mkdif b (d_vol s) (d_edit s) (d_saved s) (d_fluid s) (d_flow s) (d_psrc s) (d_dflux s) (d_content s) (d_internal s).
Definition inputs_demand (c : difc) (pot : T) (s : dif) : option dif :=
  match get_fluid_state (d_bus s) with
  | Some d =>
      let w := from_bus c d in
      match input_fluid c w (m_energy w) with
      | None => None
      | Some (_, f) => Some (mkdif (d_bus s) (d_vol s) (d_edit s) (d_saved s) w (d_flow s) (m_src w *~ kilo_per_unit) n0 f (d_internal s))
      end
  | None => Some (mkdif (d_bus s) (d_vol s) (d_edit s) (d_saved s) (d_fluid s) (d_flow s) pot n0 (d_content s) (d_internal s))
  end.
Definition inputs_supply (c : difc) (s : dif) : option dif :=
  match get_flow_state (d_bus s) with
  | Some d =>
      let w := from_bus c d in
      match input_fluid c w (m_energy (d_fluid s)) with
      | None => None
      | Some (k, f) => Some (mkdif (d_bus s) (d_vol s) (d_edit s) (d_saved s) (d_fluid s) w n0 (nopp (m_src w) *~ kilo_per_unit *~ k) (d_content s) f)
      end
  | None => Some (mkdif (d_bus s) (d_vol s) (d_edit s) (d_saved s) (d_fluid s) (d_flow s) n0 n0 (d_content s) (d_internal s))
  end.
Definition di_inputs (c : difc) (rx : packet) (pot : T) (s : dif) : option dif :=
  let was := in_demand (d_bus s) in
  let s1 := swap_in was (process_inputs (set_in (d_bus s) rx)) s in
  if in_demand (d_bus s1) then inputs_demand c pot s1 else inputs_supply c s1.
(** The capacitor's step, GunnsFluidCapacitor.cpp:271-274, and restarts, :246-254. *)
Definition di_edit (s : dif) : dif :=
  mkdif (d_bus s) (match d_edit s with Some v => v | None => d_vol s end) None (d_saved s) (d_fluid s) (d_flow s) (d_psrc s) (d_dflux s) (d_content s) (d_internal s).
Definition di_restart (s : dif) : dif :=
  mkdif (d_bus s) (d_vol s) None (d_saved s) (d_fluid s) (d_flow s) n0 n0 (d_content s) (d_internal s).
(** checkNegativeFluidFractions, :845-865, and the choice at :641-649. *)
Definition negative (f : fluid) : bool := existsb (fun a => a <~ n0) (f_x f) || existsb (fun a => a <~ n0) (f_tc f).
Definition demand_fluid (inflow content : fluid) : fluid :=
  if n0 <~ f_temp inflow then if negative inflow then content else inflow else content.
(** processOutputs, :529-556; [flux] is mFlux, [inflow] the node's, [cap] outputCapacitance. *)
Definition di_outputs (c : difc) (pot flux cap : T) (inflow : fluid) (s : dif) : dif :=
  let was := in_demand (d_bus s) in
  let (k, w) := output_fluid c (if was then demand_fluid inflow (d_content s) else d_content s) in
  let w := mkmix (if was then flux *~ pa_per_kpa *~ k else pot *~ pa_per_kpa) (m_energy w) (m_x w) (m_tc w) in
  let b := if was then set_flow_state (d_bus s) (m_src w) (m_energy w) (to_bus c w)
           else set_fluid_state (d_bus s) (m_src w) (m_energy w) (to_bus c w) in
  let b := process_outputs cap b in
  let swap := in_demand b && negb was in
  mkdif b (d_vol s) (if swap then Some n0 else d_edit s) (if swap then d_vol s else d_saved s)
        (if was then d_fluid s else w) (if was then w else d_flow s) (d_psrc s) (d_dflux s) (d_content s) (d_internal s).

(** What happens to the link: a role is forced, data are received and processed, the network steps
    (its node then has content [f]), outputs are processed, or a checkpoint is restarted. *)
Inductive event := EForce (r : role) | EIn (rx : @packet T) (pot : T) | EStep (f : fluid)
                 | EOut (pot flux cap : T) (inflow : fluid) | ERestart.
Definition di_force (r : role) (s : dif) : dif :=
  mkdif (set_force (d_bus s) r) (d_vol s) (d_edit s) (d_saved s) (d_fluid s) (d_flow s) (d_psrc s) (d_dflux s) (d_content s) (d_internal s).
Definition di_fill (f : fluid) (s : dif) : dif :=
  mkdif (d_bus s) (d_vol s) (d_edit s) (d_saved s) (d_fluid s) (d_flow s) (d_psrc s) (d_dflux s) f (d_internal s).
Definition di_event (c : difc) (e : event) (s : dif) : option dif :=
  match e with
  | EForce r => Some (di_force r s)
  | EIn rx pot => di_inputs c rx pot s
  | EStep f => Some (di_fill f (di_edit s))
  | EOut pot flux cap inflow => Some (di_outputs c pot flux cap inflow s)
  | ERestart => Some (di_restart s)
  end.
Fixpoint di_run (c : difc) (es : list event) (s : dif) : option dif :=
  match es with
  | [] => Some s
  | e :: es => match di_event c e s with None => None | Some s => di_run c es s end
  end.

(** outputCapacitance, :660-687; [others] are their supplied capacitance and our capacitance's
    effect on their node, [own] on ours. *)
Definition di_capacitance (net supplied own : T) (others : list (T * T)) : T :=
  nmax n0 (fold_left (fun a o => if (neps <~ fst o) && (neps <~ snd o)
                                 then a -~ fst o *~ (snd o /~ nmax own neps) else a) others (net -~ supplied)).
(** step, :694-746: gain of the demand, and the conductance before and after blockage and limit. *)
Definition di_gain (dt : T) (b : @fbus T) : T :=
  if (neps <~ p_cap (b_out b)) && (neps <~ p_cap (b_in b)) then fst (demand_limit b dt n0) else n1.
Definition di_conductivity (c : difc) (dt : T) (b : @fbus T) : T :=
  if in_demand b && (neps <~ dt) then
    if (neps <~ p_cap (b_out b)) && (neps <~ p_cap (b_in b)) then
      let g := di_gain dt b *~ p_cap (b_in b) /~ dt in
      if c_opt c || (g <~ neps) then g
      else n1 /~ nmax (n1 /~ g +~ dt /~ p_cap (b_out b)) neps
    else di_gain dt b *~ p_cap (b_in b) /~ dt
  else n0.
Definition di_admittance (c : difc) (dt : T) (block : option T) (limit : T) (b : @fbus T) : T :=
  let k := di_conductivity c dt b in
  let k := if in_demand b && (neps <~ dt) then match block with Some v => k *~ (n1 -~ v) | None => k end else k in
  limit_range n0 k limit.
Definition di_supplied (admit dt : T) (b : @fbus T) : T := if in_demand b then admit *~ dt else n0.
(** :750, and computeFlows, :764-765: the flow into the node at potential [p]. *)
Definition di_source (admit : T) (s : dif) : T := d_psrc s *~ admit +~ d_dflux s.
Definition di_flux (admit p : T) (s : dif) : T := nopp p *~ admit +~ di_source admit s.
End DISTIF.
Arguments fluid T : clear implicits.
Arguments mix T : clear implicits.
Arguments dif T : clear implicits.
Arguments event T : clear implicits.
