(** Fires in fluid nodes.
    Source: /repo/aspects/fluid/source/GunnsFluidFireSource.cpp and .hh; PolyFluid::updateMass is
    /repo/aspects/fluid/fluid/PolyFluid.cpp:828-861.

    The internal fluid has oxygen, carbon dioxide and water, summed in this order, and the masses of its
    trace compounds.  Temperatures, enthalpy and port rules are left out. *)
From Coq Require Import List Bool ZArith.
From Verif Require Import Num MathUtil.
Import ListNotations.

Section FIRE.
Context {T : Type} {N : Num T}.
Record gas3 := mkg3 { g_o2 : T; g_co2 : T; g_h2o : T }.
(** Rates of mass per heat, the least partial pressure of oxygen, rates of trace compounds. *)
Record firec := mkfc { k_o2 : T; k_co2 : T; k_h2o : T; k_min : T; k_tc : list T }.
(** validate, :225-233. *)
Definition fire_valid (k : firec) : bool := negb (nabs (k_co2 k +~ k_h2o k +~ k_o2 k) <~ neps).
(** The internal fluid: masses, total mass, molecular weight, masses of trace compounds. *)
Record ifl := mkifl { i_m : gas3; i_mass : T; i_mw : T; i_tc : list T }.
(** updateMass, PolyFluid.cpp:828-861; [w] are the molecular weights. *)
Definition update_mass (w m : gas3) (tc : list T) : ifl :=
  let mass := inner_limit (nopp neps) (n0 +~ g_o2 m +~ g_co2 m +~ g_h2o m) neps in
  let moles := inner_limit (nopp neps) (n0 +~ g_o2 m /~ g_o2 w +~ g_co2 m /~ g_co2 w +~ g_h2o m /~ g_h2o w) neps in
  mkifl m mass (mass /~ moles) tc.
Record fire := mkfire { f_on : bool; f_flows : gas3; f_rate : T; f_tc : list T; f_fluid : ifl; f_flux : T; f_power : T }.
(** calculateFlowRate, :389-410. *)
Definition fire_rates (k : firec) (heat : T) (s : fire) : fire :=
  if f_on s then
    let co2 := k_co2 k *~ heat in let o2 := nopp (k_o2 k) *~ heat in let h2o := k_h2o k *~ heat in
    mkfire (f_on s) (mkg3 o2 co2 h2o) (co2 +~ o2 +~ h2o) (map (fun r => r *~ heat) (k_tc k)) (f_fluid s) (f_flux s) (f_power s)
  else s.
(** step, :254-288; [pp] is the partial pressure of oxygen in the node, [block] the blockage if there is. *)
Definition fire_step (k : firec) (heat pp : T) (block : option T) (s : fire) : fire :=
  let on := if pp <~ k_min k then false else f_on s in
  let s := fire_rates k heat (mkfire on (f_flows s) (f_rate s) (f_tc s) (f_fluid s) (f_flux s) (f_power s)) in
  let '(fl, rate) := match block with
                     | Some b => let x := n1 -~ b in (mkg3 (g_o2 (f_flows s) *~ x) (g_co2 (f_flows s) *~ x) (g_h2o (f_flows s) *~ x), f_rate s *~ x)
                     | None => (f_flows s, f_rate s)
                     end in
  mkfire (f_on s) fl rate (f_tc s) (f_fluid s) (if neps <~ i_mw (f_fluid s) then rate /~ i_mw (f_fluid s) else n0) (f_power s).
(** transportFlows with computePower, updateFluid and transportFluid, :310-384 and .hh:214-221: the new
    state, what is added to the node (a rate and the internal fluid) if it is, and the heat added. *)
Definition fire_fluid (k : firec) (w : gas3) (pp power : T) (s : fire) : fire :=
  if f_on s && (k_min k <~ pp) then
    mkfire true (f_flows s) (f_rate s) (f_tc s) (update_mass w (f_flows s) (f_tc s)) (f_flux s) power
  else mkfire false (mkg3 n0 n0 n0) n0 (map (fun _ => n0) (f_tc s)) (f_fluid s) (f_flux s) n0.
Definition fire_transport (k : firec) (w : gas3) (heat pp : T) (s : fire) : fire * option (T * ifl) * T :=
  let power := if f_on s then heat else n0 in
  let s := fire_fluid k w pp power s in
  let lim := ndec 100 0 *~ neps in
  (s, if (lim <~ f_rate s) || (f_rate s <~ nopp lim) then Some (f_rate s, f_fluid s) else None, f_power s).
(** What the node gets of each: addState takes the mass fractions. *)
Definition species (x : option (T * ifl)) : gas3 :=
  match x with
  | Some (rate, f) => mkg3 (rate *~ (g_o2 (i_m f) /~ i_mass f)) (rate *~ (g_co2 (i_m f) /~ i_mass f)) (rate *~ (g_h2o (i_m f) /~ i_mass f))
  | None => mkg3 n0 n0 n0
  end.
(** A pass of the network: the flag may be set or reset before it; heat, blockage, and the partial pressure
    at the step and at the transport. *)
Record pass := mkpass { p_cmd : option bool; p_heat : T; p_block : option T; p_pp : T; p_pp2 : T }.
Definition command (c : option bool) (s : fire) : fire :=
  match c with Some b => mkfire b (f_flows s) (f_rate s) (f_tc s) (f_fluid s) (f_flux s) (f_power s) | None => s end.
Definition fire_pass (k : firec) (w : gas3) (s : fire) (u : pass) : fire :=
  fst (fst (fire_transport k w (p_heat u) (p_pp2 u) (fire_step k (p_heat u) (p_pp u) (p_block u) (command (p_cmd u) s)))).
Definition fire_run (k : firec) (w : gas3) (us : list pass) (s : fire) : fire := fold_left (fire_pass k w) us s.
End FIRE.
Arguments gas3 T : clear implicits.
Arguments firec T : clear implicits.
Arguments ifl T : clear implicits.
Arguments fire T : clear implicits.
Arguments pass T : clear implicits.
