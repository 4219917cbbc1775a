(** Links that change the composition of the air: the reactor with the defined chemical reactions,
    the hot reactor and the crew's metabolism.
    Source: /repo/aspects/fluid/source/GunnsFluidReactor.cpp, GunnsFluidHotReactor.cpp,
    GunnsFluidMetabolic.cpp, /repo/ms-utils/properties/ChemicalReaction.cpp, ChemicalCompound.cpp.

    The fluids are the values their getters return.  The heat between wall and fluid is
    [conv_flux] of FluidFlow.  The compounds of a reactor have different fluids. *)
From Coq Require Import List Bool ZArith.
From Verif Require Import Num MathUtil FluidFlow FluidSorb.
Import ListNotations.

Section REACT.
Context {T : Type} {N : Num T}.

(** ** GunnsFluidReactor *)
(** CompoundState: the index in the fluid ([None]: -1, not a fluid), molecular weight, mTotalMass
    and mMass. *)
Record rcomp := mkrcomp { k_fluid : option nat; k_w : T; k_total : T; k_mass : T }.
(** ReactionState with its ChemicalReaction: indices of the compounds and mole ratios, the
    defined efficiency, the configured ones of reactant and reagent, and the heat. *)
Record rxn := mkrxn {
  x_a : nat; x_b : nat; x_p : nat; x_q : option nat;
  m_a : T; m_b : T; m_p : T; m_q : T;
  f_def : T; f_a : T; f_b : T; f_heat : T }.
Definition zero_comp : rcomp := mkrcomp None n1 n0 n0.
Definition the (l : list rcomp) (i : nat) : rcomp := nth i l zero_comp.
Fixpoint at_index {A} (l : list A) (i : nat) (f : A -> A) : list A :=
  match l, i with
  | x :: r, O => f x :: r
  | x :: r, S k => x :: at_index r k f
  | [], _ => []
  end.
Definition gain (l : list rcomp) (i : nat) (d : T) : list rcomp :=
  at_index l i (fun c => mkrcomp (k_fluid c) (k_w c) (k_total c +~ d) (k_mass c +~ d)).
Definition lose (l : list rcomp) (i : nat) (d : T) : list rcomp :=
  at_index l i (fun c => mkrcomp (k_fluid c) (k_w c) (k_total c -~ d) (k_mass c -~ d)).
Definition snap (l : list rcomp) (i : nat) : list rcomp :=
  at_index l i (fun c => if k_total c <~ neps then mkrcomp (k_fluid c) (k_w c) n0 (k_mass c) else c).

(** computeEfficiency, GunnsFluidReactor.cpp:726-742, and GunnsFluidHotReactor.cpp:195-206, where
    [t] is mFluidTemperature. *)
Definition by_reagent (r : rxn) (l : list rcomp) (e : T) : T :=
  if neps <~ f_b r then e *~ (f_b r *~ k_total (the l (x_b r))) else e.
Definition react_eff (r : rxn) (l : list rcomp) : T :=
  by_reagent r l (if neps <~ f_a r then f_a r else f_def r).
Definition hot_eff (bias scale t : T) (r : rxn) (l : list rcomp) : T :=
  by_reagent r l (limit_range n0 (bias +~ scale *~ t) n1).
Section EFF.
Variable eff : rxn -> list rcomp -> T.
(** One pass of the loop of react, :541-609: the masses of reagent, reactant and product. *)
Definition four_nines : T := ndec 9999 (-4).
Definition ratio_a (r : rxn) (l : list rcomp) : T := m_a r *~ k_w (the l (x_a r)).
Definition ratio_b (r : rxn) (l : list rcomp) : T := m_b r *~ k_w (the l (x_b r)).
Definition ratio_p (r : rxn) (l : list rcomp) : T := m_p r *~ k_w (the l (x_p r)).
Definition reagent_mass (r : rxn) (l : list rcomp) : T :=
  nmin (k_total (the l (x_b r)) *~ four_nines)
       (k_total (the l (x_a r)) *~ nmin four_nines (eff r l) *~ ratio_b r l /~ ratio_a r l).
Definition react1 (r : rxn) (s : list rcomp * T) : list rcomp * T :=
  let (l, q) := s in
  let mb := reagent_mass r l in
  let ma := mb *~ ratio_a r l /~ ratio_b r l in
  let mp := mb *~ ratio_p r l /~ ratio_b r l in
  let l' := snap (snap (gain (lose (lose l (x_a r) ma) (x_b r) mb) (x_p r) mp) (x_a r)) (x_b r) in
  let q' := q +~ f_heat r /~ m_p r *~ mega *~ mp /~ k_w (the l (x_p r)) in
  match x_q r with
  | Some j => (gain l' j (mb *~ (m_q r *~ k_w (the l j)) /~ ratio_b r l), q')
  | None => (l', q')
  end.
(** react, :537-610. *)
Definition react (rs : list rxn) (l : list rcomp) : list rcomp * T := fold_left (fun s r => react1 r s) rs (l, n0).
End EFF.
(** inputFromAtmosphere, :516-528; [x] the mass fractions of the fluid. *)
Definition take_in (x : nat -> T) (flow dt : T) (c : rcomp) : rcomp :=
  mkrcomp (k_fluid c) (k_w c) (match k_fluid c with Some i => x i *~ nabs flow *~ dt | None => k_total c end) n0.
(** outputToAtmosphere, :619-654: the masses given to the fluids of products and of reactants, and
    the rates. *)
Definition made (c : rcomp) : T := match k_fluid c with Some _ => if neps <~ k_mass c then k_mass c else n0 | None => n0 end.
Definition used (c : rcomp) : T := match k_fluid c with Some _ => if k_mass c <~ nopp neps then k_mass c else n0 | None => n0 end.
Definition sum_by (f : rcomp -> T) (l : list rcomp) : T := fold_left (fun a c => a +~ f c) l n0.
Definition product_rate (l : list rcomp) (dt : T) : T := sum_by made l /~ dt.
Definition reactant_rate (l : list rcomp) (dt : T) : T := sum_by used l /~ dt.
(** addRxnHeat, :711-715: the specific enthalpy the fluid is brought to. *)
Definition rxn_enthalpy (flow h q dt : T) : T := (flow *~ h +~ q /~ dt) /~ flow.
(** updateFluid, :490-507: the compounds, the rates and the heat; [None]: no reaction. *)
Definition reactor_update (eff : rxn -> list rcomp -> T) (rs : list rxn) (x : nat -> T) (flow dt : T) (l : list rcomp)
    : option (list rcomp * T * T * T) :=
  if (feps <~ nabs flow) && (neps <~ dt) then
    let (l', q) := react eff rs (map (take_in x flow dt) l) in
    Some (l', product_rate l' dt, reactant_rate l' dt, q)
  else None.
(** transportFluid, :758-811, with valid ports: source vector at the two ports, and what the two
    nodes gain of the internal fluid and of the reaction; [p], [u] the rates of products and
    reactants with weights [wp], [wu], [old] the source vector before. *)
Definition reactor_source (flow p wp u wu : T) (old : T * T) : T * T :=
  let s := (if sorb_limit <~ p then n0 +~ p /~ wp else n0) in
  let s := (if u <~ nopp sorb_limit then s +~ u /~ wu else s) in
  if sorb_limit <~ flow then (n0, s) else if flow <~ nopp sorb_limit then (s, n0) else old.
Definition reactor_gain (flow p u : T) : T * T :=
  let g := (if sorb_limit <~ p then p else n0) +~ (if u <~ nopp sorb_limit then u else n0) in
  if sorb_limit <~ flow then (nopp flow, flow +~ g)
  else if flow <~ nopp sorb_limit then (nopp flow +~ g, flow) else (n0, n0).

(** ** ChemicalCompound.cpp:105-130 (those in reactions) and ChemicalReaction.cpp:92-119 *)
Inductive compound := cCH4 | cCO | cCO2 | cH2 | cH2O | cH3PO4 | cLIOH | cLIOHH2O | cLI2CO3 | cNH3 | cNH42HPO4 | cO2.
Definition weight (c : compound) : T :=
  match c with
  | cCH4 => ndec 160425 (-4) | cCO => ndec 280101 (-4) | cCO2 => ndec 440095 (-4) | cH2 => ndec 201588 (-5)
  | cH2O => ndec 180153 (-4) | cH3PO4 => ndec 979952 (-4) | cLIOH => ndec 2394834 (-5) | cLIOHH2O => ndec 4196364 (-5)
  | cLI2CO3 => ndec 738909 (-4) | cNH3 => ndec 170305 (-4) | cNH42HPO4 => ndec 1320562 (-4) | cO2 => ndec 319988 (-4)
  end.
Inductive reaction := CO_REMOVAL | CH4_REMOVAL | H2_REMOVAL | LIOHH2O_SYNTHESIS | LI2CO3_FORMATION | NH3_REMOVAL | SABATIER_RXN.
(** Mole ratios and compounds of reactant, reagent, first and second product. *)
Definition defined (r : reaction) : Z * compound * (Z * compound) * (Z * compound) * option (Z * compound) :=
  match r with
  | CO_REMOVAL => (2%Z, cCO, (1%Z, cO2), (2%Z, cCO2), None)
  | CH4_REMOVAL => (1%Z, cCH4, (2%Z, cO2), (1%Z, cCO2), Some (2%Z, cH2O))
  | H2_REMOVAL => (2%Z, cH2, (1%Z, cO2), (2%Z, cH2O), None)
  | LIOHH2O_SYNTHESIS => (1%Z, cH2O, (1%Z, cLIOH), (1%Z, cLIOHH2O), None)
  | LI2CO3_FORMATION => (1%Z, cCO2, (2%Z, cLIOHH2O), (1%Z, cLI2CO3), Some (3%Z, cH2O))
  | NH3_REMOVAL => (2%Z, cNH3, (1%Z, cH3PO4), (1%Z, cNH42HPO4), None)
  | SABATIER_RXN => (1%Z, cCO2, (4%Z, cH2), (2%Z, cH2O), Some (1%Z, cCH4))
  end.

(** ** GunnsFluidMetabolic *)
Record crew := mkcrew { cw_n : T; cw_o2 : T; cw_co2 : T; cw_wat : T; cw_q : T }.  (* number and rates *)
(** derive, GunnsFluidMetabolic.cpp:329-364: nominal, sleep, recovery, exercise. *)
Definition crew_derive (nn ns nr ne o2 co2 h2o q fs fr fe : T) : list crew :=
  [mkcrew nn o2 co2 h2o q; mkcrew ns (o2 *~ fs) (co2 *~ fs) (h2o *~ fs) (q *~ fs);
   mkcrew nr (o2 *~ fr) (co2 *~ fr) (h2o *~ fr) (q *~ fr); mkcrew ne (o2 *~ fe) (co2 *~ fe) (h2o *~ fe) (q *~ fe)].
(** validate, :233-301. *)
Definition crew_valid (nn ns nr ne o2 co2 h2o q fs fr fe : T) : bool :=
  negb (o2 <~ n0) && negb (co2 <~ n0) && negb (h2o <~ n0) && negb (q <~ n0) &&
  is_in_range n0 fs n1 && negb (fr <~ n1) && negb (fe <~ fr) &&
  negb (nn <~ n0) && negb (ns <~ n0) && negb (nr <~ n0) && negb (ne <~ n0).
Record breath := mkbreath { h_o2 : T; h_co2 : T; h_h2o : T; h_q : T; h_dem : T }.
(** updateState, :385-416; [x], [m] the mass fraction of oxygen and the mass of the cabin. *)
Definition breathe (cs : list crew) (x m dt : T) (s : breath) : breath :=
  if dt <~ neps then mkbreath (h_o2 s) (h_co2 s) (h_h2o s) (h_q s) n0
  else
    let o2 := fold_left (fun a c => a +~ nmin (x *~ m /~ dt) (cw_n c *~ cw_o2 c)) cs n0 in
    let co2 := fold_left (fun a c => a +~ cw_n c *~ cw_co2 c) cs n0 in
    let wat := fold_left (fun a c => a +~ cw_n c *~ cw_wat c) cs n0 in
    let q := fold_left (fun a c => a +~ cw_n c *~ cw_q c) cs n0 in
    let d := wat +~ co2 -~ o2 in
    mkbreath o2 co2 wat q (if nabs d <=~ neps then n0 else d).
(** updateFluid, :427-449: masses of O2, CO2 and H2O set in the internal fluid and the heat the
    cabin collects; [None]: nothing is done. *)
Definition exhale (s : breath) : option (T * T * T * T) :=
  if neps <~ h_dem s then Some (nopp (h_o2 s), h_co2 s, h_h2o s, h_q s) else None.
(** transition, :466-486; [None] is NO_METABOLIC. *)
Definition transition (n : T) (from to : option nat) (l : list T) : list T :=
  if n <~ n0 then l
  else
    let k := match from with Some i => nmin n (nth i l n0) | None => n end in
    let l := match from with Some i => at_index l i (fun y => nmax n0 (y -~ k)) | None => l end in
    match to with Some i => at_index l i (fun y => nmax n0 (y +~ k)) | None => l end.
End REACT.
