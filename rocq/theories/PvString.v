(** Strings of photovoltaic cells and their loads.
    Source: /repo/aspects/electrical/SolarArray/GunnsElectPvString.cpp.

    Cells are as configured in GunnsElectPvCellConfigData; numbers of cells are naturals.  The check of names and
    pointers and messages are left out. *)
From Coq Require Import List Bool Arith ZArith.
From Verif Require Import Num MathUtil.
Import ListNotations.

Section PV.
Context {T : Type} {N : Num T}.
(** A number of cells or groups as a number. *)
Fixpoint nnat (k : nat) : T := match k with O => n0 | S k => nnat k +~ n1 end.
(** mSurfaceArea, mEfficiency, mSeriesResistance, mShuntResistance, mOpenCircuitVoltage, mRefTemperature,
    mTemperatureVoltageCoeff, mTemperatureCurrentCoeff; mNumCells, mBypassDiodeInterval,
    mBlockingDiodeVoltageDrop, mBypassDiodeVoltageDrop. *)
Record pvc := mkpvc { e_area : T; e_eff : T; e_rs : T; e_rsh : T; e_voc : T; e_tref : T; e_cv : T; e_ci : T;
                      e_cells : nat; e_int : nat; e_block : T; e_byp : T }.
(** mPhotoFlux, mSourceExposedFraction, mTemperature; mMalfDegradeFlag with its value, mMalfCellGroupFlag with
    its value. *)
Record pvi := mkpvi { f_flux : T; f_exp : T; f_temp : T; f_deg : option T; f_grp : option Z }.
(** validate, :669-738. *)
Definition pv_valid (c : pvc) (i : pvi) : bool :=
  negb (e_area c <~ neps) && is_in_range n0 (e_eff c) n1 && negb (e_rs c <~ neps) && negb (e_rsh c <~ neps) && negb (e_voc c <~ neps) &&
  negb (e_cells c <? 1)%nat && negb (e_int c <? 1)%nat && (e_cells c mod e_int c =? 0)%nat &&
  negb (f_flux i <~ n0) && is_in_range n0 (f_exp i) n1 && negb (f_temp i <~ n0).
(** updateBypassedGroups, :816-825; the ceiling of a number from 0 to the number of groups is the number of
    naturals below it. *)
Definition bypassed (c : pvc) (i : pvi) : nat :=
  let ng := (e_cells c / e_int c)%nat in
  let dark := nnat ng *~ (n1 -~ limit_range n0 (f_exp i) n1) in
  let nb := length (filter (fun k => nnat k <~ dark) (seq 0 ng)) in
  match f_grp i with Some g => Nat.max nb (Z.to_nat (Z.max 0 (Z.min g (Z.of_nat ng)))) | None => nb end.
(** A point of the curve: voltage, current, power and conductance. *)
Record pt := mkpt { t_v : T; t_i : T; t_p : T; t_g : T }.
Definition no_pt : pt := mkpt n0 n0 n0 n0.
(** mShuntVoltageDrop, mSeriesVoltageDrop, mEqProps' mIL, mRsh, mRs; mOpenCircuitVoltage,
    mShortCircuitCurrent, mMpp. *)
Record pvs := mkpvs { w_vsh : T; w_vs : T; w_il : T; w_rsh : T; w_rs : T; w_voc : T; w_isc : T; w_mpp : pt }.
Definition diode : T := ndec 1 6.
(** updateMpp, :833-854. *)
Definition mpp (c : pvc) (na vsh vs il rsh rs : T) : pt :=
  let power := vsh *~ il in
  let ish := vsh /~ rsh in
  let is := il -~ ish in
  let p := nmax n0 (power -~ vsh *~ ish -~ is *~ vs -~ is *~ is *~ na *~ e_rs c) in
  if n0 <~ p then
    let v := nmax neps (vsh -~ is *~ rs -~ vs) in
    mkpt v (p /~ v) p (p /~ v /~ v)
  else no_pt.
(** update, :747-801. *)
Definition pv_update (c : pvc) (i : pvi) : pvs :=
  let nb := bypassed c i in
  let act := (e_cells c - nb * e_int c)%nat in
  let na := nnat act in
  let rsh := nmax (n1 /~ diode) (e_rsh c) in
  let dt := f_temp i -~ e_tref c in
  let vsh := na *~ e_voc c *~ nmax (n1 +~ dt *~ e_cv c) n0 in
  let rs := nmax (n1 /~ diode) (na *~ e_rs c) in
  let vs := e_block c +~ nnat nb *~ e_byp c in
  let il := if neps <~ vsh then
              let conv := e_eff c *~ nmax (n1 +~ dt *~ e_ci c) n0 in
              let power := f_flux i *~ na *~ e_area c *~ conv in
              let power := match f_deg i with Some d => power *~ limit_range n0 (n1 -~ d) n1 | None => power end in
              power /~ vsh
            else n0 in
  if (0 <? act)%nat then mkpvs vsh vs il rsh rs (vsh -~ vs +~ il *~ rsh /~ diode) (nmax n0 ((il *~ rsh -~ vs) /~ (rsh +~ rs))) (mpp c na vsh vs il rsh rs)
  else mkpvs vsh vs il rsh rs n0 n0 no_pt.
(** loadAtPower, :864-890; [t] is the terminal before. *)
Definition load_power (sq : T -> T) (s : pvs) (power : T) (short : bool) (t : pt) : pt :=
  let m := w_mpp s in
  if (n0 <~ power) && (power <~ t_p m) && (t_i m <~ w_isc s) then
    let '(qa, qb, sign) := if short then let qa := t_v m /~ (t_i m -~ w_isc s) in (qa, nopp qa *~ w_isc s, nopp n1)
                           else ((t_v m -~ w_voc s) /~ t_i m, w_voc s, n1) in
    let d := qb *~ qb -~ ndec 4 0 *~ qa *~ nopp power in
    if (n0 <~ d) && (qa <~ n0) then
      let i := ndec 5 (-1) *~ (sign *~ sq d -~ qb) /~ qa in
      mkpt (power /~ i) i power (i /~ (power /~ i))
    else t
  else no_pt.
(** predictCurrentAtVoltage, :957-970, and loadAtVoltage, :899-919, which sets the current so. *)
Definition current_at (s : pvs) (v : T) : T :=
  let m := w_mpp s in
  if negb (is_in_range neps v (w_voc s)) then n0
  else if v <=~ t_v m then w_isc s -~ (w_isc s -~ t_i m) *~ v /~ t_v m
  else t_i m *~ (w_voc s -~ v) /~ (w_voc s -~ t_v m).
Definition load_voltage (s : pvs) (v : T) : pt :=
  if negb (is_in_range neps v (w_voc s)) then mkpt v n0 n0 n0 else let i := current_at s v in mkpt v i (v *~ i) (i /~ v).
(** loadAtConductance, :927-947. *)
Definition load_cond (s : pvs) (g : T) : pt :=
  let m := w_mpp s in
  if (g <~ neps) || (w_isc s <~ neps) then mkpt (w_voc s) n0 n0 g
  else
    let i := if g <=~ t_g m then g *~ w_voc s /~ (n1 -~ g *~ (t_v m -~ w_voc s) /~ t_i m)
             else let slope := t_v m /~ (t_i m -~ w_isc s) in nopp g *~ slope *~ w_isc s /~ (n1 -~ g *~ slope) in
    mkpt (i /~ g) i (i *~ (i /~ g)) g.
End PV.
Arguments pvc T : clear implicits.
Arguments pvi T : clear implicits.
Arguments pt T : clear implicits.
Arguments pvs T : clear implicits.
