(** The two sides of an electrical converter.
    Source: /repo/aspects/electrical/Converter/GunnsElectConverterInput.{cpp,hh} and
    GunnsElectConverterOutput.{cpp,hh}, with the trip logic of Trip.v.

    Both are links with one port.  What the sensors read is a function given with each call, so it may
    drift; [cast] stands for the conversion to float and the limits of its range.  The counters of
    state flips are unsigned in C++ and stay near their limit, here natural numbers.  Left out: names,
    messages, user commanded port changes, and mLastOverloadedState, which nothing reads. *)
From Coq Require Import List Bool ZArith Arith.
From Verif Require Import Num MathUtil Trip.
Import ListNotations.

(** GunnsElectConverterOutput.hh:75-87. *)
Inductive reg := VOLTAGE | TRANSFORMER | CURRENT | POWER.
Inductive lim := NO_LIMIT | LIMIT_OC | LIMIT_OV | LIMIT_UV.
Definition is_voltage (r : reg) : bool := match r with VOLTAGE | TRANSFORMER => true | _ => false end.
Definition is_rej (r : result) : bool := match r with REJECT => true | _ => false end.

Section CONVERTER.
Context {T : Type} {N : Num T}.
Variable sq : T -> T.                 (* std::sqrt *)
Variable cast : T -> T.               (* static_cast<float> and limitRange(-FLT_MAX, ., FLT_MAX) *)
Variable table : option (T -> T).     (* mEfficiencyTable->get *)

(** What a link with one port has of GunnsBasicLink. *)
Record port := mkport {
  q_gnd : bool;                       (* mNodeMap[0] is the Ground node *)
  q_p : T; q_a : T; q_w : T;          (* mPotentialVector, mAdmittanceMatrix, mSourceVector *)
  q_upd : bool;                       (* mAdmittanceUpdate *)
  q_flux : T; q_drop : T; q_power : T;
  q_malf : bool; q_malfv : T
}.
Definition q_pot (k : port) (p : T) : port :=
  mkport (q_gnd k) p (q_a k) (q_w k) (q_upd k) (q_flux k) (q_drop k) (q_power k) (q_malf k) (q_malfv k).
Definition q_adm (k : port) (a : T) (u : bool) : port :=
  mkport (q_gnd k) (q_p k) a (q_w k) u (q_flux k) (q_drop k) (q_power k) (q_malf k) (q_malfv k).
Definition q_src (k : port) (w : T) : port :=
  mkport (q_gnd k) (q_p k) (q_a k) w (q_upd k) (q_flux k) (q_drop k) (q_power k) (q_malf k) (q_malfv k).
Definition q_flow (k : port) (f d p : T) : port :=
  mkport (q_gnd k) (q_p k) (q_a k) (q_w k) (q_upd k) f d p (q_malf k) (q_malfv k).

(** GunnsBasicLink.cpp:40 and FLT_EPSILON. *)
Definition g_limit : T := ndec 1 15.
Definition flt_eps : T := ndec 11920928955078125 (-23).

(** ** The input side *)
Record cin := mkin {
  n_k : port; n_en : bool; n_reset : bool; n_ref : T;        (* mEnabled, mResetTrips, mReferencePower *)
  n_pin : T; n_pval : bool; n_vin : T; n_vval : bool;        (* mInputPower(Valid), mInputVoltage(Valid) *)
  n_uv : @trip T; n_ov : @trip T; n_eff : T; n_loss : T;     (* the trips, mConverterEfficiency, mTotalPowerLoss *)
  n_lead : bool; n_over : bool                               (* mLeadsInterface, mOverloadedState *)
}.
Definition n_off (i : cin) : bool := t_trip (n_ov i) || t_trip (n_uv i).
Definition n_with_k (i : cin) (k : port) : cin :=
  mkin k (n_en i) (n_reset i) (n_ref i) (n_pin i) (n_pval i) (n_vin i) (n_vval i) (n_uv i) (n_ov i) (n_eff i) (n_loss i) (n_lead i) (n_over i).
Definition n_with_power (i : cin) (p : T) (v : bool) : cin :=
  mkin (n_k i) (n_en i) (n_reset i) (n_ref i) p v (n_vin i) (n_vval i) (n_uv i) (n_ov i) (n_eff i) (n_loss i) (n_lead i) (n_over i).
Definition n_with_volt (i : cin) (v : T) : cin :=
  mkin (n_k i) (n_en i) (n_reset i) (n_ref i) (n_pin i) (n_pval i) v (n_vval i) (n_uv i) (n_ov i) (n_eff i) (n_loss i) (n_lead i) (n_over i).
Definition n_with_eff (i : cin) (e l : T) : cin :=
  mkin (n_k i) (n_en i) (n_reset i) (n_ref i) (n_pin i) (n_pval i) (n_vin i) (n_vval i) (n_uv i) (n_ov i) e l (n_lead i) (n_over i).
Definition n_with_trips (i : cin) (uv ov : trip) (reset over : bool) : cin :=
  mkin (n_k i) (n_en i) reset (n_ref i) (n_pin i) (n_pval i) (n_vin i) (n_vval i) uv ov (n_eff i) (n_loss i) (n_lead i) over.
Definition n_with_valid (i : cin) (v : bool) : cin :=
  mkin (n_k i) (n_en i) (n_reset i) (n_ref i) (n_pin i) (n_pval i) (n_vin i) v (n_uv i) (n_ov i) (n_eff i) (n_loss i) (n_lead i) (n_over i).

(** validate, GunnsElectConverterInput.cpp:259-285. *)
Definition in_valid (uv ov ref : T) : bool :=
  negb ((ov <~ uv) && negb (ov ==~ n0)) &&
  match table with
  | Some f => forallb (fun i => is_in_range neps (f (ndec 1 (-1) *~ ndec (Z.of_nat i) 0)) n1) (seq 0 11) && negb (ref <~ neps)
  | None => true
  end.
(** initialize :207-223. *)
Definition in_init (k : port) (prio : Z) (uv ov : T) (en : bool) (vin pin ref : T) : option cin :=
  if in_valid uv ov ref
  then Some (mkin (q_pot k vin) en false ref pin true vin true (trip_init uv prio false) (trip_init ov prio false) n1 n0 false false)
  else None.
(** computeInputVoltage :534-543; it also returns mInputVoltageValid. *)
Definition input_voltage (i : cin) : T :=
  if negb (n_en i) || n_off i || (q_malf (n_k i) && (n1 <=~ q_malfv (n_k i))) then n0
  else nmax n0 (q_p (n_k i)).
(** resetTrips, GunnsElectConverterInput.hh:262-266. *)
Definition in_reset_trips (i : cin) : cin :=
  n_with_trips i (reset_trip (n_uv i)) (reset_trip (n_ov i)) (n_reset i) (n_over i).

(** ** The output side *)
Record cout := mkout {
  o_k : port;
  o_type : reg; o_limon : bool; o_g : T; o_ceff : T; o_flips : nat;   (* mRegulatorType, mEnableLimiting, mOutputConductance, mConverterEfficiency, mStateFlipsLimit *)
  o_en : bool; o_reset : bool; o_set : T;                             (* mEnabled, mResetTrips, mSetpoint *)
  o_vin : T; o_vval : bool; o_avail : bool;                           (* mInputVoltage(Valid), mOutputPowerAvailable *)
  o_pin : T; o_pval : bool;                                           (* mInputPower(Valid) *)
  o_chloss : T; o_loss : T; o_load : T;                               (* mOutputChannelLoss, mTotalPowerLoss, mLoadResistance *)
  o_ov : @trip T; o_uv : @trip T; o_oc : @trip T;
  o_lead : bool;
  o_rev : bool; o_rflips : nat; o_lim : lim; o_lflips : nat;          (* mReverseBiasState/Flips, mLimitState/Flips *)
  o_src : T                                                           (* mSourceVoltage *)
}.
Definition o_with_k (o : cout) (k : port) : cout :=
  mkout k (o_type o) (o_limon o) (o_g o) (o_ceff o) (o_flips o) (o_en o) (o_reset o) (o_set o) (o_vin o) (o_vval o) (o_avail o)
        (o_pin o) (o_pval o) (o_chloss o) (o_loss o) (o_load o) (o_ov o) (o_uv o) (o_oc o) (o_lead o) (o_rev o) (o_rflips o) (o_lim o) (o_lflips o) (o_src o).
Definition o_with_volt (o : cout) (v : T) (val : bool) : cout :=
  mkout (o_k o) (o_type o) (o_limon o) (o_g o) (o_ceff o) (o_flips o) (o_en o) (o_reset o) (o_set o) v val (o_avail o)
        (o_pin o) (o_pval o) (o_chloss o) (o_loss o) (o_load o) (o_ov o) (o_uv o) (o_oc o) (o_lead o) (o_rev o) (o_rflips o) (o_lim o) (o_lflips o) (o_src o).
Definition o_with_avail (o : cout) (a : bool) : cout :=
  mkout (o_k o) (o_type o) (o_limon o) (o_g o) (o_ceff o) (o_flips o) (o_en o) (o_reset o) (o_set o) (o_vin o) (o_vval o) a
        (o_pin o) (o_pval o) (o_chloss o) (o_loss o) (o_load o) (o_ov o) (o_uv o) (o_oc o) (o_lead o) (o_rev o) (o_rflips o) (o_lim o) (o_lflips o) (o_src o).
Definition o_with_power (o : cout) (p : T) : cout :=
  mkout (o_k o) (o_type o) (o_limon o) (o_g o) (o_ceff o) (o_flips o) (o_en o) (o_reset o) (o_set o) (o_vin o) (o_vval o) (o_avail o)
        p (o_pval o) (o_chloss o) (o_loss o) (o_load o) (o_ov o) (o_uv o) (o_oc o) (o_lead o) (o_rev o) (o_rflips o) (o_lim o) (o_lflips o) (o_src o).
Definition o_with_pval (o : cout) (v : bool) : cout :=
  mkout (o_k o) (o_type o) (o_limon o) (o_g o) (o_ceff o) (o_flips o) (o_en o) (o_reset o) (o_set o) (o_vin o) (o_vval o) (o_avail o)
        (o_pin o) v (o_chloss o) (o_loss o) (o_load o) (o_ov o) (o_uv o) (o_oc o) (o_lead o) (o_rev o) (o_rflips o) (o_lim o) (o_lflips o) (o_src o).
Definition o_with_loss (o : cout) (c l : T) : cout :=
  mkout (o_k o) (o_type o) (o_limon o) (o_g o) (o_ceff o) (o_flips o) (o_en o) (o_reset o) (o_set o) (o_vin o) (o_vval o) (o_avail o)
        (o_pin o) (o_pval o) c l (o_load o) (o_ov o) (o_uv o) (o_oc o) (o_lead o) (o_rev o) (o_rflips o) (o_lim o) (o_lflips o) (o_src o).
Definition o_with_load (o : cout) (r : T) : cout :=
  mkout (o_k o) (o_type o) (o_limon o) (o_g o) (o_ceff o) (o_flips o) (o_en o) (o_reset o) (o_set o) (o_vin o) (o_vval o) (o_avail o)
        (o_pin o) (o_pval o) (o_chloss o) (o_loss o) r (o_ov o) (o_uv o) (o_oc o) (o_lead o) (o_rev o) (o_rflips o) (o_lim o) (o_lflips o) (o_src o).
Definition o_with_trips (o : cout) (ov uv oc : trip) (reset : bool) : cout :=
  mkout (o_k o) (o_type o) (o_limon o) (o_g o) (o_ceff o) (o_flips o) (o_en o) reset (o_set o) (o_vin o) (o_vval o) (o_avail o)
        (o_pin o) (o_pval o) (o_chloss o) (o_loss o) (o_load o) ov uv oc (o_lead o) (o_rev o) (o_rflips o) (o_lim o) (o_lflips o) (o_src o).
Definition o_with_bias (o : cout) (r : bool) (n : nat) : cout :=
  mkout (o_k o) (o_type o) (o_limon o) (o_g o) (o_ceff o) (o_flips o) (o_en o) (o_reset o) (o_set o) (o_vin o) (o_vval o) (o_avail o)
        (o_pin o) (o_pval o) (o_chloss o) (o_loss o) (o_load o) (o_ov o) (o_uv o) (o_oc o) (o_lead o) r n (o_lim o) (o_lflips o) (o_src o).
Definition o_with_lim (o : cout) (l : lim) (n : nat) : cout :=
  mkout (o_k o) (o_type o) (o_limon o) (o_g o) (o_ceff o) (o_flips o) (o_en o) (o_reset o) (o_set o) (o_vin o) (o_vval o) (o_avail o)
        (o_pin o) (o_pval o) (o_chloss o) (o_loss o) (o_load o) (o_ov o) (o_uv o) (o_oc o) (o_lead o) (o_rev o) (o_rflips o) l n (o_src o).
Definition o_with_src (o : cout) (s : T) : cout :=
  mkout (o_k o) (o_type o) (o_limon o) (o_g o) (o_ceff o) (o_flips o) (o_en o) (o_reset o) (o_set o) (o_vin o) (o_vval o) (o_avail o)
        (o_pin o) (o_pval o) (o_chloss o) (o_loss o) (o_load o) (o_ov o) (o_uv o) (o_oc o) (o_lead o) (o_rev o) (o_rflips o) (o_lim o) (o_lflips o) s.

(** validate, GunnsElectConverterOutput.cpp:301-333, and initialize :225-266. *)
Definition out_init (k : port) (type : reg) (limon : bool) (g eff : T) (flips : nat) (prio : Z) (ov uv oc : T) (en : bool) (vin pin set : T) : option cout :=
  if negb (g <~ neps) && negb (eff <~ neps) && negb (n1 <~ eff) && negb (vin <~ n0) && negb (set <~ n0)
  then Some (mkout k type limon g eff flips en false set vin true (n0 <~ vin) pin true n0 n0 n0
                   (trip_init ov prio false) (trip_init uv prio false) (trip_init oc prio false) false
                   (match type with VOLTAGE => set <~ q_p k | _ => false end) 0 NO_LIMIT 0 n0)
  else None.
(** GunnsElectConverterOutput.hh:346-349, 486-528. *)
Definition out_flux (o : cout) : T := nmax n0 (q_w (o_k o) -~ q_p (o_k o) *~ q_a (o_k o)).
Definition compute_flux (o : cout) : cout :=
  o_with_k o (q_flow (o_k o) (out_flux o) (q_drop (o_k o)) (q_power (o_k o))).
Definition estimate_load (o : cout) : cout :=
  let o := compute_flux o in
  o_with_load o (if (neps <~ q_flux (o_k o)) && (neps <~ q_p (o_k o)) then q_p (o_k o) /~ q_flux (o_k o) else n1).
Definition blocked (o : cout) (x : T) : T :=
  if q_malf (o_k o) then x *~ (n1 -~ limit_range n0 (q_malfv (o_k o)) n1) else x.
Definition any_trips (o : cout) : bool := t_trip (o_ov o) || t_trip (o_oc o) || t_trip (o_uv o).
(** resetTrips :333-341, without those of the input side. *)
Definition out_reset_trips (o : cout) : cout :=
  o_with_trips o (reset_trip (o_ov o)) (reset_trip (o_uv o)) (reset_trip (o_oc o)) (o_reset o).
(** computeInputPower, GunnsElectConverterOutput.cpp:804-830: the link and the power. *)
Definition input_power (o : cout) : cout * T :=
  if q_gnd (o_k o) || negb (o_pval o)
  then (o_with_loss (o_with_k o (q_flow (o_k o) (q_flux (o_k o)) (q_drop (o_k o)) n0)) n0 n0, n0)
  else
    let f := out_flux o in
    let power := f *~ q_p (o_k o) in
    let ch := f *~ f /~ nmax neps (o_g o) in
    let p := (power +~ ch) /~ limit_range neps (o_ceff o) n1 in
    (o_with_loss (o_with_k o (q_flow (o_k o) f (q_drop (o_k o)) power)) ch (p -~ power), p).
(** computeRegulationSources :453-486: conductance, voltage, current. *)
Definition sources (o : cout) : T * T * T :=
  if is_voltage (o_type o) then
    match o_lim o with
    | LIMIT_OC => (flt_eps, n0, t_limit (o_oc o))
    | _ => (blocked o (o_g o), match o_type o with TRANSFORMER => o_set o *~ o_vin o | _ => o_set o end, n0)
    end
  else
    match o_lim o with
    | LIMIT_OV => (blocked o (o_g o), t_limit (o_ov o), n0)
    | LIMIT_UV => (blocked o (o_g o), t_limit (o_uv o), n0)
    | l => (flt_eps, n0,
            match o_type o with
            | CURRENT => blocked o (match l with LIMIT_OC => t_limit (o_oc o) | _ => o_set o end)
            | _ => if (n0 <~ o_set o) && (n0 <~ o_load o) then blocked o (sq (o_set o /~ o_load o)) else n0
            end)
    end.

(** ** Minor steps *)
(** The part of the input side's minorStep that looks at no other link, GunnsElectConverterInput.cpp:367-413. *)
Definition in_load (i : cin) : cin :=
  let k := n_k i in
  let e := match table with Some f => f (n_pin i /~ nmax neps (n_ref i)) | None => n1 end in
  let e := if q_malf k then e *~ (n1 -~ limit_range n0 (q_malfv k) n1) else e in
  let e := limit_range neps e n1 in
  let load := n_pin i /~ e in
  let iuv := t_limit (n_uv i) in
  let current :=
    if n_en i && negb (n_over i || n_off i) then
      if q_p k <~ n0 then nopp (q_w k)
      else if neps <~ iuv then load /~ nmax (n_vin i) (ndec 99 (-2) *~ iuv)
      else if neps <~ n_vin i then load /~ n_vin i else n0
    else n0 in
  let k := if negb (q_a k ==~ n0) then q_adm k n0 true else k in
  n_with_k (n_with_eff i e (load -~ n_pin i)) (q_src k (nmin n0 (nopp current))).
(** minorStep :334-415, with the output side it points to. *)
Definition in_minor (i : cin) (mo : option cout) : cin * option cout :=
  if q_gnd (n_k i) then
    (n_with_volt (n_with_power (n_with_k i (q_flow (q_src (q_adm (n_k i) n0 (q_upd (n_k i))) n0) n0 n0 n0)) n0 (n_pval i)) n0, mo)
  else
    let i := n_with_volt i (input_voltage i) in
    match mo with
    | Some o =>
        if n_lead i then
          let '(o, p) := input_power o in
          (in_load (n_with_power i p (o_pval o)), Some (o_with_volt o (n_vin i) (o_vval o)))
        else (in_load (n_with_power i (n_pin i) (o_pval o)), mo)
    | None => (in_load (n_with_power i (n_pin i) true), mo)
    end.
(** step :310-324. *)
Definition in_step (i : cin) (mo : option cout) : cin * option cout :=
  let i := n_with_trips i (n_uv i) (n_ov i) (n_reset i) false in
  let i := if n_reset i then in_reset_trips (n_with_trips i (n_uv i) (n_ov i) false (n_over i)) else i in
  in_minor i mo.
(** The part of the output side's minorStep after the exchange, GunnsElectConverterOutput.cpp:412-441. *)
Definition out_drive (minor : nat) (o : cout) : cout :=
  let o := if Nat.eqb 1 minor then o_with_avail o (n0 <~ o_vin o) else o in
  let o := estimate_load o in
  let '(g, v, c) := if o_en o && o_avail o && negb (any_trips o) then sources o else (n0, n0, n0) in
  let g := if o_rev o then n0 else g in
  let g := limit_range n0 g g_limit in
  let k := o_k o in
  let k := if n0 <~ nabs (q_a k -~ g) then q_adm k g true else k in
  o_with_src (o_with_k o (q_src k (v *~ g +~ c))) v.
(** minorStep :382-443. *)
Definition out_minor (minor : nat) (o : cout) (mi : option cin) : cout * option cin :=
  let o := o_with_src o n0 in
  if q_gnd (o_k o) then
    (o_with_power (o_with_volt (o_with_k o (q_src (q_adm (o_k o) n0 (q_upd (o_k o))) n0)) n0 (o_vval o)) n0, mi)
  else
    let '(o, p) := input_power o in
    let o := o_with_power o p in
    match mi with
    | Some i =>
        if o_lead o
        then (out_drive minor (o_with_volt o (input_voltage i) (n_vval i)), Some (n_with_power i p (n_pval i)))
        else (out_drive minor (o_with_volt o (o_vin o) (n_vval i)), mi)
    | None => (out_drive minor (o_with_volt o (o_vin o) true), mi)
    end.
(** step :361-374. *)
Definition out_step (o : cout) (mi : option cin) : cout * option cin :=
  let '(o, mi) := if o_reset o then (out_reset_trips (o_with_trips o (o_ov o) (o_uv o) (o_oc o) false), option_map in_reset_trips mi) else (o, mi) in
  out_minor 1 (o_with_lim (o_with_bias o (o_rev o) 0) (o_lim o) 0) mi.

(** ** The decision on a solution *)
(** updateBias, GunnsElectConverterOutput.cpp:594-619. *)
Definition update_bias (r : result) (step : Z) (no_rev : bool) (o : cout) : cout * result :=
  let last := o_rev o in
  let o' :=
    if match o_lim o with LIMIT_OC => true | NO_LIMIT => negb (is_voltage (o_type o)) | _ => false end then o_with_bias o false (o_rflips o)
    else if q_p (o_k o) <=~ o_src o then o_with_bias o false (o_rflips o)
    else if (0 <? step)%Z && Nat.ltb (o_rflips o) (o_flips o) && negb (o_rev o || no_rev) then o_with_bias o true (S (o_rflips o))
    else o in
  if Bool.eqb last (o_rev o') then (o', r) else (o_with_power o' n0, REJECT).
(** rejectWithLimitState :628-636. *)
Definition reject_with (l : lim) (o : cout) : cout * result :=
  (o_with_lim o l (match l with NO_LIMIT => o_lflips o | _ => S (o_lflips o) end), REJECT).
(** computeVoltageControlSetpoint, computeCurrentControlSetpoint :770-794. *)
Definition voltage_setpoint (o : cout) : T :=
  cast (match o_type o with TRANSFORMER => o_set o *~ o_vin o | _ => o_set o end).
Definition current_setpoint (o : cout) : T :=
  cast (match o_type o with
        | CURRENT => blocked o (o_set o)
        | _ => if (n0 <~ o_set o) && (n0 <~ o_load o) then blocked o (sq (o_set o /~ o_load o)) else n0
        end).
(** updateCurrentLimitState :672-684. *)
Definition update_current_limit (r : result) (v c : T) (o : cout) : cout * result :=
  let can_oc := (n0 <~ t_limit (o_oc o)) && Nat.ltb (o_lflips o) (o_flips o) in
  match o_lim o with
  | LIMIT_OC => if voltage_setpoint o <~ v then reject_with NO_LIMIT o else (o, r)
  | NO_LIMIT => if can_oc && (t_limit (o_oc o) <~ c) then reject_with LIMIT_OC o else (o, r)
  | _ => (o, r)
  end.
(** updateVoltageLimitState :696-760. *)
Definition update_voltage_limit (r : result) (v c : T) (o : cout) : cout * result * bool :=
  let left := Nat.ltb (o_lflips o) (o_flips o) in
  let can_ov := (n0 <~ t_limit (o_ov o)) && left in
  let can_uv := (n0 <~ t_limit (o_uv o)) && left in
  let can_oc := (n0 <~ t_limit (o_oc o)) && left && can_uv in
  match o_lim o with
  | LIMIT_OC =>
      (if can_ov && (t_limit (o_ov o) <~ v) then reject_with LIMIT_OV o
       else if t_limit (o_uv o) <~ v then reject_with NO_LIMIT o else (o, r), false)
  | LIMIT_UV =>
      (if can_oc && (t_limit (o_oc o) <~ c) then reject_with LIMIT_OC o
       else if can_ov && (t_limit (o_ov o) <~ v) then reject_with LIMIT_OV o
       else if (t_limit (o_uv o) <~ v) || (c <~ current_setpoint o) then reject_with NO_LIMIT o else (o, r), false)
  | LIMIT_OV =>
      (if can_uv && (v <~ t_limit (o_uv o)) then reject_with LIMIT_UV o
       else if (current_setpoint o <~ c) || (n0 ==~ current_setpoint o) then reject_with LIMIT_UV o else (o, r), false)
  | NO_LIMIT =>
      if can_ov && (t_limit (o_ov o) <~ v) then (reject_with LIMIT_OV o, true)
      else if can_uv && (v <~ t_limit (o_uv o)) then (reject_with LIMIT_UV o, true)
      else ((o, r), false)
  end.
(** updateLimitState :647-662. *)
Definition update_limit (r : result) (v c : T) (o : cout) : cout * result * bool :=
  if o_en o && o_limon o then
    if is_voltage (o_type o) then (update_current_limit r v c o, false) else update_voltage_limit r v c o
  else (o_with_lim o NO_LIMIT (o_lflips o), r, false).
(** The trips, :551-559. *)
Definition out_trips (r : result) (v c : T) (step : Z) (o : cout) : cout * result :=
  if o_en o then
    let '(ov, uv, r) :=
      if negb (o_limon o && negb (is_voltage (o_type o))) then
        let '(ov, r, _) := check_for_trip GreaterThan (o_ov o) r v step in
        let '(uv, r, _) := check_for_trip LessThan (o_uv o) r v step in (ov, uv, r)
      else (o_ov o, o_uv o, r) in
    let '(oc, r) :=
      if negb (o_limon o) then let '(oc, r, _) := check_for_trip GreaterThan (o_oc o) r c step in (oc, r)
      else (o_oc o, r) in
    (o_with_trips o ov uv oc (o_reset o), r)
  else (o, r).
(** What the output side decides by itself, :520-565; [sv] and [si] are the sensors. *)
Definition out_self (step : Z) (sv si : T -> T) (o : cout) : cout * result :=
  let '(o, r) := update_bias CONFIRM step false o in
  let '(o, r) :=
    if (0 <? step)%Z && negb (is_rej r) then
      let '(o, p) := input_power o in
      let o := o_with_power o p in
      let v := sv (cast (q_p (o_k o))) in
      let c := si (cast (q_flux (o_k o))) in
      let '(o, r) := out_trips r v c step o in
      let '(o, r, no_rev) := update_limit r v c o in
      update_bias r step no_rev o
    else (o, r) in
  (o_with_pval o (negb (is_rej r)), r).
(** confirmSolutionAcceptable :516-578. *)
Definition out_confirm (step : Z) (sv si : T -> T) (o : cout) (mi : option cin) : cout * result :=
  if q_gnd (o_k o) then (o_with_pval o false, CONFIRM)
  else
    let '(o, r) := out_self step sv si o in
    let o := match mi with Some i => o_with_volt o (o_vin o) (n_vval i) | None => o end in
    (o, if o_vval o then r else REJECT).
(** What the input side decides by itself, GunnsElectConverterInput.cpp:450-488. *)
Definition in_self (step : Z) (sv : T -> T) (i : cin) : cin * result :=
  let v := sv (cast (q_p (n_k i))) in
  let '(i, r) :=
    if n_en i then
      let '(ov, r, _) := check_for_trip GreaterThan (n_ov i) CONFIRM v step in
      let '(uv, r, _) := check_for_trip LessThan (n_uv i) r v step in
      (n_with_trips i uv ov (n_reset i) (n_over i), r)
    else (i, CONFIRM) in
  let '(i, r) :=
    match r with
    | CONFIRM =>
        if negb (n_off i || n_over i) then
          let i := n_with_volt i (input_voltage i) in
          if (n0 <~ n_pin i) && (q_p (n_k i) <=~ n0) then (n_with_trips i (n_uv i) (n_ov i) (n_reset i) true, REJECT) else (i, r)
        else (i, r)
    | _ => (i, r)
    end in
  (n_with_valid i (negb (is_rej r)), r).
(** confirmSolutionAcceptable :446-501. *)
Definition in_confirm (step : Z) (sv : T -> T) (i : cin) (mo : option cout) : cin * result :=
  if q_gnd (n_k i) then (n_with_valid i false, CONFIRM)
  else if (0 =? step)%Z then (n_with_valid i true, CONFIRM)
  else
    let '(i, r) := in_self step sv i in
    let i := match mo with Some o => n_with_power i (n_pin i) (o_pval o) | None => i end in
    (i, if n_pval i then r else REJECT).
(** resetLastMinorStep: GunnsElectConverterInput.cpp:516-523, GunnsElectConverterOutput.hh:542-547. *)
Definition in_back (step : Z) (i : cin) : cin :=
  if (0 <? step)%Z && (q_p (n_k i) <~ n0) then n_with_k i (q_pot (n_k i) n0) else i.
Definition out_back (o : cout) : cout := o_with_pval o false.

(** checkNodeList, GunnsElectConverterInput.cpp:238-249 and GunnsElectConverterOutput.cpp:280-291: of
    two linked sides in one network, the one that was initialised first drives the exchange. *)
Definition in_leads (i : cin) : cin :=
  mkin (n_k i) (n_en i) (n_reset i) (n_ref i) (n_pin i) (n_pval i) (n_vin i) (n_vval i) (n_uv i) (n_ov i) (n_eff i) (n_loss i) true (n_over i).
Definition out_leads (o : cout) : cout :=
  mkout (o_k o) (o_type o) (o_limon o) (o_g o) (o_ceff o) (o_flips o) (o_en o) (o_reset o) (o_set o) (o_vin o) (o_vval o) (o_avail o)
        (o_pin o) (o_pval o) (o_chloss o) (o_loss o) (o_load o) (o_ov o) (o_uv o) (o_oc o) true (o_rev o) (o_rflips o) (o_lim o) (o_lflips o) (o_src o).

(** ** Flows *)
(** computeFlows, GunnsElectConverterInput.cpp:422-436. *)
Definition in_flows (i : cin) : cin :=
  if q_gnd (n_k i) then i else
  let i := n_with_volt i (input_voltage i) in
  let k := n_k i in
  let f := q_p k *~ q_a k -~ q_w k in
  n_with_k i (q_flow k f (q_p k) (nopp f *~ q_p k)).
(** computeFlows, GunnsElectConverterOutput.cpp:493-506; it leaves mPower to computeInputPower. *)
Definition out_flows (o : cout) : cout :=
  if q_gnd (o_k o) then o_with_k o (q_flow (o_k o) n0 n0 (q_power (o_k o)))
  else o_with_k o (q_flow (o_k o) (out_flux o) (nopp (q_p (o_k o))) (q_power (o_k o))).

(** ** A pair in one network *)
(** What happens around one minor step: whether the links are skipped because the step before was
    delayed, its number, how long the network has converged, the
    potentials it finds, the sensors, whether another link rejects, and the potentials saved before. *)
Record env := mkenv {
  e_skip : bool; e_minor : nat; e_step : Z; e_pi : T; e_po : T; e_svi : T -> T; e_svo : T -> T; e_sio : T -> T;
  e_rej : bool; e_bi : T; e_bo : T
}.
(** One turn of the loop of Gunns::iterateMinorSteps (core/Gunns.cpp:843-932) as the pair sees it, with
    the links in the order of the network; the Boolean tells whether the pair rejects. *)
Definition pair_pass (in_first : bool) (e : env) (s : cin * cout) : cin * cout * bool :=
  let '(i, o) := s in
  let '(i, o) :=
    if e_skip e then (i, o)
    else if in_first then
      let '(i, mo) := in_minor i (Some o) in
      let '(o, mi) := out_minor (e_minor e) (match mo with Some o => o | None => o end) (Some i) in
      (match mi with Some i => i | None => i end, o)
    else
      let '(o, mi) := out_minor (e_minor e) o (Some i) in
      let '(i, mo) := in_minor (match mi with Some i => i | None => i end) (Some o) in
      (i, match mo with Some o => o | None => o end) in
  let i := n_with_k i (q_pot (n_k i) (e_pi e)) in
  let o := o_with_k o (q_pot (o_k o) (e_po e)) in
  let '(i, o, rej) :=
    if in_first then
      let '(i, r1) := in_confirm (e_step e) (e_svi e) i (Some o) in
      let '(o, r2) := out_confirm (e_step e) (e_svo e) (e_sio e) o (Some i) in
      (i, o, is_rej r1 || is_rej r2)
    else
      let '(o, r2) := out_confirm (e_step e) (e_svo e) (e_sio e) o (Some i) in
      let '(i, r1) := in_confirm (e_step e) (e_svi e) i (Some o) in
      (i, o, is_rej r1 || is_rej r2) in
  if rej || e_rej e
  then (in_back (e_step e) (n_with_k i (q_pot (n_k i) (e_bi e))), out_back (o_with_k o (q_pot (o_k o) (e_bo e))), rej)
  else (i, o, rej).
Fixpoint pair_passes (in_first : bool) (es : list env) (s : cin * cout) : cin * cout * nat :=
  match es with
  | [] => (s, 0)
  | e :: es =>
      let '(i, o, rej) := pair_pass in_first e s in
      let '(s, n) := pair_passes in_first es (i, o) in
      (s, (if rej then 1 else 0) + n)
  end.
End CONVERTER.
Arguments port : clear implicits.
Arguments cin : clear implicits.
Arguments cout : clear implicits.
Arguments env : clear implicits.
