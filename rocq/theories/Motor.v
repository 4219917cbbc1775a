(** Electric motors of pumps and the controller of their speed.
    Source: /repo/gunns-ts-models/common/effectors/mechanical/motor/DcDynPumpMotor.cpp and
    TsDcPwmDynMotor.cpp, controllers/fluid/TsPumpMotorController.cpp.

    [fmod] is the argument [fm] and [std::sin] is [sn].  Malfunctions are options: [None] is the
    flag cleared, [Some v] the flag set with value [v].  Messages, names, the initialization flag and
    copies of configuration data are left out. *)
From Coq Require Import List Bool ZArith.
From Verif Require Import Num MathUtil FluidFlow FluidFan.
Import ListNotations.

Section MOTOR.
Context {T : Type} {N : Num T}.
Variables (fm : T -> T -> T) (sn : T -> T).

(** The malfunctions of both motors. *)
Record malf := mkmalf { j_degrade : option T; j_jam : option T; j_speed : option T; j_heat : option T }.
(** gatherExternalLoads, DcDynPumpMotor.cpp:427-434 and TsDcPwmDynMotor.cpp:445-452. *)
Definition mot_load (f : malf) (l : T * T * T * T) (stall : T) : T :=
  let '(a, b, c, d) := l in
  let t := a +~ b +~ c +~ d in
  match j_jam f with Some v => t -~ v *~ stall | None => t end.
(** computeMotorSpeed, :450-459 and :465-473; [t] is the total torque. *)
Definition mot_speed (f : malf) (dt t inertia w : T) : T :=
  match j_speed f with
  | Some v => v
  | None => nmax (w +~ t *~ dt *~ sec_2pi /~ inertia) n0
  end.
(** computeWasteHeat, :469-487 and :515-533: useful power, waste heat and efficiency. *)
Definition mot_useful (load w : T) : T := nopp load *~ w /~ sec_2pi.
Definition mot_waste (f : malf) (power useful : T) : T :=
  let q := nmax (power -~ useful) n0 in
  match j_heat f with Some v => q +~ v | None => q end.
Definition mot_eff (power useful : T) : T := if n0 <~ power then useful /~ power else n0.

(** ** DcDynPumpMotor *)
Record dc_cfg := mkdc { d_wind : T; d_k : T; d_fric : T; d_fmin : T; d_inertia : T }.
(** validate, :311-355. *)
Definition dc_valid (c : dc_cfg) (volt speed : T) : bool :=
  negb ((d_wind c <~ neps) || (d_k c <~ neps) || (d_fric c <~ n0) || (d_fmin c <~ n0)
        || (d_inertia c <~ neps) || (volt <~ n0) || (speed <~ n0)).
(** computeElectricalOutputs, :385-403. *)
Definition dc_res (c : dc_cfg) (f : malf) : T :=
  let r := nmax neps (d_wind c) in
  match j_degrade f with Some v => r /~ nmax neps (n1 -~ v) | None => r end.
Definition dc_current (c : dc_cfg) (f : malf) (volt lim w : T) : T :=
  limit_range n0 ((volt -~ d_k c *~ w /~ sec_2pi) /~ dc_res c f) lim.
Definition dc_power (i volt : T) : T := i *~ volt.
Definition dc_resistance (i volt : T) : T := volt /~ nmax i neps.
(** generateMotorTorque, :413-417. *)
Definition dc_stall (c : dc_cfg) (f : malf) (volt : T) : T := d_k c *~ volt /~ dc_res c f.
Definition dc_drive (c : dc_cfg) (i : T) : T := d_k c *~ i.
(** :448. *)
Definition dc_friction (c : dc_cfg) (w : T) : T := nopp (d_fric c) *~ nmax w (d_fmin c).
(** step, :365-372. *)
Record dc := mkdcs { o_speed : T; o_current : T; o_power : T; o_resist : T; o_drive : T; o_load : T; o_waste : T; o_eff : T }.
Definition dc_step (c : dc_cfg) (f : malf) (l : T * T * T * T) (volt lim dt w : T) : dc :=
  let i := dc_current c f volt lim w in
  let load := mot_load f l (dc_stall c f volt) in
  let w' := mot_speed f dt (dc_drive c i +~ load +~ dc_friction c w) (d_inertia c) w in
  let p := dc_power i volt in
  let u := mot_useful load w' in
  mkdcs w' i p (dc_resistance i volt) (dc_drive c i) load (mot_waste f p u) (mot_eff p u).

(** ** TsDcPwmDynMotor *)
Record pw_cfg := mkpw { w_waste : T; w_c1 : T; w_c2 : T; w_fric : T; w_bemf : T; w_res : T; w_inertia : T; w_ratio : T }.
(** validate, :342-392. *)
Definition pw_valid (c : pw_cfg) (volt pulse speed : T) : bool :=
  negb (negb (is_in_range n0 (w_waste c) n1) || (n0 <~ w_fric c) || (w_res c <~ neps)
        || (w_inertia c <~ neps) || (w_ratio c <~ neps) || (volt <~ n0)
        || negb (is_in_range n0 pulse n1) || (speed <~ n0)).
(** generateMotorTorque, :425-435. *)
Definition pw_stall (c : pw_cfg) (f : malf) (volt : T) : T :=
  let s := w_c1 c *~ volt +~ w_c2 c *~ volt *~ volt in
  match j_degrade f with Some v => s *~ (n1 -~ v) | None => s end.
Definition pw_drive (c : pw_cfg) (stall pulse w : T) : T := nmax (stall -~ w /~ w_ratio c) n0 *~ pulse.
(** computeElectricalOutputs, :489-506: current, generated current, resistance. *)
Definition pw_back (c : pw_cfg) (w : T) : T := w_bemf c *~ w /~ w_res c.
Definition pw_current (c : pw_cfg) (f : malf) (volt pulse w : T) : T :=
  let factor := w_waste c +~ pulse *~ (n1 -~ w_waste c) in
  let i := factor *~ (volt /~ w_res c -~ pw_back c w) in
  let i := match j_degrade f with Some v => i *~ (n1 -~ v) | None => i end in
  nmax i n0.
Definition pw_generated (c : pw_cfg) (w i : T) : T := nmax (pw_back c w -~ i) n0.
Definition pw_resistance (volt i : T) : T := if neps <~ i then volt /~ i else n1 /~ neps.
(** step, :402-409. *)
Definition pw_step (c : pw_cfg) (f : malf) (l : T * T * T * T) (volt pulse dt w : T) : dc :=
  let stall := pw_stall c f volt in
  let load := mot_load f l stall in
  let w' := mot_speed f dt (pw_drive c stall pulse w +~ load +~ w_fric c) (w_inertia c) w in
  let i := pw_current c f volt pulse w' in
  let p := i *~ volt in
  let u := mot_useful load w' in
  mkdcs w' i p (pw_resistance volt i) (pw_drive c stall pulse w) load (mot_waste f p u) (mot_eff p u).

(** ** TsPumpMotorController *)
Record ct_cfg := mkct {
  c_motor : dc_cfg; c_force : T; c_damp : T; c_cut : T; c_trip : T; c_reset : T; c_vmin : T; c_vmax : T;
  c_load : T; c_amp : T; c_freq : T; c_start : T }.
(** validate, :353-421. *)
Definition ct_valid (c : ct_cfg) (volt : T) : bool :=
  negb (negb (is_in_range n0 (c_force c) n1) || negb (is_in_range n0 (c_damp c) n1)
        || negb (is_in_range n0 (c_cut c) n1) || (c_reset c <~ n0) || (c_trip c <=~ c_reset c)
        || (c_vmin c <~ n0) || (c_vmax c <=~ c_vmin c) || (c_load c <~ n0) || (c_amp c <~ n0)
        || (c_freq c <~ n0) || (volt <~ n0)).
(** Inputs of a step: supply voltage, sensed speed and temperature, command, and malfunctions: power
    failed, voltage override, command override. *)
Record ct_in := mkci {
  i_volt : T; i_speed : T; i_temp : T; i_cmd : T; i_on : bool; i_fail : bool; i_over : option T; i_mcmd : option T }.
Record ct := mkcts { x_trip : bool; x_cpow : bool; x_mpow : bool; x_phase : T; x_err : T; x_pulse : T; x_start : bool }.
Definition ct_volt (u : ct_in) : T := match i_over u with Some v => v | None => i_volt u end.
(** determinePower and checkTrips, :474-507. *)
Definition ct_power (c : ct_cfg) (u : ct_in) : bool := is_in_range (c_vmin c) (ct_volt u) (c_vmax c) && negb (i_fail u).
Definition ct_trip (c : ct_cfg) (u : ct_in) (trip : bool) : bool :=
  if ct_power c u then ((c_trip c <~ i_temp u) || trip) && negb (i_temp u <~ c_reset c) else false.
Definition ct_mpow (c : ct_cfg) (u : ct_in) (trip : bool) : bool := ct_power c u && i_on u && negb trip.
Definition two_pi : T := ndec 62831853071795862 (-16).
(** The noise, :530-535. *)
Definition ct_phase (c : ct_cfg) (dt ph : T) : T :=
  let p := fm (ph +~ two_pi *~ c_freq c *~ dt) two_pi in
  if p <~ n0 then p +~ two_pi else p.
(** The filter on the error, :538-558: error, pulse width, startup state. *)
Definition ct_error (cmd sensed : T) : T := if feps <~ cmd then (cmd -~ sensed) /~ cmd else nopp n1.
Definition ct_filter (c : ct_cfg) (old e pulse : T) (start : bool) : T * bool :=
  let d := nopp old +~ e in
  let p := pulse +~ e *~ c_force c in
  if c_cut c <~ nabs e
  then (limit_range n0 (p +~ c_damp c *~ d /~ nmax (nabs e) (ndec 1 (-4))) n1, start)
  else (limit_range n0 p n1, false).
(** determinePower and updateControlFilter, :474-565. *)
Definition ct_update (c : ct_cfg) (dt : T) (u : ct_in) (s : ct) : ct :=
  let cp := ct_power c u in
  let tr := ct_trip c u (x_trip s) in
  let mp := ct_mpow c u tr in
  let cmd := match i_mcmd u with Some v => v | None => i_cmd u end in
  if mp && (feps <~ cmd) then
    let ph := ct_phase c dt (x_phase s) in
    let e := ct_error (cmd +~ c_amp c *~ sn ph) (i_speed u) in
    let r := ct_filter c (x_err s) e (x_pulse s) (x_start s) in
    mkcts tr cp mp ph e (fst r) (snd r)
  else mkcts tr cp mp (x_phase s) n0 n0 true.
(** updateMotor, :574-593. *)
Definition ct_limit (c : ct_cfg) (s : ct) : T := if x_start s then c_start c else ndec 1 15.
Definition ct_motor (c : ct_cfg) (f : malf) (l : T * T * T * T) (dt w : T) (u : ct_in) (s : ct) : dc :=
  dc_step (c_motor c) f l (x_pulse s *~ ct_volt u) (ct_limit c s) dt w.
(** updatePowerLoad, :603-624: resistance, waste heat and current; getTotalPower, :630-633. *)
Definition ct_use (u : ct_in) (s : ct) : T := if x_cpow s then ct_volt u else i_volt u.
Definition ct_conduct (c : ct_cfg) (u : ct_in) (s : ct) (m : dc) : T :=
  let v := ct_use u s in
  let g := if x_cpow s then n0 +~ c_load c /~ nmax neps (v *~ v) else n0 in
  if x_mpow s then g +~ x_pulse s *~ x_pulse s /~ nmax neps (o_resist m) else g.
Definition ct_resist (c : ct_cfg) (u : ct_in) (s : ct) (m : dc) : T := n1 /~ nmax neps (ct_conduct c u s m).
Definition ct_heat (c : ct_cfg) (s : ct) (m : dc) : T :=
  let q := if x_cpow s then n0 +~ c_load c else n0 in
  if x_mpow s then q +~ o_waste m else q.
Definition ct_current (c : ct_cfg) (u : ct_in) (s : ct) (m : dc) : T := ct_use u s /~ ct_resist c u s m.
Definition ct_total (c : ct_cfg) (u : ct_in) (s : ct) (m : dc) : T := i_volt u *~ ct_current c u s m.
(** initialize, :313-329. *)
Definition ct_init (phase : T) (start : bool) : ct := mkcts false false false phase n0 n0 start.
(** step, :431-437: the controller's state and the motor's speed. *)
Definition ct_step (c : ct_cfg) (f : malf) (l : T * T * T * T) (dt : T) (u : ct_in) (x : ct * T) : ct * T :=
  let s := ct_update c dt u (fst x) in
  (s, o_speed (ct_motor c f l dt (snd x) u s)).
Fixpoint ct_run (c : ct_cfg) (f : malf) (l : T * T * T * T) (dt : T) (us : list ct_in) (x : ct * T) : ct * T :=
  match us with [] => x | u :: us => ct_run c f l dt us (ct_step c f l dt u x) end.
End MOTOR.
Arguments malf T : clear implicits.
Arguments dc_cfg T : clear implicits.
Arguments dc T : clear implicits.
Arguments pw_cfg T : clear implicits.
Arguments ct_cfg T : clear implicits.
Arguments ct_in T : clear implicits.
Arguments ct T : clear implicits.
