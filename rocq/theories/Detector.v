(** Limit switches, fan speed sensors, smoke detectors and valves with end sensors.
    Source: /repo/gunns-ts-models/common/sensors/TsLimitSwitch.cpp, TsLimitSwitchAnalog.cpp,
    TsFanSpeedSensors.cpp, TsOpticSmokeDetector.cpp, SensorVlvOpenClose.cpp and
    /repo/gunns-ts-models/common/controllers/valveAssemblies/TsOpenCloseValveAssembly.cpp.
    The analog sensors are those of Sensor.v, the boolean sensors and valve controllers those of
    Valve.v.  Not modelled: names, the init flags, the text of the exceptions.  The noise is an
    arbitrary sequence. *)
From Coq Require Import List Bool ZArith.
From Verif Require Import Num MathUtil MsgQueue Sensor.
From Verif Require Valve.
Import ListNotations.

(** TsLimitSwitch.cpp:110-122, update: the sensed value. *)
Definition limit_switch (failed_value off_value real is_powered is_failed : bool) : bool :=
  if is_failed then failed_value else if negb is_powered then off_value else real.

Section DETECT.
Context {F D : Type} {NF : Num F} {ND : Num D} {C : Casts F D}.

(** TsLimitSwitchAnalog.cpp:119-142, the range. *)
Definition limit_in_range (target tol x : D) : bool :=
  if nabs (x -~ target) <~ tol then true
  else if (n0 <~ target) && (target <~ x) then true
  else (target <~ n0) && (x <~ target).
Definition limit_analog (failed_value off_value : bool) (target tol x : D) (is_powered is_failed : bool) : bool :=
  limit_switch failed_value off_value (limit_in_range target tol x) is_powered is_failed.
(** TsLimitSwitchAnalog.cpp:101-106: [true] is no exception. *)
Definition limit_valid (tol : D) : bool := negb (tol <~ widen flt_eps).

(** SensorBase.hh:189-192, setPowerFlag. *)
Definition with_power (b : bool) (m : SensorMalf F) : SensorMalf F :=
  mkSensorMalf b (sm_fail_to m) (sm_fail_off m) (sm_stuck m) (sm_ignore_power m) (sm_perfect m)
    (sm_fail_to_value m) (sm_scale m) (sm_scale_value m) (sm_bias m) (sm_bias_value m) (sm_drift m)
    (sm_drift_rate m) (sm_noise m) (sm_noise_scale m) (sm_noise_mult m) (sm_res m) (sm_res_value m).

(** TsFanSpeedSensors.cpp:197-234, sense: the three sensors and the average. *)
Definition fan_sense (c : SensorConfig F D) (ma mb mc : SensorMalf F) (dt : D) (power : bool) (speed : D)
    (da db dc : nat -> D) (s : SensorState F D * SensorState F D * SensorState F D)
    : outcome (SensorState F D * SensorState F D * SensorState F D * F) :=
  let '(a, b, c') := s in
  let! a := sensor_update c (with_power power ma) speed dt da a in
  let! b := sensor_update c (with_power power mb) speed dt db b in
  let! c' := sensor_update c (with_power power mc) speed dt dc c' in
  Ret (a, b, c', (ss_sensed a +~ ss_sensed b +~ ss_sensed c') /~ ndec 3 0).

(** ** TsOpticSmokeDetector *)
(** TsOpticSmokeDetector.hh: the configuration data. *)
Record sdcfg := mksdcfg {
  sd_omax : F; sd_omin : F; sd_osmoke : F; sd_smax : F; sd_smin : F; sd_bit : F;
  sd_onom : F; sd_snom : F; sd_recover : F; sd_ooff : F; sd_soff : F;
  sd_oslope : F; sd_oicpt : F; sd_sslope : F; sd_sicpt : F }.
(** TsOpticSmokeDetector.cpp:32-48, the constructor's. *)
Definition sd_default : sdcfg :=
  mksdcfg (ndec 10412 (-2)) (ndec (-10) 0) (ndec 67 (-1)) (ndec 247 (-2)) (ndec 11 (-2)) (ndec 142 (-2))
    (ndec 824 (-2)) (ndec 16768 (-5)) (ndec 15 (-1)) (ndec 5345 (-2)) (ndec 1006 (-4))
    (ndec (-8) (-2)) (ndec 4 0) (ndec 201 (-2)) n0.
(** TsOpticSmokeDetector.cpp:143-154: initialize copies these of the configuration; the slopes and
    intercepts stay the constructor's. *)
Definition sd_take (u : sdcfg) : sdcfg :=
  mksdcfg (sd_omax u) (sd_omin u) (sd_osmoke u) (sd_smax u) (sd_smin u) (sd_bit u)
    (sd_onom u) (sd_snom u) (sd_recover u) (sd_ooff u) (sd_soff u)
    (sd_oslope sd_default) (sd_oicpt sd_default) (sd_sslope sd_default) (sd_sicpt sd_default).
(** TsOpticSmokeDetector.cpp:52-59, 156-158: the configurations of the two sensors; their largest
    values stay the constructor's. *)
Definition obs_sensor (k : sdcfg) : SensorConfig F D :=
  mkSensorConfig (sd_omin k) (ndec 10412 (-2)) (sd_ooff k) n0 n1 (ndec 1 (-2)) n0 n0 true (fun x => x).
Definition scat_sensor (k : sdcfg) : SensorConfig F D :=
  mkSensorConfig n0 (ndec 247 (-2)) (sd_soff k) n0 n1 (ndec 1 (-3)) n0 n0 true (fun x => x).
(** TsOpticSmokeDetector.cpp:236-269, validate. *)
Definition sd_valid (k : sdcfg) (smoke timer : F) : bool :=
  negb (sd_omax k <=~ sd_omin k) && negb (sd_smax k <=~ sd_smin k) && negb (sd_onom k <=~ sd_omin k) &&
  negb (sd_snom k <=~ sd_smin k) && negb (sd_bit k <=~ sd_smin k) && negb (widen (sd_recover k) <=~ flt_min) &&
  negb (smoke <~ n0) && negb (n1 <~ smoke) && negb (timer <~ n0).

(** What is set from outside between two updates. *)
Record sdin := mksdin {
  di_power : bool; di_bit : bool; di_smoke : F; di_fail : bool; di_force : bool; di_dt : F;
  di_om : SensorMalf F; di_sm : SensorMalf F; di_od : nat -> D; di_sd : nat -> D }.
Record sdstate := mksdstate {
  ds_load : bool; ds_process : bool; ds_timer : F; ds_obs : F; ds_scat : F;
  ds_osens : SensorState F D; ds_ssens : SensorState F D; ds_ovolt : F; ds_svolt : F }.

(** TsOpticSmokeDetector.cpp:305-322, performBitTest: in process, timer, obscuration, scatter. *)
Definition bit_test (k : sdcfg) (enabled : bool) (dt timer : F) : bool * F * F * F :=
  let process := timer <=~ sd_recover k in
  if enabled then (process, timer, sd_omax k, sd_bit k)
  else (process, timer +~ dt, sd_omax k, sd_smin k).
(** TsOpticSmokeDetector.cpp:189-231, update. *)
Definition sd_update (k : sdcfg) (i : sdin) (s : sdstate) : outcome sdstate :=
  let load := (di_power i || di_force i) && negb (di_fail i) in
  let '(process, timer, obs, scat) :=
    if load then
      if di_bit i || ds_process s then bit_test k (di_bit i) (di_dt i) (ds_timer s)
      else (ds_process s, n0, sd_onom k +~ sd_osmoke k *~ di_smoke i,
            sd_snom k +~ (sd_smax k -~ sd_snom k) *~ di_smoke i)
    else (ds_process s, ds_timer s, sd_ooff k, sd_soff k) in
  let obs := limit_range (sd_omin k) obs (sd_omax k) in
  let scat := limit_range n0 scat (sd_smax k) in
  let! o := sensor_update (obs_sensor k) (with_power load (di_om i)) (widen obs) (widen (di_dt i)) (di_od i) (ds_osens s) in
  let! c := sensor_update (scat_sensor k) (with_power load (di_sm i)) (widen scat) (widen (di_dt i)) (di_sd i) (ds_ssens s) in
  Ret (mksdstate load process timer obs scat o c (sd_oslope k *~ ss_sensed o +~ sd_oicpt k)
         (sd_sslope k *~ ss_sensed c +~ sd_sicpt k)).
Fixpoint sd_run (k : sdcfg) (s : sdstate) (is : list sdin) : outcome sdstate :=
  match is with [] => Ret s | i :: r => let! s := sd_update k i s in sd_run k s r end.
(** TsOpticSmokeDetector.cpp:133-173, initialize, from a newly made object; [None] is an exception. *)
Definition sd_init (u : sdcfg) (load : bool) (smoke timer : F) (om sm : SensorMalf F) (ot st : D) (odrift sdrift : F)
    (od sd : nat -> D) : outcome (option (sdcfg * sdstate)) :=
  let k := sd_take u in
  if sd_valid k smoke timer then
    let! o := sensor_init (obs_sensor k) om ot odrift od in
    let! c := sensor_init (scat_sensor k) sm st sdrift sd in
    match o, c with
    | Some o, Some c => Ret (Some (k, mksdstate load false timer n0 n0 o c n0 n0))
    | _, _ => Ret None
    end
  else Ret None.

(** ** The end sensors of a valve *)
(** SensorBooleanAi.cpp:211-219, sense, with the power on: the sensor afterwards. *)
Definition end_sense (s : Valve.bsense) (target tol : F) (x : D) : Valve.bsense :=
  let s := Valve.mkbsense true (Valve.b_failto s) (Valve.b_failtov s) (Valve.b_failoff s) (Valve.b_failstuck s)
             (Valve.b_ignore s) (Valve.b_perfect s) (Valve.b_off s) (Valve.b_out s) in
  Valve.mkbsense true (Valve.b_failto s) (Valve.b_failtov s) (Valve.b_failoff s) (Valve.b_failstuck s)
    (Valve.b_ignore s) (Valve.b_perfect s) (Valve.b_off s)
    (Valve.bool_sense s (Valve.analog_truth narrow target tol x)).
(** TsOpenCloseValveAssembly.hh: the controller with the flags it was given, and the two sensors. *)
Record asm := mkasm {
  as_p : Valve.powered D; as_open : bool; as_closed : bool; as_so : Valve.bsense; as_sc : Valve.bsense }.
Record acfg := mkacfg { ac_topen : F; ac_tolopen : F; ac_tclosed : F; ac_tolclosed : F }.
(** TsOpenCloseValveAssembly.cpp:192-222, update. *)
Definition asm_update (eps : D) (k : acfg) (s : asm) (supply en opn cls unstowed : bool) (handle dt : D) : asm :=
  let p := Valve.open_close_update eps (as_p s) supply en opn cls (as_open s) (as_closed s) unstowed handle dt in
  let x := Valve.v_pos (Valve.p_v p) in
  let so := end_sense (as_so s) (ac_topen k) (ac_tolopen k) x in
  let sc := end_sense (as_sc s) (ac_tclosed k) (ac_tolclosed k) x in
  mkasm p (Valve.b_out so) (Valve.b_out sc) so sc.
End DETECT.
Arguments sdcfg : clear implicits.
Arguments sdin : clear implicits.
Arguments sdstate : clear implicits.
Arguments asm : clear implicits.
Arguments acfg : clear implicits.
