(** SensorAnalog and its base class.
    Source: /repo/gunns-ts-models/common/sensors/SensorAnalog.cpp, SensorAnalog.hh,
    SensorBase.cpp, SensorBase.hh, and MsMath::round of /repo/ms-utils/math/MsMath.hh.
    [F] is the C++ float, [D] the C++ double.  Not modelled: names, the init flag, the
    text of the exceptions.  UnitConversion::convert is an arbitrary function [conv].
    The numbers the noise function returns in one update are an arbitrary sequence. *)
From Coq Require Import Floats Reals List Bool ZArith.
From Flocq Require Import IEEE754.BinarySingleNaN.
From Verif Require Import Num MathUtil MsgQueue F32.
Import ListNotations.

(** The casts between the two types and the limits of float. *)
Class Casts (F D : Type) := {
  narrow : D -> F;              (* static_cast<float> *)
  widen : F -> D;               (* float to double *)
  dfloor : D -> option Z;       (* std::floor; None for NaN and infinity *)
  flt_min : D;                  (* FLT_MIN as a double *)
  flt_eps : F                   (* FLT_EPSILON *)
}.
Global Instance RCasts : Casts R R := {
  narrow := fun x => x; widen := fun x => x; dfloor := fun x => Some (floorR x);
  flt_min := (/ IZR (2 ^ 126))%R; flt_eps := (/ IZR (2 ^ 23))%R }.
Global Instance FCasts : Casts f32 Coq.Floats.PrimFloat.float := {
  narrow := narrow32; widen := widen32; dfloor := floor64;
  flt_min := 0x1p-126%float; flt_eps := norm32 1 (-23) false }.

Section SENSOR.
Context {F D : Type} {NF : Num F} {ND : Num D} {C : Casts F D}.

(** SensorAnalog.hh:199-208, the configuration. *)
Record SensorConfig := mkSensorConfig {
  sc_min : F; sc_max : F; sc_off : F; sc_bias : F; sc_scale : F;
  sc_noise_scale : F; sc_noise_mult : F; sc_resolution : F;
  sc_noise : bool;                                  (* mNoiseFunction is not null *)
  sc_conv : D -> D }.                               (* UnitConversion::convert *)
(** SensorBase.hh:109-113, 141 and SensorAnalog.hh:149-160: power and malfunctions. *)
Record SensorMalf := mkSensorMalf {
  sm_power : bool; sm_fail_to : bool; sm_fail_off : bool; sm_stuck : bool;
  sm_ignore_power : bool; sm_perfect : bool;
  sm_fail_to_value : F; sm_scale : bool; sm_scale_value : F; sm_bias : bool; sm_bias_value : F;
  sm_drift : bool; sm_drift_rate : F; sm_noise : bool; sm_noise_scale : F; sm_noise_mult : F;
  sm_res : bool; sm_res_value : F }.
(** The rest of the state: SensorAnalog.hh:161, 209-211, SensorBase.hh:142. *)
Record SensorState := mkSensorState {
  ss_drift : F; ss_truth_out : D; ss_sensed : F; ss_degraded : bool }.

(** validate, SensorAnalog.cpp:311-324; [true]: no exception.  isInRange compares the
    three floats as doubles, which is the same order. *)
Definition sensor_valid (c : SensorConfig) : bool :=
  negb (sc_max c <=~ sc_min c) && is_in_range (sc_min c) (sc_off c) (sc_max c).

(** determinePower, SensorBase.hh:210-213. *)
Definition powered (m : SensorMalf) : bool :=
  (sm_power m || sm_ignore_power m) && negb (sm_fail_off m).
(** determineDegradation, SensorAnalog.hh:308-313. *)
Definition degraded (m : SensorMalf) : bool :=
  (sm_fail_to m || sm_fail_off m || sm_stuck m || sm_scale m || sm_bias m || sm_drift m ||
   sm_noise m || sm_res m) && negb (sm_perfect m).

(** processInput, SensorAnalog.cpp:387-398. *)
Definition process_input (c : SensorConfig) (truth : D) : F :=
  let s : F := if nabs truth <~ flt_min then n0 else narrow truth in
  narrow (sc_conv c (widen s)).

(** applyScale, SensorAnalog.cpp:415-421. *)
Definition apply_scale (c : SensorConfig) (m : SensorMalf) (s : F) : F :=
  let s := s *~ sc_scale c in
  if sm_scale m then s *~ sm_scale_value m else s.
(** applyBias, SensorAnalog.cpp:427-433. *)
Definition apply_bias (c : SensorConfig) (m : SensorMalf) (s : F) : F :=
  let s := s +~ sc_bias c in
  if sm_bias m then s +~ sm_bias_value m else s.
(** applyDrift, SensorAnalog.cpp:440-448; the new drift and the new output. *)
Definition apply_drift (m : SensorMalf) (dt : D) (drift s : F) : F * F :=
  if sm_drift m then
    let d := drift +~ narrow (widen (sm_drift_rate m) *~ dt) in (d, s +~ d)
  else (n0, s).
(** applyNoise, SensorAnalog.cpp:471-505. *)
Definition apply_noise (c : SensorConfig) (m : SensorMalf) (draw : nat -> D) (s : F) : F :=
  if sc_noise c then
    let scale := if sm_noise m then sm_noise_scale m else sc_noise_scale c in
    let mult := if sm_noise m then sm_noise_mult m else sc_noise_mult c in
    let mult := mult *~ nabs (s -~ sc_off c) in
    let '(s, k) := if flt_eps <~ nabs mult then (s +~ narrow (draw 0%nat) *~ mult, 1%nat) else (s, 0%nat) in
    if flt_eps <~ nabs scale then s +~ narrow (draw k) *~ scale else s
  else s.
(** MsMath::round, MsMath.hh:605-609: the cast to int of a value out of its range is
    undefined. *)
Definition round_int (x : D) : outcome Z :=
  match dfloor (x +~ ndec 5 (-1)) with
  | Some z => if int_ok z then Ret z else UB
  | None => UB
  end.
(** applyResolution, SensorAnalog.cpp:518-532. *)
Definition apply_resolution (c : SensorConfig) (m : SensorMalf) (s : F) : outcome F :=
  let value := nabs (if sm_res m then sm_res_value m else sc_resolution c) in
  if flt_eps <~ value then
    let! z := round_int (widen (s /~ value)) in Ret (value *~ ndec z 0)
  else Ret s.

(** update, SensorAnalog.cpp:334-357, with processOutput, 404-408. *)
Definition sensor_update (c : SensorConfig) (m : SensorMalf) (truth dt : D) (draw : nat -> D)
    (s : SensorState) : outcome SensorState :=
  let! ds :=
    if sm_perfect m then Ret (ss_drift s, process_input c truth)
    else if powered m then
      if sm_fail_to m then Ret (ss_drift s, sm_fail_to_value m)
      else if sm_stuck m then Ret (ss_drift s, ss_sensed s)
      else
        let x := apply_bias c m (apply_scale c m (process_input c truth)) in
        let (d, x) := apply_drift m dt (ss_drift s) x in
        let! x := apply_resolution c m (apply_noise c m draw x) in
        Ret (d, x)
    else Ret (ss_drift s, sc_off c) in
  Ret (mkSensorState (fst ds) (sc_conv c truth) (limit_range (sc_min c) (snd ds) (sc_max c))
         (degraded m)).

(** initialize, SensorAnalog.cpp:261-304: [Ret None] is the exception of validate.  The
    output is zero before the first update. *)
Definition sensor_init (c : SensorConfig) (m : SensorMalf) (truth : D) (drift : F)
    (draw : nat -> D) : outcome (option SensorState) :=
  if sensor_valid c then
    let! s := sensor_update c m truth n0 draw (mkSensorState drift n0 n0 (degraded m)) in Ret (Some s)
  else Ret None.

(** One use of the sensor: the user sets power, malfunctions and truth and updates. *)
Record SensorUse := mkSensorUse { u_malf : SensorMalf; u_truth : D; u_dt : D; u_draw : nat -> D }.
Fixpoint sensor_run (c : SensorConfig) (s : SensorState) (us : list SensorUse) : outcome SensorState :=
  match us with
  | [] => Ret s
  | u :: r => let! s := sensor_update c (u_malf u) (u_truth u) (u_dt u) (u_draw u) s in sensor_run c s r
  end.
End SENSOR.
Arguments SensorConfig : clear implicits.
Arguments SensorMalf : clear implicits.
Arguments SensorState : clear implicits.
Arguments SensorUse : clear implicits.
