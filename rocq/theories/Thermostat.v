(** Heater controls.
    Source: /repo/gunns-ts-models/aspects/signal/effectors/thermostat/HtrControl.cpp and
    Thermostat.cpp.  The temperature sensors are those of Sensor.v.  Not modelled: names, the init
    flag, the text of the exceptions. *)
From Coq Require Import List Bool ZArith.
From Verif Require Import Num MathUtil MsgQueue Sensor.
Import ListNotations.

(** UserLoadMode is LoadOFF ([false]) or LoadON ([true]). *)
(** HtrControl.cpp:180-206, considerCommandMalfs. *)
Definition consider_malfs (off_malf on_malf kill cmd : bool) : bool :=
  if off_malf then false else if on_malf then true else if kill then false else cmd.
(** HtrControl.cpp:149-155, validate; [true]: no exception. *)
Definition htr_valid (on_malf off_malf : bool) : bool := negb (on_malf && off_malf).

Section THERMOSTAT.
Context {F D : Type} {NF : Num F} {ND : Num D} {C : Casts F D}.

(** Thermostat.hh: the logic types. *)
Inductive logic := SINGLE | AND | OR.
(** Thermostat.hh: the configuration, with that of the sensors. *)
Record thcfg := mkthcfg {
  tc_low : D; tc_high : D; tc_num : nat; tc_logic : logic; tc_sensor : SensorConfig F D }.
(** HtrControl.hh, Thermostat.hh: the malfunctions and the kill switch, which the user may set at
    any time. *)
Record thmalf := mkthmalf {
  tm_off : bool; tm_on : bool; tm_kill : bool;
  tm_lowf : bool; tm_low : D; tm_highf : bool; tm_high : D }.
(** The rest of the state. *)
Record thstate := mkthstate {
  ts_sensors : list (SensorState F D);
  ts_setpt : D;           (* mTemperatureSetpt *)
  ts_bias : D;            (* mCommandSetptBias *)
  ts_low : D;             (* mSetptLow *)
  ts_high : D;            (* mSetptHigh *)
  ts_nominal : bool;      (* mCommandNominal *)
  ts_cmd : bool;          (* mCommandSetpt *)
  ts_actual : bool }.     (* mCommandActual *)

(** Thermostat.cpp:232-251, validate, and HtrControl's. *)
Definition th_valid (c : thcfg) (m : thmalf) : bool :=
  htr_valid (tm_on m) (tm_off m) &&
  negb (Nat.ltb (tc_num c) 1) &&
  negb (Nat.ltb 1 (tc_num c) && match tc_logic c with SINGLE => true | _ => false end) &&
  negb (tc_high c <=~ tc_low c) && negb (tm_high m <=~ tm_low m).

(** Thermostat.cpp:190, mNominalTemperatureSetpt. *)
Definition th_mid (c : thcfg) : D := ndec 5 (-1) *~ (tc_low c +~ tc_high c).

(** Thermostat.cpp:366-388, evaluateAgainstSetpoints. *)
Definition evaluate (low high : D) (cmd : bool) (temp : D) : bool :=
  if high <~ temp then false else if temp <~ low then true else cmd.
(** Thermostat.cpp:405-417 and 434-446, returnLoadModePrimary and returnLoadModeSecondary. *)
Definition primary (l : logic) : bool := match l with AND => false | _ => true end.
Definition secondary (l : logic) : bool := match l with AND => true | _ => false end.
(** Thermostat.cpp:330-352, readSensors. *)
Fixpoint read_sensors (l : logic) (low high : D) (cmd : bool) (temps : list D) : bool :=
  match temps with
  | [] => secondary l
  | t :: r => if Bool.eqb (primary l) (evaluate low high cmd t) then primary l
              else read_sensors l low high cmd r
  end.

(** Thermostat.cpp:276-280: sensor [i] is updated as [us i] says. *)
Fixpoint update_sensors (c : SensorConfig F D) (us : nat -> SensorUse F D) (i : nat)
    (ss : list (SensorState F D)) : outcome (list (SensorState F D)) :=
  match ss with
  | [] => Ret []
  | s :: r =>
    let u := us i in
    let! s := sensor_update c (u_malf u) (u_truth u) (u_dt u) (u_draw u) s in
    let! r := update_sensors c us (S i) r in Ret (s :: r)
  end.
Definition temps_of (ss : list (SensorState F D)) : list D := map (fun s => widen (ss_sensed s)) ss.

(** Thermostat.cpp:270-315, update. *)
Definition th_update (c : thcfg) (m : thmalf) (us : nat -> SensorUse F D) (s : thstate) : outcome thstate :=
  let! ss := update_sensors (tc_sensor c) us 0 (ts_sensors s) in
  let bias := ts_setpt s -~ th_mid c in
  let low := tc_low c +~ bias in
  let high := tc_high c +~ bias in
  let default := ts_nominal s in
  let nominal := read_sensors (tc_logic c) low high default (temps_of ss) in
  let default := if tm_lowf m then ts_cmd s else default in
  let low := if tm_lowf m then tm_low m else low in
  let default := if tm_highf m then ts_cmd s else default in
  let high := if tm_highf m then tm_high m else high in
  let cmd := read_sensors (tc_logic c) low high default (temps_of ss) in
  Ret (mkthstate ss (ts_setpt s) bias low high nominal cmd
         (consider_malfs (tm_off m) (tm_on m) (tm_kill m) cmd)).

(** Thermostat.cpp:453-456, setTemperatureSetpt. *)
Definition set_setpt (s : thstate) (x : D) : thstate :=
  mkthstate (ts_sensors s) x (ts_bias s) (ts_low s) (ts_high s) (ts_nominal s) (ts_cmd s) (ts_actual s).
(** Thermostat.cpp:463-469, setCommandSetptBias. *)
Definition set_bias (c : thcfg) (s : thstate) (b : D) : thstate :=
  mkthstate (ts_sensors s) (th_mid c +~ b) b (ts_low s) (ts_high s) (ts_nominal s) (ts_cmd s) (ts_actual s).

(** Thermostat.cpp:174-222, initialize, from a newly made object: its commands are off, and each
    sensor is initialized with the same input. *)
Definition th_init (c : thcfg) (m : thmalf) (sm : SensorMalf F) (truth : D) (drift : F)
    (draw : nat -> nat -> D) : outcome (option thstate) :=
  if th_valid c m then
    (fix go (k : nat) (acc : list (SensorState F D)) : outcome (option thstate) :=
       match k with
       | 0%nat => Ret (Some (mkthstate (rev acc) (th_mid c) n0 (tc_low c) (tc_high c) false false false))
       | S k' =>
         let! s := sensor_init (tc_sensor c) sm truth drift (draw (length acc)) in
         match s with Some s => go k' (s :: acc) | None => Ret None end
       end) (tc_num c) []
  else Ret None.
End THERMOSTAT.
Arguments thcfg : clear implicits.
Arguments thmalf : clear implicits.
Arguments thstate : clear implicits.
