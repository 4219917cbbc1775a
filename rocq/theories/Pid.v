(** TsPidController.
    Source: /repo/gunns-ts-models/common/controllers/generic/TsPidController.cpp and .hh.
    Not modelled: the name, the init flag, and the text of the exceptions. *)
From Coq Require Import Floats Reals List Bool ZArith.
From Verif Require Import Num MathUtil.
Import ListNotations.

Section PID.
Context {T : Type} {N : Num T}.

(** TsPidController.hh:43-48. *)
Record PidConfig := mkPidConfig {
  pc_gain_p : T; pc_gain_i : T; pc_gain_d : T; pc_interval : T; pc_low : T; pc_high : T }.
(** TsPidController.hh:71-75. *)
Record PidInput := mkPidInput {
  pi_input : T; pi_setpoint : T; pi_timer : T; pi_integral : T; pi_output : T }.
(** TsPidController.hh:122-134. *)
Record Pid := mkPid {
  p_gain_p : T; p_gain_i : T; p_gain_d : T; p_interval : T; p_low : T; p_high : T;
  p_input : T; p_setpoint : T; p_timer : T; p_integral : T; p_output : T;
  p_error : T; p_derivative : T }.

(** validate, TsPidController.cpp:241-254; [false] is an exception. *)
Definition pid_valid (c : PidConfig) : bool := (n0 <~ pc_interval c) && (pc_low c <~ pc_high c).

(** initialize, TsPidController.cpp:200-232; [None] is the exception of validate. *)
Definition pid_init (c : PidConfig) (i : PidInput) : option Pid :=
  if pid_valid c then
    Some (mkPid (pc_gain_p c) (pc_gain_i c) (pc_gain_d c) (pc_interval c) (pc_low c) (pc_high c)
            (pi_input i) (pi_setpoint i) (pi_timer i) (pi_integral i) (pi_output i)
            (pi_input i -~ pi_setpoint i) n0)
  else None.

(** TsPidController.cpp:276-281: a value closer to zero than DBL_EPSILON becomes zero. *)
Definition flush (x : T) : T := if nabs x <~ neps then n0 else x.

(** update, TsPidController.cpp:264-287; the returned value is the new [p_output]. *)
Definition pid_update (dt : T) (c : Pid) : Pid :=
  let timer := p_timer c +~ dt in
  if (n0 <~ p_interval c) && (p_interval c <=~ timer) then
    let error := p_input c -~ p_setpoint c in
    let integral := p_integral c +~ error *~ timer in
    let derivative := (error -~ p_error c) /~ timer in
    let output := p_output c +~
      (error *~ p_gain_p c +~ integral *~ p_gain_i c +~ derivative *~ p_gain_d c) in
    mkPid (p_gain_p c) (p_gain_i c) (p_gain_d c) (p_interval c) (p_low c) (p_high c)
      (p_input c) (p_setpoint c) n0 (flush integral)
      (limit_range (p_low c) (flush output) (p_high c)) error derivative
  else
    mkPid (p_gain_p c) (p_gain_i c) (p_gain_d c) (p_interval c) (p_low c) (p_high c)
      (p_input c) (p_setpoint c) timer (p_integral c) (p_output c) (p_error c) (p_derivative c).

(** setSetpoint, setInput, TsPidController.hh:154-167. *)
Definition pid_set_setpoint (x : T) (c : Pid) : Pid :=
  mkPid (p_gain_p c) (p_gain_i c) (p_gain_d c) (p_interval c) (p_low c) (p_high c)
    (p_input c) x (p_timer c) (p_integral c) (p_output c) (p_error c) (p_derivative c).
Definition pid_set_input (x : T) (c : Pid) : Pid :=
  mkPid (p_gain_p c) (p_gain_i c) (p_gain_d c) (p_interval c) (p_low c) (p_high c)
    x (p_setpoint c) (p_timer c) (p_integral c) (p_output c) (p_error c) (p_derivative c).

(** The calls a user can make after initialize. *)
Inductive PidCall :=
| SetSetpoint (x : T)
| SetInput (x : T)
| Update (dt : T)
| UpdateInput (dt x : T).   (* TsPidController.cpp:297-301 *)
Definition pid_call (c : Pid) (k : PidCall) : Pid :=
  match k with
  | SetSetpoint x => pid_set_setpoint x c
  | SetInput x => pid_set_input x c
  | Update dt => pid_update dt c
  | UpdateInput dt x => pid_update dt (pid_set_input x c)
  end.
Definition pid_run (c : Pid) (ks : list PidCall) : Pid := fold_left pid_call ks c.
End PID.
Arguments PidConfig : clear implicits.
Arguments PidInput : clear implicits.
Arguments Pid : clear implicits.
Arguments PidCall : clear implicits.
