(** Gas turbines and the shafts they share with fans.
    Source: /repo/aspects/fluid/conductor/GunnsGasTurbine.cpp and GunnsDriveShaftSpotter.cpp.

    [std::sqrt] is the argument [sq], [std::pow] is [pw] and with a whole exponent [ip].  Convection
    to the wall, messages and names are left out. *)
From Coq Require Import List Bool ZArith.
From Verif Require Import Num MathUtil FluidFlow FluidFan.
Import ListNotations.

Section TURBINE.
Context {T : Type} {N : Num T}.
Variables (sq : T -> T) (pw : T -> T -> T) (ip : T -> Z -> T).

(** Each pair is the value at the low and at the high corrected speed. *)
Record tb_cfg := mktb {
  t_temp : T; t_press : T; t_flow : T * T; t_c1 : T * T; t_c2 : T * T; t_eff : list T * list T;
  t_speed : T * T; t_gain : T; t_drive : T; t_min : T * T; t_max : T * T; t_cond : T }.
(** validate, GunnsGasTurbine.cpp:366-426. *)
Definition tb_valid (c : tb_cfg) (motor wall : T) : bool :=
  negb ((t_press c <~ neps) || (t_temp c <~ neps) || (t_drive c <~ neps)
        || (fst (t_flow c) <~ neps) || (snd (t_flow c) <~ neps)
        || (fst (t_speed c) <~ neps) || (snd (t_speed c) <~ neps)
        || (nabs (fst (t_speed c) -~ snd (t_speed c)) <~ neps)
        || (snd (t_max c) <~ snd (t_min c)) || (fst (t_max c) <~ fst (t_min c))
        || (snd (t_min c) <~ neps) || (fst (t_min c) <~ neps)
        || (snd (t_max c) <~ neps) || (fst (t_max c) <~ neps)
        || (motor <~ n0) || (wall <~ n0)).
(** interpolate, :582-584. *)
Definition interp (y : T * T) (f : T) : T := fst y +~ f *~ (snd y -~ fst y).
(** :553-556; [temp] is the source temperature. *)
Definition tb_corrected (c : tb_cfg) (imp temp : T) : T :=
  limit_range (fst (t_speed c)) (imp /~ (nmax neps temp /~ nmax neps (t_temp c))) (snd (t_speed c)).
Definition tb_frac (c : tb_cfg) (imp temp : T) : T :=
  (tb_corrected c imp temp -~ fst (t_speed c)) /~ (snd (t_speed c) -~ fst (t_speed c)).

(** mPressureRatio, mPressureDrop, mPredictedFlowRate. *)
Record tb := mktbs { b_ratio : T; b_drop : T; b_pred : T }.
(** :566-568. *)
Definition tb_map (c : tb_cfg) (f r : T) : T :=
  interp (t_flow c) f *~ ((r -~ n1) *~ (r -~ n1) +~ interp (t_c1 c) f *~ (r -~ n1))
    /~ nmax neps (r *~ r +~ interp (t_c2 c) f).
(** computeFlowRate, :534-575, with the density, temperature and pressure of the source port's node
    and [pot] what getDeltaPotential returns; [None] is an exception. *)
Definition tb_flow (c : tb_cfg) (imp rho temp press pot : T) (s : tb) : option tb :=
  if nabs (fst (t_speed c) -~ snd (t_speed c)) <~ neps then None
  else if feps <~ nmax neps rho then
    let p := nmax neps press in
    let drop := t_gain c *~ pot +~ (n1 -~ t_gain c) *~ b_drop s in
    let r := nmax n1 (p /~ nmax neps (p -~ drop)) in
    let k := (p /~ nmax neps (t_press c)) /~ sq (nmax neps temp /~ nmax neps (t_temp c)) in
    Some (mktbs r drop (tb_map c (tb_frac c imp temp) r *~ k))
  else Some (mktbs (b_ratio s) (b_drop s) n0).
(** updateState, :451-464: speed and conductivity; [a], [b] are the fluids of the nodes. *)
Definition tb_speed (c : tb_cfg) (motor old : T) : T := if neps <~ t_drive c then motor /~ t_drive c else old.
Definition tb_conductivity (c : tb_cfg) (minp : T) (a b : fl) (s : tb) : T :=
  if n0 <=~ b_pred s then predict_cond sq pw (b_pred s) minp a b half else t_cond c.
(** updateFluid, :487-516: efficiency, power and torque. *)
Definition tb_efficiency (c : tb_cfg) (imp temp r : T) : T :=
  let f := tb_frac c imp temp in
  if (interp (t_min c) f <=~ r) && (r <=~ interp (t_max c) f) then
    limit_range n0
      (evaluate ip (map (fun ab => interp ab f) (combine (fst (t_eff c)) (snd (t_eff c)))) r) n1
  else n0.
Definition tb_power (c : tb_cfg) (motor vol drop eff : T) : T * T :=
  let power := nopp (ndec 1000 0) *~ nabs vol *~ drop *~ eff in
  if (feps <~ motor) && (neps <~ t_drive c) then (power, nopp power *~ sec_2pi /~ motor) else (n0, n0).

(** ** GunnsDriveShaftSpotter *)
Record sh_cfg := mksh { s_fric : T; s_min : T; s_inertia : T }.
(** validateConfig and validateInput, GunnsDriveShaftSpotter.cpp:156-210. *)
Definition sh_valid (c : sh_cfg) (jam : T) : bool :=
  negb ((s_fric c <~ n0) || (s_min c <~ n0) || (s_inertia c <=~ neps) || (jam <~ n0)).
Definition sh_friction (c : sh_cfg) (w : T) : T := nopp (s_fric c) *~ nmax w (s_min c).
(** stepPreSolver, :219-242: the speed that all impellers are given; [over] is the override. *)
Definition sh_pre (c : sh_cfg) (dt load : T) (over : option T) (w : T) : T :=
  let w' := nmax (w +~ (load +~ sh_friction c w) *~ dt *~ sec_2pi /~ s_inertia c) neps in
  match over with Some v => v | None => w' end.
(** stepPostSolver, :251-290: the load of the torques of turbines and fans. *)
Definition sh_load (jam : option T) (turbines fans : list T) : T :=
  let l := fold_left nadd fans (fold_left nadd turbines n0) in
  match jam with Some v => l -~ v *~ l | None => l end.
(** Its power: of a turbine efficiency, flow, enthalpies of nodes 0 and 1 and wall heat flux, of a
    fan flow, enthalpies and wall heat flux. *)
Definition sh_excess (turbines : list (T * T * T * T * T)) (fans : list (T * T * T * T)) : T :=
  fold_left (fun r t => let '(e, m, h0, h1, q) := t in r +~ (e *~ m *~ (h0 -~ h1) -~ q)) turbines n0
  -~ fold_left (fun r t => let '(m, h0, h1, q) := t in r +~ (m *~ (h1 -~ h0) -~ q)) fans n0.
End TURBINE.
Arguments tb_cfg : clear implicits.
Arguments tb : clear implicits.
Arguments sh_cfg : clear implicits.
