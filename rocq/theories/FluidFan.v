(** Fans and centrifugal pumps by a pressure curve, and pressure heads of fluid columns.
    Source: /repo/aspects/fluid/potential/GunnsGasFan.cpp, GunnsGasFanCurve.cpp,
    GunnsLiquidCentrifugalPump.cpp and GunnsFluidPressureHead.cpp.

    [std::sqrt] is the argument [sq], [std::pow] with the exponent 0.75 is [p34] and with a whole
    exponent [ip].  The two root finders are arguments: [lag] is LaguerreMethod::solve, real and
    imaginary part of the root it ends on from a real start, [bre] the Brent solver on an interval;
    [None] is an exception.  Convection to the wall, messages and names are left out. *)
From Coq Require Import List Bool ZArith.
From Verif Require Import Num MathUtil Dyn FluidFlow FluidSources.
Import ListNotations.

Section FAN.
Context {T : Type} {N : Num T}.
Variables (sq p34 : T -> T) (ip : T -> Z -> T).
Variables (lag : list T -> T -> option (T * T)) (bre : list T -> T -> T -> option T).

(** ** GunnsGasFanCurve *)
(** evaluate, GunnsGasFanCurve.cpp:104-113: the coefficients from order [k] on. *)
Fixpoint eval_from (k : Z) (cs : list T) (q r : T) : T :=
  match cs with
  | [] => r
  | c :: cs' => eval_from (k + 1) cs' q (r +~ c *~ ip q k)
  end.
Definition evaluate (cs : list T) (q : T) : T := eval_from 0 cs q n0.
(** improveRoot, :54-90; the start of Brent's search is not read. *)
Definition improve (cs : list T) (q maxq : T) : option T :=
  match lag cs q with
  | None => None
  | Some (re, im) =>
      if is_in_range n0 re maxq && (nabs im <~ neps) then Some re
      else bre cs n0 (maxq +~ feps)
  end.

(** ** GunnsGasFan *)
Record fan_cfg := mkfcfg {
  k_rho : T; k_speed : T; k_coef : list T; k_qbep : T; k_eff : T;   (* reference curve *)
  k_gain : T; k_drive : T; k_check : bool; k_cond : T }.
(** What initialize makes of it: the curve, its flow without pressure, specific speed, power at
    the best point and power coefficients. *)
Record fan := mkfan { f_coef : list T; f_q : T; f_ns : T; f_pbep : T; f_pw : list T }.
(** GunnsGasFan.cpp:35-40. *)
Definition ns_radial : T := ndec 2 (-1).
Definition ns_axial : T := ndec 5 0.
Definition pw_radial : list T := [ndec 42 (-2); ndec 69 (-2); ndec (-11) (-2); n0].
Definition pw_axial : list T := [ndec 2 0; ndec (-598) (-2); ndec 878 (-2); ndec (-38) (-1)].
Definition ref_radial : list T :=
  [ndec 109 (-2); ndec 33 (-2); ndec (-59) (-2); ndec (-39) (-2); ndec 132 (-2); ndec (-76) (-2)].
Definition ref_axial : list T :=
  [ndec 169 (-2); ndec (-545) (-2); ndec 962 (-2); ndec (-488) (-2); ndec 22 (-3); ndec (-13) (-3)].
Definition sec_2pi : T := ndec 95492965855137211 (-16).            (* SEC_PER_MIN_PER_2PI *)
Definition blend (frac : T) (a b : list T) : list T :=
  map (fun ab => fst ab +~ frac *~ (snd ab -~ fst ab)) (combine a b).
Fixpoint scale_from (k : Z) (p q : T) (cs : list T) : list T :=
  match cs with [] => [] | c :: cs' => c *~ (p /~ ip q k) :: scale_from (k + 1) p q cs' end.
(** :301-315. *)
Definition defines (c : fan_cfg) : bool := forallb (fun x => x ==~ n0) (tl (k_coef c)).
Definition press_bep (c : fan_cfg) : T :=
  if defines c then hd n0 (k_coef c) else evaluate (k_coef c) (k_qbep c).
(** :318-322. *)
Definition spec_speed (c : fan_cfg) : T :=
  limit_range (ndec 2 (-1))
    (k_speed c /~ sec_2pi *~ sq (k_qbep c) *~ p34 (ndec 1 (-3) *~ k_rho c /~ press_bep c)) (ndec 5 0).
Definition spec_frac (c : fan_cfg) : T := (spec_speed c -~ ns_radial) /~ (ns_axial -~ ns_radial).
(** initialize, :268-394, and validate, :405-440; [None]: an initialization error.  A fan without
    a best point keeps the power coefficients of the constructor, which are zero. *)
Definition fan_curve (c : fan_cfg) : list T :=
  if defines c then scale_from 0 (press_bep c) (k_qbep c) (blend (spec_frac c) ref_radial ref_axial)
  else k_coef c.
Definition fan_init (c : fan_cfg) (motor wall : T) : option fan :=
  let bep := (n0 <~ k_qbep c) && (n0 <~ k_eff c) in
  if bep && (n1 <~ k_eff c) then None else
  let cs := if bep then fan_curve c else k_coef c in
  match improve cs n0 (ndec 1000 0) with
  | None => None
  | Some q =>
      if q <=~ k_qbep c then None
      else if (k_rho c <~ neps) || (k_speed c <~ neps) || (hd n0 cs <~ neps) || (k_drive c <~ neps)
              || (motor <~ n0) || (wall <~ n0) then None
      else Some (if bep then mkfan cs q (spec_speed c)
                               (ndec 1000 0 *~ press_bep c *~ k_qbep c /~ k_eff c)
                               (blend (spec_frac c) pw_radial pw_axial)
                 else mkfan cs q n0 n0 [n0; n0; n0; n0])
  end.
(** :369. *)
Definition sys_init (f : fan) : T := f_q f /~ sq (nmax neps (hd n0 (f_coef f))).

(** The state of a step: impeller speed, system constant, predicted flow, source pressure. *)
Record fst_ := mkfst { m_imp : T; m_sys : T; m_q : T; m_p : T }.
Definition imp_speed (c : fan_cfg) (motor old : T) : T :=
  if neps <~ k_drive c then motor /~ k_drive c else old.                     (* :473-477 *)
Fixpoint affinity_from (k : Z) (df s : T) (cs : list T) : list T :=
  match cs with [] => [] | c :: cs' => c *~ df *~ ip s (2 - k) :: affinity_from (k + 1) df s cs' end.
(** :573-576. *)
Definition affinity (df s : T) (cs : list T) : list T := affinity_from 0 df s cs.
(** :588-589; [vol] is mVolFlowRate, [c0] the first affinity coefficient. *)
Definition sys_now (f : fan) (s vol p c0 : T) : T :=
  nmax (f_q f *~ s *~ ndec 1 (-4)) vol /~ sq (limit_range neps p c0).
Definition sys_filter (gain now old : T) : T := gain *~ now +~ (n1 -~ gain) *~ old.
(** :595-601. *)
Definition less_system (g : T) (cs : list T) : list T :=
  if neps <~ g then
    match cs with a :: b :: c :: r => a :: b :: (c -~ n1 /~ g /~ g) :: r | _ => cs end
  else cs.
(** computeSourcePressure, :557-615; [rho] is the density of the source port's node. *)
Definition source_pressure (c : fan_cfg) (f : fan) (rho vol : T) (s : fst_) : fst_ :=
  if (feps <~ m_imp s) && (feps <~ rho) then
    let df := rho /~ k_rho c in
    let sf := m_imp s /~ k_speed c in
    let a := affinity df sf (f_coef f) in
    let g := sys_filter (k_gain c) (sys_now f sf vol (m_p s) (hd n0 a)) (m_sys s) in
    let q := match improve (less_system g a) (m_q s) (f_q f *~ sf) with Some q => q | None => m_q s end in
    mkfst (m_imp s) g q (nmax n0 (evaluate a q))
  else mkfst (m_imp s) (m_sys s) (m_q s) n0.
(** determineSourcePort(mFlux, 0, 1), GunnsFluidLink.cpp:370-382; [g0], [g1]: the port is on the
    ground node. *)
Definition source_density (g0 g1 : bool) (flux rho0 rho1 : T) : T :=
  if ((flux <~ n0) && negb g1) || ((n0 <~ flux) && g0) then rho1 else rho0.
(** updateState, :469-488: the state, the check valve's position and the conductivity; [rho] is
    the [source_density]. *)
Definition check_valve (c : fan_cfg) (p p0 p1 : T) : T :=
  if (n0 <~ p +~ p0 -~ p1) || negb (k_check c) then n1 else n0.
Definition fan_update (c : fan_cfg) (f : fan) (motor rho vol p0 p1 : T) (s : fst_) : fst_ * T * T :=
  let s := source_pressure c f rho vol
             (mkfst (imp_speed c motor (m_imp s)) (m_sys s) (m_q s) (m_p s)) in
  let v := check_valve c (m_p s) p0 p1 in (s, v, k_cond c *~ v).

(** updateFluid, :499-530: power and torque; [rho] is the density of node 0. *)
Definition fan_power (c : fan_cfg) (f : fan) (rho vol imp p : T) : T :=
  if (n0 <~ f_ns f) && (feps <~ imp) then
    let s := imp /~ k_speed c in
    let x := limit_range n0 vol (f_q f *~ s) /~ nmax (k_qbep c *~ s) neps in
    match f_pw f with
    | [a; b; d; e] => s *~ s *~ s *~ f_pbep f *~ (rho /~ k_rho c) *~ (a +~ b *~ x +~ d *~ x *~ x +~ e *~ x *~ x *~ x)
    | _ => n0
    end
  else ndec 1000 0 *~ nabs vol *~ p.
Definition fan_torque (c : fan_cfg) (motor power : T) : T :=
  if (feps <~ motor) && (neps <~ k_drive c) then nopp power *~ sec_2pi /~ motor else n0.

(** ** GunnsLiquidCentrifugalPump *)
(** updateState, GunnsLiquidCentrifugalPump.cpp:273-277: the fan's, then cavitation on its source
    pressure; the check valve has been set by then. *)
Definition pump_update (c : fan_cfg) (f : fan) (v : cav_cfg) (motor rho vol p0 p1 psat noise dt : T)
    (s : fst_) (w : cav) : fst_ * T * T * cav :=
  let '(s', o, g) := fan_update c f motor rho vol p0 p1 s in
  let '(p, w') := cav_update sq v dt p0 psat noise (m_p s') w in
  (mkfst (m_imp s') (m_sys s') (m_q s') p, o, g, w').

(** ** GunnsFluidPressureHead *)
Record head_cfg := mkhead { h_col : v3 T; h_rev : bool; h_dcm : option (m9 T); h_trn : bool }.
(** The link: a potential with its two densities, or an accumulator with the density of node 1 and
    its bellows position. *)
Inductive head_link := HPot (rho0 rho1 : T) | HAcc (rho1 pos : T).
(** stepPreSolver, GunnsFluidPressureHead.cpp:214-269; [a] is the acceleration. *)
Definition head_accel (h : head_cfg) (a : v3 T) : v3 T :=
  let a := if h_rev h then scaleV a (nopp n1) else a in
  match h_dcm h with
  | None => a
  | Some m => if h_trn h then mulMtV m a else mulMV m a
  end.
Definition head (h : head_cfg) (l : head_link) (a : v3 T) : T :=
  let rho := match l with HPot x y => nmin x y | HAcc x _ => x end in
  let col := match l with HPot _ _ => h_col h | HAcc _ pos => scaleV (h_col h) pos end in
  rho *~ dot3 (head_accel h a) col *~ ndec 1 (-3).
End FAN.
Arguments fan_cfg : clear implicits.
Arguments fan : clear implicits.
Arguments fst_ : clear implicits.
Arguments head_cfg : clear implicits.
Arguments head_link : clear implicits.
