(** Rotations and the equations of motion of a rigid body.
    Source: /repo/aspects/dynamics/GunnsDynUtils.cpp, GunnsDynEulerBase.{cpp,hh} and the
    six GunnsDynEulerXYZ.cpp, GunnsDynSingleRigidMassProps.{cpp,hh},
    GunnsDynSingleRigidStateDeriv.{cpp,hh}, GunnsDynSingleRigidEom.cpp.

    Vectors of three and four elements and 3x3 matrices are records here; the functions
    that take a length and may be given overlapping arrays are in DynMem.v.  The library
    functions sqrt, sin, cos, asin and atan2 and the constant PI_OVER_2 are parameters.
    The network solver of the state derivative is a parameter too: it is given the
    admittance matrix and the source vector. *)
From Coq Require Import List Bool ZArith.
From Verif Require Import Num MathUtil.
Import ListNotations.

Inductive seq6 := S123 | S132 | S213 | S231 | S312 | S321.

Section DYN.
Context {T : Type} {N : Num T}.
Variables (sq sn cs asn : T -> T) (at2 : T -> T -> T) (half_pi : T).

Record v3 := V3 { v_0 : T; v_1 : T; v_2 : T }.
Record q4 := Q4 { q_0 : T; q_1 : T; q_2 : T; q_3 : T }.
(** Row by row. *)
Record m9 := M9 { m_0 : T; m_1 : T; m_2 : T; m_3 : T; m_4 : T; m_5 : T; m_6 : T; m_7 : T; m_8 : T }.

Definition two : T := ndec 2 0.
Definition half : T := ndec 5 (-1).

(** GunnsDynUtils.cpp:73-110, 205-212 for three and four elements.  The sums start
    from 0. *)
Definition addV (b c : v3) : v3 := V3 (v_0 b +~ v_0 c) (v_1 b +~ v_1 c) (v_2 b +~ v_2 c).
Definition subV (b c : v3) : v3 := V3 (v_0 b -~ v_0 c) (v_1 b -~ v_1 c) (v_2 b -~ v_2 c).
Definition scaleV (b : v3) (s : T) : v3 := V3 (v_0 b *~ s) (v_1 b *~ s) (v_2 b *~ s).
Definition dot3 (a b : v3) : T := n0 +~ v_0 a *~ v_0 b +~ v_1 a *~ v_1 b +~ v_2 a *~ v_2 b.
Definition dot4 (a b : q4) : T :=
  n0 +~ q_0 a *~ q_0 b +~ q_1 a *~ q_1 b +~ q_2 a *~ q_2 b +~ q_3 a *~ q_3 b.
Definition zeroV : v3 := V3 n0 n0 n0.
(** GunnsDynUtils.cpp:120-129. *)
Definition crossV (b c : v3) : v3 :=
  V3 (v_1 b *~ v_2 c -~ v_2 b *~ v_1 c) (v_2 b *~ v_0 c -~ v_0 b *~ v_2 c)
     (v_0 b *~ v_1 c -~ v_1 b *~ v_0 c).
(** GunnsDynUtils.cpp:140-175. *)
Definition mulMV (m : m9) (c : v3) : v3 :=
  V3 (n0 +~ m_0 m *~ v_0 c +~ m_1 m *~ v_1 c +~ m_2 m *~ v_2 c)
     (n0 +~ m_3 m *~ v_0 c +~ m_4 m *~ v_1 c +~ m_5 m *~ v_2 c)
     (n0 +~ m_6 m *~ v_0 c +~ m_7 m *~ v_1 c +~ m_8 m *~ v_2 c).
Definition mulMtV (m : m9) (c : v3) : v3 :=
  V3 (n0 +~ m_0 m *~ v_0 c +~ m_3 m *~ v_1 c +~ m_6 m *~ v_2 c)
     (n0 +~ m_1 m *~ v_0 c +~ m_4 m *~ v_1 c +~ m_7 m *~ v_2 c)
     (n0 +~ m_2 m *~ v_0 c +~ m_5 m *~ v_1 c +~ m_8 m *~ v_2 c).
(** GunnsDynUtils.cpp:491-509. *)
Definition mulMM (b c : m9) : m9 :=
  let e r0 r1 r2 c0 c1 c2 := n0 +~ r0 *~ c0 +~ r1 *~ c1 +~ r2 *~ c2 in
  M9 (e (m_0 b) (m_1 b) (m_2 b) (m_0 c) (m_3 c) (m_6 c))
     (e (m_0 b) (m_1 b) (m_2 b) (m_1 c) (m_4 c) (m_7 c))
     (e (m_0 b) (m_1 b) (m_2 b) (m_2 c) (m_5 c) (m_8 c))
     (e (m_3 b) (m_4 b) (m_5 b) (m_0 c) (m_3 c) (m_6 c))
     (e (m_3 b) (m_4 b) (m_5 b) (m_1 c) (m_4 c) (m_7 c))
     (e (m_3 b) (m_4 b) (m_5 b) (m_2 c) (m_5 c) (m_8 c))
     (e (m_6 b) (m_7 b) (m_8 b) (m_0 c) (m_3 c) (m_6 c))
     (e (m_6 b) (m_7 b) (m_8 b) (m_1 c) (m_4 c) (m_7 c))
     (e (m_6 b) (m_7 b) (m_8 b) (m_2 c) (m_5 c) (m_8 c)).
Definition scaleM (m : m9) (s : T) : m9 :=
  M9 (m_0 m *~ s) (m_1 m *~ s) (m_2 m *~ s) (m_3 m *~ s) (m_4 m *~ s) (m_5 m *~ s)
     (m_6 m *~ s) (m_7 m *~ s) (m_8 m *~ s).
(** GunnsDynUtils.cpp:183-194. *)
Definition skew (v : v3) : m9 :=
  M9 n0 (nopp (v_2 v)) (v_1 v) (v_2 v) n0 (nopp (v_0 v)) (nopp (v_1 v)) (v_0 v) n0.
(** GunnsDynUtils.cpp:458-465. *)
Definition mag3 (v : v3) : T := sq (n0 +~ v_0 v *~ v_0 v +~ v_1 v *~ v_1 v +~ v_2 v *~ v_2 v).
(** GunnsDynUtils.cpp:519-525. *)
Definition nonzeroV (v : v3) : bool :=
  negb (v_0 v ==~ n0) || negb (v_1 v ==~ n0) || negb (v_2 v ==~ n0).

(** GunnsDynUtils.cpp:222-233, the derivative not overlapping the quaternion. *)
Definition qvec (q : q4) : v3 := V3 (q_1 q) (q_2 q) (q_3 q).
Definition qdot (q : q4) (w : v3) : q4 :=
  let v := addV (mulMV (skew (qvec q)) w) (scaleV w (nopp (q_0 q))) in
  Q4 (dot3 (qvec q) w *~ half) (v_0 v *~ half) (v_1 v *~ half) (v_2 v *~ half).
(** GunnsDynUtils.cpp:20-30, 242-364. *)
Definition qtom (q : q4) : m9 :=
  let q0 := q_0 q in let q1 := q_1 q in let q2 := q_2 q in let q3 := q_3 q in
  M9 (n1 -~ two *~ (q2 *~ q2 +~ q3 *~ q3)) (two *~ (q1 *~ q2 -~ q0 *~ q3)) (two *~ (q1 *~ q3 +~ q0 *~ q2))
     (two *~ (q1 *~ q2 +~ q0 *~ q3)) (n1 -~ two *~ (q1 *~ q1 +~ q3 *~ q3)) (two *~ (q2 *~ q3 -~ q0 *~ q1))
     (two *~ (q1 *~ q3 -~ q0 *~ q2)) (two *~ (q2 *~ q3 +~ q0 *~ q1)) (n1 -~ two *~ (q1 *~ q1 +~ q2 *~ q2)).
(** GunnsDynUtils.cpp:375-386; [None] is the exception. *)
Definition mtoq (m : m9) : option q4 :=
  let diags := m_0 m +~ m_4 m +~ m_8 m in
  if ndec (-1) 0 <~ diags then
    let q0 := half *~ sq (n1 +~ diags) in
    Some (Q4 q0 (ndec 25 (-2) *~ (m_7 m -~ m_5 m) /~ q0)
                (ndec 25 (-2) *~ (m_2 m -~ m_6 m) /~ q0)
                (ndec 25 (-2) *~ (m_3 m -~ m_1 m) /~ q0))
  else None.
(** GunnsDynUtils.cpp:33, 393-406. *)
Definition quat_tol : T := ndec 23842 (-11).
Definition normalizeQ (q : q4) : q4 :=
  let mag2 := dot4 q q in
  let f := if nabs (n1 -~ mag2) <~ quat_tol then two /~ (n1 +~ mag2) else n1 /~ sq mag2 in
  Q4 (q_0 q *~ f) (q_1 q *~ f) (q_2 q *~ f) (q_3 q *~ f).
(** GunnsDynUtils.cpp:36, 416-448: the vector afterwards and whether it worked. *)
Definition normalizeV (v : v3) : v3 * bool :=
  let mag := mag3 v in
  if mag <~ neps then (v, false) else (scaleV v (n1 /~ mag), true).

(** ** Euler angles *)
(** GunnsDynEuler123.cpp:55-58, 132, 213, 231, 312, 321. *)
Definition quat_seq (s : seq6) (s1 c1 s2 c2 s3 c3 : T) : q4 :=
  match s with
  | S123 => Q4 (c1*~c2*~c3 -~ s1*~s2*~s3) (nopp c1*~s2*~s3 -~ s1*~c2*~c3)
               (nopp c1*~s2*~c3 +~ s1*~c2*~s3) (nopp c1*~c2*~s3 -~ s1*~s2*~c3)
  | S132 => Q4 (c1*~c2*~c3 +~ s1*~s2*~s3) (nopp s1*~c2*~c3 +~ c1*~s2*~s3)
               (nopp c1*~c2*~s3 +~ s1*~s2*~c3) (nopp c1*~s2*~c3 -~ s1*~c2*~s3)
  | S213 => Q4 (c1*~c2*~c3 +~ s1*~s2*~s3) (nopp c1*~s2*~c3 -~ s1*~c2*~s3)
               (nopp s1*~c2*~c3 +~ c1*~s2*~s3) (nopp c1*~c2*~s3 +~ s1*~s2*~c3)
  | S231 => Q4 (c1*~c2*~c3 -~ s1*~s2*~s3) (nopp c1*~c2*~s3 -~ s1*~s2*~c3)
               (nopp c1*~s2*~s3 -~ s1*~c2*~c3) (nopp c1*~s2*~c3 +~ s1*~c2*~s3)
  | S312 => Q4 (c1*~c2*~c3 -~ s1*~s2*~s3) (nopp c1*~s2*~c3 +~ s1*~c2*~s3)
               (nopp c1*~c2*~s3 -~ s1*~s2*~c3) (nopp c1*~s2*~s3 -~ s1*~c2*~c3)
  | S321 => Q4 (c3*~c2*~c1 +~ s3*~s2*~s1) (nopp s3*~c2*~c1 +~ c3*~s2*~s1)
               (nopp c3*~s2*~c1 -~ s3*~c2*~s1) (nopp c3*~c2*~s1 +~ s3*~s2*~c1)
  end.
(** The 70th line of each. *)
Definition rot2sin (s : seq6) (q : q4) : T :=
  match s with
  | S123 => m_6 (qtom q) | S132 => nopp (m_3 (qtom q)) | S213 => nopp (m_7 (qtom q))
  | S231 => m_1 (qtom q) | S312 => m_5 (qtom q) | S321 => nopp (m_2 (qtom q))
  end.
(** Lines 80-89 of each. *)
Definition angles_no_sing (s : seq6) (q : q4) (r : T) : v3 :=
  let m := qtom q in
  match s with
  | S123 => V3 (at2 (nopp (m_7 m)) (m_8 m)) (asn r) (at2 (nopp (m_3 m)) (m_0 m))
  | S132 => V3 (at2 (m_5 m) (m_4 m)) (asn r) (at2 (m_6 m) (m_0 m))
  | S213 => V3 (at2 (m_6 m) (m_8 m)) (asn r) (at2 (m_1 m) (m_4 m))
  | S231 => V3 (at2 (nopp (m_2 m)) (m_0 m)) (asn r) (at2 (nopp (m_7 m)) (m_4 m))
  | S312 => V3 (at2 (nopp (m_3 m)) (m_4 m)) (asn r) (at2 (nopp (m_2 m)) (m_8 m))
  | S321 => V3 (at2 (m_1 m) (m_0 m)) (asn r) (at2 (m_5 m) (m_8 m))
  end.
(** Lines 97-104 and 112-119 of each. *)
Definition angles_pos_sing (s : seq6) (q : q4) : v3 :=
  let m := qtom q in
  let a := match s with
           | S123 => at2 (m_1 m) (m_4 m) | S132 => at2 (m_2 m) (m_1 m) | S213 => at2 (m_3 m) (m_0 m)
           | S231 => at2 (m_6 m) (m_8 m) | S312 => at2 (m_1 m) (m_0 m) | S321 => at2 (m_7 m) (m_6 m)
           end in V3 a half_pi n0.
Definition angles_neg_sing (s : seq6) (q : q4) : v3 :=
  let m := qtom q in
  let a := match s with
           | S123 => at2 (nopp (m_1 m)) (m_4 m) | S132 => at2 (nopp (m_2 m)) (nopp (m_1 m))
           | S213 => at2 (nopp (m_3 m)) (m_0 m) | S231 => at2 (m_6 m) (m_8 m)
           | S312 => at2 (m_1 m) (m_0 m) | S321 => at2 (nopp (m_7 m)) (nopp (m_6 m))
           end in V3 a (nopp half_pi) n0.

(** GunnsDynEulerBase: mAngles, mPrevAngles, mSingularity. *)
Record euler := mkeuler { e_ang : v3; e_prev : v3; e_sing : Z }.
Definition euler0 : euler := mkeuler zeroV zeroV 0.
(** GunnsDynEulerBase.cpp:62-82. *)
Definition compute_quat (s : seq6) (e : euler) (given : option v3) : euler * q4 :=
  let e := match given with Some a => mkeuler a a (e_sing e) | None => e end in
  let h := scaleV (e_ang e) half in
  (e, quat_seq s (sn (v_0 h)) (cs (v_0 h)) (sn (v_1 h)) (cs (v_1 h)) (sn (v_2 h)) (cs (v_2 h))).
(** GunnsDynEulerBase.cpp:24, 29. *)
Definition tolsing : T := sn (half_pi -~ ndec 1 (-6)).
Definition tole15 : T := ndec 1 (-15).
(** GunnsDynEulerBase.cpp:93-133: the flag tells that it threw; the angles are then
    0/0. *)
Definition euler_update (s : seq6) (e : euler) (q : q4) : euler * bool :=
  let r := rot2sin s q in
  let done a k := (mkeuler a a k, false) in
  if is_in_range (ndec (-1) 0) r n1 then
    if nabs r <~ tolsing then done (angles_no_sing s q r) 0%Z
    else if n0 <~ r then done (angles_pos_sing s q) 1%Z
    else done (angles_neg_sing s q) 2%Z
  else if is_in_range n1 r (n1 +~ tole15) then done (angles_pos_sing s q) 3%Z
  else if is_in_range (ndec (-1) 0 -~ tole15) r (ndec (-1) 0) then done (angles_neg_sing s q) 4%Z
  else let nan := n0 /~ n0 in (mkeuler (V3 nan nan nan) (e_prev e) 5, true).

(** ** The equations of motion *)
Record massprops := mkmass {
  mp_mass : T; mp_cm : v3;
  mp_xx : T; mp_xy : T; mp_xz : T; mp_yy : T; mp_yz : T; mp_zz : T
}.
Definition mass0 : massprops := mkmass n0 zeroV n0 n0 n0 n0 n0 n0.
(** GunnsDynSingleRigidMassProps.cpp:109-121. *)
Definition mass_eq (a b : massprops) : bool :=
  (mp_mass a ==~ mp_mass b) && (v_0 (mp_cm a) ==~ v_0 (mp_cm b)) && (v_1 (mp_cm a) ==~ v_1 (mp_cm b))
  && (v_2 (mp_cm a) ==~ v_2 (mp_cm b)) && (mp_xx a ==~ mp_xx b) && (mp_xy a ==~ mp_xy b)
  && (mp_xz a ==~ mp_xz b) && (mp_yy a ==~ mp_yy b) && (mp_yz a ==~ mp_yz b) && (mp_zz a ==~ mp_zz b).
(** GunnsDynSingleRigidMassProps.cpp:129-141: [true] is the exception. *)
Definition mass_invalid (a : massprops) : bool :=
  (mp_mass a <~ neps) || (mp_xx a <~ neps) || (mp_yy a <~ neps) || (mp_zz a <~ neps)
  || (n0 <~ mp_xy a) || (n0 <~ mp_xz a) || (n0 <~ mp_yz a).

Record force := mkforce { fo_on : bool; fo_f : v3; fo_at : v3 }.
Record torque := mktorque { to_on : bool; to_t : v3 }.

(** The 36 elements that GunnsDynSingleRigidStateDeriv.cpp:148-207 writes, row by row. *)
Definition mass_matrix (p : massprops) : list T :=
  let m := mp_mass p in
  if nonzeroV (mp_cm p) then
    let k := skew (mp_cm p) in
    let mk := scaleM k m in
    let k2 := mulMM mk k in
    [ m; n0; n0; n0; nopp (m_1 mk); nopp (m_2 mk);
      n0; m; n0; nopp (m_3 mk); n0; nopp (m_5 mk);
      n0; n0; m; nopp (m_6 mk); nopp (m_7 mk); n0;
      n0; m_1 mk; m_2 mk; mp_xx p -~ m_0 k2; mp_xy p -~ m_1 k2; mp_xz p -~ m_2 k2;
      m_3 mk; n0; m_5 mk; mp_xy p -~ m_3 k2; mp_yy p -~ m_4 k2; mp_yz p -~ m_5 k2;
      m_6 mk; m_7 mk; n0; mp_xz p -~ m_6 k2; mp_yz p -~ m_7 k2; mp_zz p -~ m_8 k2 ]
  else
    [ m; n0; n0; n0; n0; n0;
      n0; m; n0; n0; n0; n0;
      n0; n0; m; n0; n0; n0;
      n0; n0; n0; mp_xx p; mp_xy p; mp_xz p;
      n0; n0; n0; mp_xy p; mp_yy p; mp_yz p;
      n0; n0; n0; mp_xz p; mp_yz p; mp_zz p ].
(** What an update reads and writes of the link: mAdmittanceMatrix, mLastMassProps,
    mAdmittanceUpdate. *)
Record sderiv := mksderiv { sd_a : list T; sd_last : massprops; sd_upd : bool }.
(** The constructor, and GunnsDynSingleRigidStateDeriv.cpp:70-113 with
    GunnsBasicLink.cpp:236-321, which makes a new matrix of zeros. *)
Definition sd_new : sderiv := mksderiv [] mass0 false.
Definition sd_init (d : sderiv) : sderiv := mksderiv (repeat n0 36) (sd_last d) (sd_upd d).
Definition build_admittance (p : massprops) (d : sderiv) : sderiv :=
  if mass_eq p (sd_last d) then d else mksderiv (mass_matrix p) p true.

(** GunnsDynSingleRigidStateDeriv.cpp:260-300. *)
Definition sum_forces (fs : list force) : v3 :=
  fold_left (fun acc f => if fo_on f then addV acc (fo_f f) else acc) fs zeroV.
Definition sum_torques (p : massprops) (fs : list force) (ts : list torque) : v3 :=
  let off := nonzeroV (mp_cm p) in
  let a := fold_left (fun acc f =>
             if fo_on f then
               let l := if off then subV (fo_at f) (mp_cm p) else fo_at f in
               addV acc (crossV l (fo_f f))
             else acc) fs zeroV in
  fold_left (fun acc t => if to_on t then addV acc (to_t t) else acc) ts a.
(** GunnsDynSingleRigidStateDeriv.cpp:221-230. *)
Definition ang_momentum (p : massprops) (w : v3) : v3 :=
  V3 (mp_xx p *~ v_0 w +~ mp_xy p *~ v_1 w +~ mp_xz p *~ v_2 w)
     (mp_xy p *~ v_0 w +~ mp_yy p *~ v_1 w +~ mp_yz p *~ v_2 w)
     (mp_xz p *~ v_0 w +~ mp_yz p *~ v_1 w +~ mp_zz p *~ v_2 w).
(** GunnsDynSingleRigidStateDeriv.cpp:213-253. *)
Definition source_vector (p : massprops) (w : v3) (fs : list force) (ts : list torque) : list T :=
  let f := sum_forces fs in
  let t := sum_torques p fs ts in
  let gt := crossV w (ang_momentum p w) in
  let f := if nonzeroV (mp_cm p)
           then subV f (scaleV (crossV w (crossV w (mp_cm p))) (mp_mass p)) else f in
  [ v_0 f; v_1 f; v_2 f; v_0 t -~ v_0 gt; v_1 t -~ v_1 gt; v_2 t -~ v_2 gt ].
(** GunnsDynSingleRigidStateDeriv.cpp:125-139: the accelerations, the derivative of the
    quaternion and the link; [None] is the exception of validate. *)
Definition sd_update (solve : list T -> list T -> list T) (p : massprops) (q : q4) (w : v3)
  (fs : list force) (ts : list torque) (d : sderiv) : option (v3 * v3 * q4 * sderiv) :=
  if mass_invalid p then None else
  let d := build_admittance p d in
  let x := solve (sd_a d) (source_vector p w fs ts) in
  let g i := nth i x n0 in
  Some (V3 (g 0%nat) (g 1%nat) (g 2%nat), V3 (g 3%nat) (g 4%nat) (g 5%nat), qdot q w, d).

(** ** GunnsDynSingleRigidEom *)
Record body := mkbody {
  b_pos : v3; b_vel : v3; b_q : q4; b_m : m9; b_w : v3; b_wmag : T; b_wunit : v3; b_eul : euler
}.
(** GunnsDynSingleRigidEom.cpp:209-292: [integ] is what the integrator makes of the state
    and its derivative.  The second component: it threw. *)
Definition eom_integ (s : seq6)
  (integ : v3 * v3 * q4 * v3 -> v3 * v3 * q4 * v3 -> v3 * v3 * q4 * v3)
  (acc angacc : v3) (qd : q4) (b : body) : body * bool :=
  let '(p, v, q, w) := integ (b_pos b, b_vel b, b_q b, b_w b)
                             (b_vel b, mulMtV (b_m b) acc, qd, angacc) in
  let q := normalizeQ q in
  let wm := mag3 w in
  let wu := if neps <~ wm then scaleV w (n1 /~ wm) else b_wunit b in
  let '(e, threw) := euler_update s (b_eul b) q in
  (mkbody p v q (qtom q) w wm wu e, threw).
End DYN.
Arguments v3 : clear implicits.
Arguments q4 : clear implicits.
Arguments m9 : clear implicits.
Arguments euler : clear implicits.
Arguments massprops : clear implicits.
Arguments force : clear implicits.
Arguments torque : clear implicits.
Arguments sderiv : clear implicits.
Arguments body : clear implicits.
