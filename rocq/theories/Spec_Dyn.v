(** What the rotations and the equations of motion of a rigid body should do, in real
    numbers and without reference to the functions of Dyn.v (only its records are
    used). *)
From Coq Require Import Floats.
From Coq Require Import Reals List Bool ZArith.
From Verif Require Import Num Dyn.
Import ListNotations.
Local Open Scope R_scope.

(** ** Vectors and matrices *)
Definition vadd (a b : v3 R) : v3 R := V3 (v_0 a + v_0 b) (v_1 a + v_1 b) (v_2 a + v_2 b).
Definition vscale (k : R) (a : v3 R) : v3 R := V3 (k * v_0 a) (k * v_1 a) (k * v_2 a).
Definition vdot (a b : v3 R) : R := v_0 a * v_0 b + v_1 a * v_1 b + v_2 a * v_2 b.
Definition vcross (a b : v3 R) : v3 R :=
  V3 (v_1 a * v_2 b - v_2 a * v_1 b) (v_2 a * v_0 b - v_0 a * v_2 b) (v_0 a * v_1 b - v_1 a * v_0 b).
Definition vzero : v3 R := V3 0 0 0.
Definition row0 (m : m9 R) := V3 (m_0 m) (m_1 m) (m_2 m).
Definition row1 (m : m9 R) := V3 (m_3 m) (m_4 m) (m_5 m).
Definition row2 (m : m9 R) := V3 (m_6 m) (m_7 m) (m_8 m).
Definition col0 (m : m9 R) := V3 (m_0 m) (m_3 m) (m_6 m).
Definition col1 (m : m9 R) := V3 (m_1 m) (m_4 m) (m_7 m).
Definition col2 (m : m9 R) := V3 (m_2 m) (m_5 m) (m_8 m).
Definition mvec (m : m9 R) (v : v3 R) : v3 R := V3 (vdot (row0 m) v) (vdot (row1 m) v) (vdot (row2 m) v).
Definition tvec (m : m9 R) (v : v3 R) : v3 R := V3 (vdot (col0 m) v) (vdot (col1 m) v) (vdot (col2 m) v).
Definition mmul (a b : m9 R) : m9 R :=
  M9 (vdot (row0 a) (col0 b)) (vdot (row0 a) (col1 b)) (vdot (row0 a) (col2 b))
     (vdot (row1 a) (col0 b)) (vdot (row1 a) (col1 b)) (vdot (row1 a) (col2 b))
     (vdot (row2 a) (col0 b)) (vdot (row2 a) (col1 b)) (vdot (row2 a) (col2 b)).
Definition mid : m9 R := M9 1 0 0 0 1 0 0 0 1.
(** Rotations: the rows are orthonormal and right-handed. *)
Definition is_rotation (m : m9 R) : Prop :=
  vdot (row0 m) (row0 m) = 1 /\ vdot (row1 m) (row1 m) = 1 /\ vdot (row2 m) (row2 m) = 1 /\
  vdot (row0 m) (row1 m) = 0 /\ vdot (row0 m) (row2 m) = 0 /\ vdot (row1 m) (row2 m) = 0 /\
  vdot (vcross (row0 m) (row1 m)) (row2 m) = 1.
(** The largest difference of two elements is at most [d]. *)
Definition mnear (d : R) (a b : m9 R) : Prop :=
  Rabs (m_0 a - m_0 b) <= d /\ Rabs (m_1 a - m_1 b) <= d /\ Rabs (m_2 a - m_2 b) <= d /\
  Rabs (m_3 a - m_3 b) <= d /\ Rabs (m_4 a - m_4 b) <= d /\ Rabs (m_5 a - m_5 b) <= d /\
  Rabs (m_6 a - m_6 b) <= d /\ Rabs (m_7 a - m_7 b) <= d /\ Rabs (m_8 a - m_8 b) <= d.

(** ** Quaternions *)
Definition qnorm2 (q : q4 R) : R := q_0 q * q_0 q + q_1 q * q_1 q + q_2 q * q_2 q + q_3 q * q_3 q.
Definition qunit (q : q4 R) : Prop := qnorm2 q = 1.
Definition qscale (k : R) (q : q4 R) : q4 R := Q4 (k * q_0 q) (k * q_1 q) (k * q_2 q) (k * q_3 q).
Definition qconj (q : q4 R) : q4 R := Q4 (q_0 q) (- q_1 q) (- q_2 q) (- q_3 q).
(** Hamilton's product. *)
Definition qmul (a b : q4 R) : q4 R :=
  Q4 (q_0 a * q_0 b - q_1 a * q_1 b - q_2 a * q_2 b - q_3 a * q_3 b)
     (q_0 a * q_1 b + q_1 a * q_0 b + q_2 a * q_3 b - q_3 a * q_2 b)
     (q_0 a * q_2 b - q_1 a * q_3 b + q_2 a * q_0 b + q_3 a * q_1 b)
     (q_0 a * q_3 b + q_1 a * q_2 b - q_2 a * q_1 b + q_3 a * q_0 b).
Definition pure (v : v3 R) : q4 R := Q4 0 (v_0 v) (v_1 v) (v_2 v).
Definition vpart (q : q4 R) : v3 R := V3 (q_1 q) (q_2 q) (q_3 q).
(** The vector [v] turned by [q]. *)
Definition qrotate (q : q4 R) (v : v3 R) : v3 R := vpart (qmul (qmul q (pure v)) (qconj q)).

(** ** Euler angles *)
(** The rotation of the axes by [t] about one of the axes. *)
Definition elem (axis : nat) (t : R) : m9 R :=
  match axis with
  | 1%nat => M9 1 0 0 0 (cos t) (sin t) 0 (- sin t) (cos t)
  | 2%nat => M9 (cos t) 0 (- sin t) 0 1 0 (sin t) 0 (cos t)
  | _ => M9 (cos t) (sin t) 0 (- sin t) (cos t) 0 0 0 1
  end.
Definition axes (s : seq6) : nat * nat * nat :=
  match s with
  | S123 => (1, 2, 3) | S132 => (1, 3, 2) | S213 => (2, 1, 3)
  | S231 => (2, 3, 1) | S312 => (3, 1, 2) | S321 => (3, 2, 1)
  end%nat.
(** The first rotation, then the second about the new axes, then the third. *)
Definition euler_matrix (s : seq6) (a : v3 R) : m9 R :=
  let '(x, y, z) := axes s in mmul (elem z (v_2 a)) (mmul (elem y (v_1 a)) (elem x (v_0 a))).
(** std::atan2 for finite arguments. *)
Definition atan2R (y x : R) : R :=
  if Rlt_dec 0 x then atan (y / x)
  else if Rlt_dec x 0 then (if Rlt_dec y 0 then atan (y / x) - PI else atan (y / x) + PI)
  else if Rlt_dec 0 y then PI / 2 else if Rlt_dec y 0 then - (PI / 2) else 0.

(** ** Rigid bodies made of particles: mass and place in the body frame *)
Definition particle : Type := (R * v3 R)%type.
Definition total_mass (b : list particle) : R := fold_right (fun p s => fst p + s) 0 b.
Definition first_moment (b : list particle) : v3 R :=
  fold_right (fun p s => vadd (vscale (fst p) (snd p)) s) vzero b.
(** The sum of m (r.r u - (r.u) r): the inertia about the origin of the body frame
    applied to [u]. *)
Definition inertia (b : list particle) (u : v3 R) : v3 R :=
  fold_right (fun p s => vadd (vscale (fst p) (vadd (vscale (vdot (snd p) (snd p)) u)
                                                 (vscale (- vdot (snd p) u) (snd p)))) s) vzero b.
(** The acceleration of the point [r] of the body. *)
Definition accel_at (a wd w r : v3 R) : v3 R :=
  vadd a (vadd (vcross wd r) (vcross w (vcross w r))).
(** The rates of change of the momentum and of the angular momentum about the origin. *)
Definition momentum_rate (b : list particle) (a wd w : v3 R) : v3 R :=
  fold_right (fun p s => vadd (vscale (fst p) (accel_at a wd w (snd p))) s) vzero b.
Definition ang_momentum_rate (b : list particle) (a wd w : v3 R) : v3 R :=
  fold_right (fun p s => vadd (vcross (snd p) (vscale (fst p) (accel_at a wd w (snd p)))) s) vzero b.
(** The total force and the total torque about [o]. *)
Definition total_force (fs : list (force R)) : v3 R :=
  fold_right (fun f s => if fo_on f then vadd (fo_f f) s else s) vzero fs.
Definition total_torque (o : v3 R) (fs : list (force R)) (ts : list (torque R)) : v3 R :=
  vadd (fold_right (fun f s => if fo_on f
          then vadd (vcross (vadd (fo_at f) (vscale (-1) o)) (fo_f f)) s else s) vzero fs)
       (fold_right (fun t s => if to_on t then vadd (to_t t) s else s) vzero ts).
(** The inertia tensor of the mass properties applied to [u]. *)
Definition tensor (p : massprops R) (u : v3 R) : v3 R :=
  V3 (mp_xx p * v_0 u + mp_xy p * v_1 u + mp_xz p * v_2 u)
     (mp_xy p * v_0 u + mp_yy p * v_1 u + mp_yz p * v_2 u)
     (mp_xz p * v_0 u + mp_yz p * v_1 u + mp_zz p * v_2 u).
(** The mass properties describe the particles: the mass, the centre of mass and the
    inertia about the centre of mass. *)
Definition describes (p : massprops R) (b : list particle) : Prop :=
  total_mass b = mp_mass p /\
  first_moment b = vscale (mp_mass p) (mp_cm p) /\
  forall u, inertia (map (fun x => (fst x, vadd (snd x) (vscale (-1) (mp_cm p)))) b) u = tensor p u.
(** The six equations [a x = b]. *)
Definition solves (a b x : list R) : Prop :=
  length x = 6%nat /\
  forall i, (i < 6)%nat ->
    nth (6*i) a 0 * nth 0 x 0 + nth (6*i+1) a 0 * nth 1 x 0 + nth (6*i+2) a 0 * nth 2 x 0 +
    nth (6*i+3) a 0 * nth 3 x 0 + nth (6*i+4) a 0 * nth 4 x 0 + nth (6*i+5) a 0 * nth 5 x 0
    = nth i b 0.
