(** Points, segments and bodies in real space. *)
From Coq Require Import Reals.
From Verif Require Import Intersect.
Local Open Scope R_scope.

Definition along (p q : vec R) (s : R) : vec R :=
  V (vx p + s * (vx q - vx p)) (vy p + s * (vy q - vy p)) (vz p + s * (vz q - vz p)).
Definition on_segment (p q x : vec R) : Prop := exists s, 0 <= s <= 1 /\ x = along p q s.
Definition in_triangle (a b c x : vec R) : Prop := exists u v w,
  0 <= u /\ 0 <= v /\ 0 <= w /\ u + v + w = 1 /\
  x = V (u * vx a + v * vx b + w * vx c) (u * vy a + v * vy b + w * vy c) (u * vz a + v * vz b + w * vz c).
Definition dist2 (a b : vec R) : R :=
  (vx a - vx b) ^ 2 + (vy a - vy b) ^ 2 + (vz a - vz b) ^ 2.
Definition in_sphere (c : vec R) (r : R) (x : vec R) : Prop := dist2 x c <= r * r.
Definition in_spheroid (c : vec R) (rx ry rz : R) (x : vec R) : Prop :=
  ((vx x - vx c) / rx) ^ 2 + ((vy x - vy c) / ry) ^ 2 + ((vz x - vz c) / rz) ^ 2 <= 1.
(** A solid cylinder: some point of its axis from p to q is within r of x in the plane
    through x perpendicular to the axis. *)
Definition in_cylinder (p q : vec R) (r : R) (x : vec R) : Prop := exists h, 0 <= h <= 1 /\
  dist2 x (along p q h) <= r * r /\
  (vx x - vx (along p q h)) * (vx q - vx p) + (vy x - vy (along p q h)) * (vy q - vy p) +
  (vz x - vz (along p q h)) * (vz q - vz p) = 0.
(** How far the segment is from being in the plane of the triangle: six times the volume
    of the tetrahedron with the sides b-a, c-a, q-p. *)
Definition volume6 (p q a b c : vec R) : R :=
  (vx p - vx q) * ((vy b - vy a) * (vz c - vz a) - (vz b - vz a) * (vy c - vy a)) +
  (vy p - vy q) * ((vz b - vz a) * (vx c - vx a) - (vx b - vx a) * (vz c - vz a)) +
  (vz p - vz q) * ((vx b - vx a) * (vy c - vy a) - (vy b - vy a) * (vx c - vx a)).
(** The squared length of the cross product of the segment and the axis: zero when they
    are parallel. *)
Definition skew (sa sb p q : vec R) : R :=
  ((vx q - vx p) ^ 2 + (vy q - vy p) ^ 2 + (vz q - vz p) ^ 2) *
  ((vx sb - vx sa) ^ 2 + (vy sb - vy sa) ^ 2 + (vz sb - vz sa) ^ 2) -
  ((vx sb - vx sa) * (vx q - vx p) + (vy sb - vy sa) * (vy q - vy p) + (vz sb - vz sa) * (vz q - vz p)) ^ 2.
(** x is outside of the cylinder continued without end in both directions. *)
Definition beside (p q : vec R) (r : R) (x : vec R) : Prop :=
  forall h, r * r < dist2 x (along p q h).
(** x is not on the outer side of the plane of the end cap at p. *)
Definition past_p (p q x : vec R) : Prop :=
  0 <= (vx x - vx p) * (vx q - vx p) + (vy x - vy p) * (vy q - vy p) + (vz x - vz p) * (vz q - vz p).
