(** Properties of the line segment intersections (C51, C52, C89, C90). *)
From Coq Require Import Floats ZArith Reals Lra Lia Psatz Bool.
From Verif Require Import Num Intersect Spec_Intersect.
Local Open Scope R_scope.

Lemma eps_val : (epsilon : R) = 1 / 100000.
Proof. unfold epsilon. rnum. unfold Rdec. cbn. lra. Qed.

Ltac ncase := match goal with
  | |- context [Rltb ?a ?b] => destruct (Rltb_spec a b)
  | |- context [Rleb ?a ?b] => destruct (Rleb_spec a b)
  end; cbn [andb orb].

Lemma div01 t d : (0 < d /\ 0 <= t <= d \/ d < 0 /\ d <= t <= 0) -> 0 <= t / d <= 1.
Proof.
  intros [[D T]|[D T]].
  - split; [apply Rmult_le_pos; [lra|left; now apply Rinv_0_lt_compat]|].
    apply Rmult_le_reg_r with d; auto. unfold Rdiv. rewrite Rmult_assoc, Rinv_l by lra. lra.
  - replace (t / d) with ((- t) / (- d)) by (field; lra).
    split; [apply Rmult_le_pos; [lra|left; apply Rinv_0_lt_compat; lra]|].
    apply Rmult_le_reg_r with (- d); [lra|]. unfold Rdiv. rewrite Rmult_assoc, Rinv_l by lra. lra.
Qed.

Section TRIANGLE.
Variables p q a b c : vec R.
Let ab := diff b a.
Let ac := diff c a.
Let qp := diff p q.
Let ap := diff p a.
Let n := cross ab ac.
Let e := cross qp ap.
Let d := dot qp n.
Let t := dot ap n.
Let v := dot ac e.
Let w := - dot ab e.

Lemma d_volume : d = volume6 p q a b c.
Proof. unfold d, volume6, dot, n, cross, qp, ab, ac, diff. rnum. cbn [vx vy vz]. ring. Qed.

(** Cramer's rule: the line meets the plane at p + (t/d)(q-p) = a + (v/d)(b-a) + (w/d)(c-a). *)
Lemma cramer :
  v * (vx b - vx a) + w * (vx c - vx a) + t * (vx p - vx q) = d * (vx p - vx a) /\
  v * (vy b - vy a) + w * (vy c - vy a) + t * (vy p - vy q) = d * (vy p - vy a) /\
  v * (vz b - vz a) + w * (vz c - vz a) + t * (vz p - vz q) = d * (vz p - vz a).
Proof.
  unfold w, v, t, d, e, n, ap, qp, ac, ab, cross, dot, diff. rnum. cbn [vx vy vz].
  repeat split; ring.
Qed.
Lemma cramer_unique s V W :
  vx p + s * (vx q - vx p) = vx a + V * (vx b - vx a) + W * (vx c - vx a) ->
  vy p + s * (vy q - vy p) = vy a + V * (vy b - vy a) + W * (vy c - vy a) ->
  vz p + s * (vz q - vz p) = vz a + V * (vz b - vz a) + W * (vz c - vz a) ->
  t = d * s /\ v = d * V /\ w = d * W.
Proof.
  intros X Y Z.
  assert (EX : vx p - vx a = s * (vx p - vx q) + V * (vx b - vx a) + W * (vx c - vx a)) by lra.
  assert (EY : vy p - vy a = s * (vy p - vy q) + V * (vy b - vy a) + W * (vy c - vy a)) by lra.
  assert (EZ : vz p - vz a = s * (vz p - vz q) + V * (vz b - vz a) + W * (vz c - vz a)) by lra.
  unfold w, v, t, d, e, n, ap, qp, ac, ab, cross, dot, diff. rnum. cbn [vx vy vz].
  rewrite EX, EY, EZ. repeat split; ring.
Qed.

Lemma triangle_cases x : fst (triangle p q a b c x) = true <->
  1 / 100000 <= Rabs d /\
  (0 < d /\ 0 <= t <= d /\ 0 <= v /\ 0 <= w /\ v + w <= d \/
   d < 0 /\ d <= t <= 0 /\ v <= 0 /\ w <= 0 /\ d <= v + w).
Proof.
  unfold triangle. fold ab ac qp ap n e d t v. rewrite eps_val. rnum. change (- dot ab e) with w. unfold miss, hit.
  assert (D0 : forall P : Prop, 1 / 100000 <= Rabs d -> (d <> 0 -> P) -> P).
  { intros P A K. apply K. intro E. rewrite E, Rabs_R0 in A. lra. }
  repeat (ncase; try (cbn [fst]; split; [discriminate | intros (A & [B|B]); lra])).
  all: cbn [fst]; split; auto; intros _; split; [lra|].
  - right. lra.
  - left. apply D0; [lra|]. intro. lra.
Qed.
Lemma triangle_value x0 : fst (triangle p q a b c (Some x0)) = true ->
  snd (triangle p q a b c (Some x0)) = Some (point_on_line p q (t / d)).
Proof.
  unfold triangle. fold ab ac qp ap n e d t v. rewrite eps_val. rnum. change (- dot ab e) with w. unfold miss, hit.
  repeat (ncase; try (cbn [fst]; discriminate)); intros _; reflexivity.
Qed.

Lemma triangle_meets :
  1 / 100000 <= Rabs d ->
  ((0 < d /\ 0 <= t <= d /\ 0 <= v /\ 0 <= w /\ v + w <= d \/
    d < 0 /\ d <= t <= 0 /\ v <= 0 /\ w <= 0 /\ d <= v + w) <->
   exists x, on_segment p q x /\ in_triangle a b c x).
Proof.
  intro A. assert (D : d <> 0) by (intro E; rewrite E, Rabs_R0 in A; lra). split.
  - intro C. exists (along p q (t / d)). split.
    + exists (t / d). split; auto. apply div01. lra.
    + exists (1 - v / d - w / d), (v / d), (w / d).
      assert (HV : 0 <= v / d <= 1) by (apply div01; lra).
      assert (HW : 0 <= w / d <= 1) by (apply div01; lra).
      assert (HS : 0 <= (v + w) / d <= 1) by (apply div01; lra).
      replace ((v + w) / d) with (v / d + w / d) in HS by (field; auto).
      split; [lra|]. split; [lra|]. split; [lra|]. split; [lra|].
      destruct cramer as (X & Y & Z). unfold along. f_equal.
      * apply Rmult_eq_reg_l with d; auto.
        transitivity (d * vx p - t * (vx p - vx q)); [field; auto|].
        replace (t * (vx p - vx q)) with (d * (vx p - vx a) - v * (vx b - vx a) - w * (vx c - vx a)) by lra. field; auto.
      * apply Rmult_eq_reg_l with d; auto.
        transitivity (d * vy p - t * (vy p - vy q)); [field; auto|].
        replace (t * (vy p - vy q)) with (d * (vy p - vy a) - v * (vy b - vy a) - w * (vy c - vy a)) by lra. field; auto.
      * apply Rmult_eq_reg_l with d; auto.
        transitivity (d * vz p - t * (vz p - vz q)); [field; auto|].
        replace (t * (vz p - vz q)) with (d * (vz p - vz a) - v * (vz b - vz a) - w * (vz c - vz a)) by lra. field; auto.
  - intros (x & (s & S & ->) & (U & V & W & HU & HV & HW & Sum & E)). unfold along in E. injection E as EX EY EZ.
    replace U with (1 - V - W) in * by lra.
    destruct (cramer_unique s V W) as (T1 & V1 & W1); [lra|lra|lra|].
    rewrite T1, V1, W1. destruct (Rdichotomy _ _ D).
    + right. repeat split; nra.
    + left. repeat split; nra.
Qed.
End TRIANGLE.

Lemma pol_along p q t : point_on_line p q t = along p q t.
Proof. unfold point_on_line, along. rnum. f_equal; ring. Qed.

(** C51, triangle: a hit is reported exactly when the segment and the triangle have a
    common point and the segment is not too close to the triangle's plane. *)
Theorem C51_triangle : forall p q a b c x,
  fst (triangle p q a b c x) = true <->
  1 / 100000 <= Rabs (volume6 p q a b c) /\ exists y, on_segment p q y /\ in_triangle a b c y.
Proof.
  intros p q a b c x. rewrite triangle_cases, (d_volume p q a b c).
  split; intros (A & C); split; auto; rewrite <- (d_volume p q a b c) in A;
    pose proof (triangle_meets p q a b c A) as M.
  - apply M. rewrite <- (d_volume p q a b c) in C. exact C.
  - rewrite <- (d_volume p q a b c). apply M. exact C.
Qed.
(** The point returned is on both, and is the only one. *)
Theorem C51_triangle_point : forall p q a b c x0 x,
  triangle p q a b c (Some x0) = (true, Some x) ->
  on_segment p q x /\ in_triangle a b c x /\
  forall y, on_segment p q y -> in_triangle a b c y -> y = x.
Proof.
  intros p q a b c x0 x E.
  assert (F : fst (triangle p q a b c (Some x0)) = true) by now rewrite E.
  pose proof (triangle_value p q a b c x0 F) as X. rewrite E in X. cbn [snd] in X. injection X as ->.
  rewrite pol_along. apply triangle_cases in F. destruct F as (A & C).
  set (d := dot (diff p q) (cross (diff b a) (diff c a))) in *.
  set (t := dot (diff p a) (cross (diff b a) (diff c a))) in *.
  assert (D : d <> 0) by (intro E0; rewrite E0, Rabs_R0 in A; lra).
  assert (U : forall y, on_segment p q y -> in_triangle a b c y -> y = along p q (t / d)).
  { intros y (s & S & ->) (U & V & W & HU & HV & HW & Sum & E0). unfold along in E0. injection E0 as EX EY EZ.
    replace U with (1 - V - W) in * by lra.
    destruct (cramer_unique p q a b c s V W) as (T1 & _ & _); [lra|lra|lra|].
    fold d in T1. fold t in T1. f_equal. rewrite T1. field. exact D. }
  destruct (proj1 (triangle_meets p q a b c A) C) as (y & Y1 & Y2).
  pose proof (U y Y1 Y2) as ->. auto.
Qed.
Theorem C51_triangle_null : forall p q a b c x, snd (triangle p q a b c None) = (None : option (vec R)) /\
  fst (triangle p q a b c None) = fst (triangle p q a b c (Some x)) /\
  (fst (triangle p q a b c (Some x)) = false -> snd (triangle p q a b c (Some x)) = Some x).
Proof.
  intros p q a b c x. unfold triangle, miss, hit.
  repeat match goal with |- context [if ?z then _ else _] => destruct z end; cbn;
    (split; [reflexivity|]; split; [reflexivity|]; first [discriminate | reflexivity]).
Qed.
(** A triangle a millimetre across is never hit by a segment of length one. *)
Theorem C51_small_triangle_refuted : exists p q a b c x : vec R,
  on_segment p q x /\ in_triangle a b c x /\ dist2 p q = 1 /\
  fst (triangle p q a b c None) = false.
Proof.
  exists (V 0 0 (1/2)), (V 0 0 (-1/2)), (V (-1/1000) (-1/1000) 0), (V (2/1000) (-1/1000) 0), (V (-1/1000) (2/1000) 0), (V 0 0 0).
  split; [exists (1/2); split; [lra|unfold along; cbn; f_equal; lra]|].
  split; [exists (1/3), (1/3), (1/3); repeat split; try lra; cbn; f_equal; lra|].
  split; [unfold dist2; cbn; lra|].
  destruct (fst (triangle _ _ _ _ _ None)) eqn:E; auto. apply C51_triangle in E. destruct E as (A & _).
  unfold volume6 in A. cbn in A.
  match type of A with _ <= Rabs ?z => replace z with (9 / 1000000) in A by lra end.
  rewrite Rabs_right in A by lra. lra.
Qed.
Example C51_triangle_nonvacuous :
  fst (triangle (V 0 0 1) (V 0 0 (-1)) (V (-1) (-1) 0) (V 2 (-1) 0) (V (-1) 2 0) None) = true /\
  fst (triangle (V 5 0 1) (V 5 0 (-1)) (V (-1) (-1) 0) (V 2 (-1) 0) (V (-1) 2 0) None) = false.
Proof.
  split; [apply C51_triangle; split|].
  - unfold volume6. cbn. match goal with |- _ <= Rabs ?z => replace z with 18 by lra end. rewrite Rabs_right; lra.
  - exists (V 0 0 0). split; [exists (1/2); split; [lra|unfold along; cbn; f_equal; lra]|].
    exists (1/3), (1/3), (1/3); repeat split; try lra; cbn; f_equal; lra.
  - destruct (fst (triangle _ _ _ _ _ None)) eqn:E; auto. apply C51_triangle in E.
    destruct E as (_ & y & (s & S & ->) & (u & v & w & U & V & W & Sm & E)). unfold along in E. cbn in E.
    injection E as E1 E2 E3. lra.
Qed.

(** ** Sphere *)
Lemma sq_pos x : x <> 0 -> 0 < x ^ 2.
Proof. intro H. replace (x ^ 2) with (Rsqr x) by (unfold Rsqr; ring). now apply Rlt_0_sqr. Qed.
Lemma vec_neq (p q : vec R) : p <> q -> 0 < dist2 p q.
Proof.
  intro N. unfold dist2.
  pose proof (pow2_ge_0 (vx p - vx q)) as PX. pose proof (pow2_ge_0 (vy p - vy q)) as PY. pose proof (pow2_ge_0 (vz p - vz q)) as PZ.
  destruct (Req_dec (vx p) (vx q)) as [X|X]; [|pose proof (sq_pos (vx p - vx q)); lra].
  destruct (Req_dec (vy p) (vy q)) as [Y|Y]; [|pose proof (sq_pos (vy p - vy q)); lra].
  destruct (Req_dec (vz p) (vz q)) as [Z|Z]; [|pose proof (sq_pos (vz p - vz q)); lra].
  destruct N, p, q. cbn in *. congruence.
Qed.

Section SPHERE.
Variables p q sc : vec R.
Variable sr : R.
Hypothesis PQ : p <> q.
Let dist := sqrt (dist2 p q).
Lemma dist_pos : 0 < dist.
Proof. apply sqrt_lt_R0. now apply vec_neq. Qed.
Lemma dist_sq : dist * dist = dist2 p q.
Proof. apply sqrt_sqrt. left. now apply vec_neq. Qed.
Let u := scale (1 / dist) (diff q p).
Let b := dot (diff p sc) u.
Let c := dot (diff p sc) (diff p sc) - sr * sr.

Lemma vmag_dist : vmag sqrt (diff q p) = dist.
Proof. unfold vmag, dist, dist2, dot, diff. rnum. cbn [vx vy vz]. f_equal. ring. Qed.

Lemma unit_sq : vx u * vx u + vy u * vy u + vz u * vz u = 1.
Proof.
  unfold u, scale, diff. rnum. cbn [vx vy vz].
  transitivity (dist2 p q / (dist * dist)); [unfold dist2; field; apply Rgt_not_eq, dist_pos|].
  rewrite dist_sq. field. apply Rgt_not_eq. now apply vec_neq.
Qed.
Lemma sphere_quad s : dist2 (along p q (s / dist)) sc - sr * sr = s * s + 2 * b * s + c.
Proof.
  assert (X : vx q - vx p = dist * vx u) by (unfold u, scale, diff; rnum; cbn [vx]; field; apply Rgt_not_eq, dist_pos).
  assert (Y : vy q - vy p = dist * vy u) by (unfold u, scale, diff; rnum; cbn [vy]; field; apply Rgt_not_eq, dist_pos).
  assert (Z : vz q - vz p = dist * vz u) by (unfold u, scale, diff; rnum; cbn [vz]; field; apply Rgt_not_eq, dist_pos).
  pose proof unit_sq as U. pose proof dist_pos as DP.
  unfold dist2, along. cbn [vx vy vz]. rewrite X, Y, Z.
  replace (s / dist * (dist * vx u)) with (s * vx u) by (field; lra).
  replace (s / dist * (dist * vy u)) with (s * vy u) by (field; lra).
  replace (s / dist * (dist * vz u)) with (s * vz u) by (field; lra).
  unfold b, c, dot, diff. rnum. cbn [vx vy vz].
  replace (s * s) with (s * s * (vx u * vx u + vy u * vy u + vz u * vz u)) by (rewrite U; ring). ring.
Qed.

Definition tmin : R := Rmax 0 (- b - sqrt (b * b - c)).
Lemma sphere_cases x : fst (sphere sqrt p q sc sr x) = true <->
  exists s, 0 <= s <= dist /\ s * s + 2 * b * s + c <= 0.
Proof.
  unfold sphere. rewrite vmag_dist. rnum. fold u b c. unfold miss, hit. pose proof dist_pos as DP.
  assert (SQ : 0 <= b * b - c -> sqrt (b * b - c) * sqrt (b * b - c) = b * b - c) by apply sqrt_sqrt.
  pose proof (sqrt_pos (b * b - c)) as SP. set (w := sqrt (b * b - c)) in *.
  destruct (Rltb_spec 0 c), (Rltb_spec 0 b); cbn [andb fst].
  1: split; [discriminate|]; intros (s & S & E); nra.
  all: destruct (Rltb_spec (b * b - c) 0) as [Dn|Dn]; cbn [fst];
    [split; [discriminate|]; intros (s & S & E); pose proof (pow2_ge_0 (s + b)); nra|].
  all: assert (W : w * w = b * b - c) by (apply SQ; lra).
  all: destruct (Rltb_spec (- b - w) 0), (Rltb_spec w b); cbn [andb].
  all: try (exfalso; nra).
  all: match goal with |- context [Rltb dist ?z] => destruct (Rltb_spec dist z) end; cbn [fst];
    first [ split; [discriminate|]; intros (s & S & E); exfalso; nra
          | split; auto; intros _;
            first [ exists 0; split; [lra|]; nra | exists (- b - w); split; [lra|]; nra ] ].
Qed.
Lemma sphere_value x0 : fst (sphere sqrt p q sc sr (Some x0)) = true ->
  snd (sphere sqrt p q sc sr (Some x0)) = Some (along p q (tmin / dist)) /\
  0 <= tmin <= dist /\ tmin * tmin + 2 * b * tmin + c <= 0 /\
  forall s, 0 <= s -> s * s + 2 * b * s + c <= 0 -> tmin <= s.
Proof.
  unfold sphere. rewrite vmag_dist. rnum. fold u b c. unfold miss, hit, tmin. pose proof dist_pos as DP.
  assert (SQ : 0 <= b * b - c -> sqrt (b * b - c) * sqrt (b * b - c) = b * b - c) by apply sqrt_sqrt.
  pose proof (sqrt_pos (b * b - c)) as SP. set (w := sqrt (b * b - c)) in *.
  assert (PT : forall t, V (vx p + t * vx u) (vy p + t * vy u) (vz p + t * vz u) = along p q (t / dist)).
  { intro t. unfold along, u, scale, diff. rnum. cbn [vx vy vz]. f_equal; field; lra. }
  destruct (Rltb_spec 0 c), (Rltb_spec 0 b); cbn [andb fst]; try discriminate.
  all: destruct (Rltb_spec (b * b - c) 0) as [Dn|Dn]; cbn [fst]; try discriminate.
  all: assert (W : w * w = b * b - c) by (apply SQ; lra).
  all: destruct (Rltb_spec (- b - w) 0), (Rltb_spec w b); cbn [andb fst]; try discriminate.
  all: match goal with |- context [Rltb dist ?z] => destruct (Rltb_spec dist z) end; cbn [fst snd]; try discriminate.
  all: try (exfalso; lra).
  all: intros _; rewrite PT.
  all: first [rewrite (Rmax_left 0 (- b - w)) by lra | rewrite (Rmax_right 0 (- b - w)) by lra].
  all: split; [reflexivity|]; split; [lra|]; split; [nra|]; intros s S E; nra.
Qed.

Lemma sphere_points : (exists s, 0 <= s <= dist /\ s * s + 2 * b * s + c <= 0) <->
  exists y, on_segment p q y /\ in_sphere sc sr y.
Proof.
  pose proof dist_pos as DP. split.
  - intros (s & S & E). exists (along p q (s / dist)). split.
    + exists (s / dist). split; auto. apply div01. left. lra.
    + unfold in_sphere. pose proof (sphere_quad s). lra.
  - intros (y & (s & S & ->) & I). exists (s * dist). split; [nra|].
    pose proof (sphere_quad (s * dist)) as Q. replace (s * dist / dist) with s in Q by (field; lra).
    unfold in_sphere in I. lra.
Qed.
Lemma dist_along s : dist2 p (along p q s) = (s * dist) * (s * dist).
Proof.
  transitivity (s * s * dist2 p q); [unfold dist2, along; cbn [vx vy vz]; ring|]. rewrite <- dist_sq. ring.
Qed.
End SPHERE.

(** C51, sphere: for a segment with two different ends, a hit is reported exactly when
    some point of the segment is in the solid sphere, and the point returned is the
    nearest of them to p. *)
Theorem C51_sphere : forall p q sc sr x, p <> q ->
  (fst (sphere sqrt p q sc sr x) = true <-> exists y, on_segment p q y /\ in_sphere sc sr y).
Proof.
  intros p q sc sr x PQ. rewrite (sphere_cases p q sc sr PQ). apply (sphere_points p q sc sr PQ).
Qed.
Theorem C51_sphere_point : forall p q sc sr x0 x, p <> q ->
  sphere sqrt p q sc sr (Some x0) = (true, Some x) ->
  on_segment p q x /\ in_sphere sc sr x /\
  forall y, on_segment p q y -> in_sphere sc sr y -> dist2 p x <= dist2 p y.
Proof.
  intros p q sc sr x0 x PQ E.
  destruct (sphere_value p q sc sr PQ x0) as (Vx & R & I & Min); [now rewrite E|].
  rewrite E in Vx. cbn [snd] in Vx. injection Vx as ->. pose proof (dist_pos p q PQ) as DP.
  set (d := sqrt (dist2 p q)) in *. set (t := tmin p q sc sr) in *.
  split; [exists (t / d); split; auto; apply div01; left; lra|]. split.
  - unfold in_sphere. pose proof (sphere_quad p q sc sr PQ t) as Q. fold d in Q. lra.
  - intros y (s & S & ->) Iy. rewrite !(dist_along p q PQ). fold d.
    replace (t / d * d) with t by (field; lra).
    assert (t <= s * d).
    { apply Min; [nra|]. pose proof (sphere_quad p q sc sr PQ (s * d)) as Q. fold d in Q.
      replace (s * d / d) with s in Q by (field; lra). unfold in_sphere in Iy. lra. }
    apply Rmult_le_compat; lra.
Qed.
(** With equal ends the direction is 0/0 and every comparison with it is false: a point
    far outside the sphere is reported as a hit. *)
Theorem C51_degenerate_refuted :
  fst (sphere PrimFloat.sqrt (V 10 0 0) (V 10 0 0) (V 0 0 0) 1 None)%float = true.
Proof. vm_compute. reflexivity. Qed.
Example C51_sphere_nonvacuous :
  fst (sphere sqrt (V 3 0 0) (V (-3) 0 0) (V 0 0 0) 1 None) = true /\
  fst (sphere sqrt (V 3 0 0) (V 2 0 0) (V 0 0 0) 1 None) = false.
Proof.
  split.
  - apply C51_sphere; [intro E; injection E; lra|]. exists (V 0 0 0). split.
    + exists (1/2). split; [lra|]. unfold along. cbn. f_equal; lra.
    + unfold in_sphere, dist2. cbn. lra.
  - destruct (fst (sphere _ _ _ _ _ None)) eqn:E; auto. apply C51_sphere in E; [|intro F; injection F; lra].
    destruct E as (y & (s & S & ->) & I). unfold in_sphere, dist2, along in I. cbn in I. nra.
Qed.

(** ** Spheroid (C89) *)
Section SPHEROID.
Variables (sc : vec R) (rx ry rz : R).
Hypothesis (HX : rx <> 0) (HY : ry <> 0) (HZ : rz <> 0).
Definition shrink (p : vec R) : vec R := V ((vx p - vx sc) / rx) ((vy p - vy sc) / ry) ((vz p - vz sc) / rz).
Definition grow (v : vec R) : vec R := V (vx v * rx + vx sc) (vy v * ry + vy sc) (vz v * rz + vz sc).
Lemma grow_shrink p : grow (shrink p) = p.
Proof. destruct p. unfold grow, shrink. cbn. f_equal; field; auto. Qed.
Lemma shrink_grow p : shrink (grow p) = p.
Proof. destruct p. unfold grow, shrink. cbn. f_equal; field; auto. Qed.
Lemma shrink_along p q s : shrink (along p q s) = along (shrink p) (shrink q) s.
Proof. unfold shrink, along. cbn. f_equal; field; auto. Qed.
Lemma shrink_in x : in_spheroid sc rx ry rz x <-> in_sphere (V 0 0 0) 1 (shrink x).
Proof. unfold in_spheroid, in_sphere, dist2, shrink. cbn. rewrite !Rminus_0_r. lra. Qed.
Lemma shrink_seg p q x : on_segment p q x <-> on_segment (shrink p) (shrink q) (shrink x).
Proof.
  split; intros (s & S & E); exists s; split; auto.
  - rewrite <- shrink_along. now f_equal.
  - rewrite <- (grow_shrink x), E, <- shrink_along. apply grow_shrink.
Qed.
End SPHEROID.

Lemma spheroid_eq p q sc rx ry rz x : spheroid sqrt p q sc rx ry rz x =
  let s := sphere sqrt (shrink sc rx ry rz p) (shrink sc rx ry rz q) (V 0 0 0) 1 x in
  (fst s, option_map (grow sc rx ry rz) (snd s)).
Proof.
  unfold spheroid. cbv zeta. change (V n0 n0 n0) with (V 0 0 0). change n1 with 1.
  change (V ((vx p -~ vx sc) /~ rx) ((vy p -~ vy sc) /~ ry) ((vz p -~ vz sc) /~ rz)) with (shrink sc rx ry rz p).
  change (V ((vx q -~ vx sc) /~ rx) ((vy q -~ vy sc) /~ ry) ((vz q -~ vz sc) /~ rz)) with (shrink sc rx ry rz q).
  destruct (sphere sqrt (shrink sc rx ry rz p) (shrink sc rx ry rz q) (V 0 0 0) 1 x) as [r [v|]]; reflexivity.
Qed.

Theorem C89_spheroid : forall p q sc rx ry rz x, p <> q -> rx <> 0 -> ry <> 0 -> rz <> 0 ->
  (fst (spheroid sqrt p q sc rx ry rz x) = true <->
   exists y, on_segment p q y /\ in_spheroid sc rx ry rz y).
Proof.
  intros p q sc rx ry rz x PQ X Y Z.
  assert (N : shrink sc rx ry rz p <> shrink sc rx ry rz q).
  { intro E. apply PQ. rewrite <- (grow_shrink sc rx ry rz X Y Z p), E. now apply grow_shrink. }
  assert (F : fst (spheroid sqrt p q sc rx ry rz x) =
    fst (sphere sqrt (shrink sc rx ry rz p) (shrink sc rx ry rz q) (V 0 0 0) 1 x)).
  { now rewrite spheroid_eq. }
  rewrite F, (C51_sphere _ _ _ _ _ N). split.
  - intros (y & S & I). exists (grow sc rx ry rz y). split.
    + apply (shrink_seg sc rx ry rz X Y Z). now rewrite shrink_grow.
    + apply shrink_in; auto. now rewrite shrink_grow.
  - intros (y & S & I). exists (shrink sc rx ry rz y). split.
    + apply (shrink_seg sc rx ry rz X Y Z p q y); exact S.
    + now apply shrink_in in I.
Qed.
Theorem C89_point : forall p q sc rx ry rz x0 x, p <> q -> rx <> 0 -> ry <> 0 -> rz <> 0 ->
  spheroid sqrt p q sc rx ry rz (Some x0) = (true, Some x) ->
  on_segment p q x /\ in_spheroid sc rx ry rz x /\
  forall y, on_segment p q y -> in_spheroid sc rx ry rz y -> dist2 p x <= dist2 p y.
Proof.
  intros p q sc rx ry rz x0 x PQ X Y Z E.
  assert (N : shrink sc rx ry rz p <> shrink sc rx ry rz q).
  { intro H. apply PQ. rewrite <- (grow_shrink sc rx ry rz X Y Z p), H. now apply grow_shrink. }
  rewrite spheroid_eq in E. cbv zeta in E.
  destruct (sphere sqrt (shrink sc rx ry rz p) (shrink sc rx ry rz q) (V 0 0 0) 1 (Some x0)) as [r [v|]] eqn:S; cbn [fst snd option_map] in E; [|discriminate E].
  injection E as -> E. destruct (C51_sphere_point _ _ _ _ _ _ N S) as (S1 & S2 & S3).
  assert (Ex : x = grow sc rx ry rz v) by (symmetry; exact E).
  assert (Ev : v = shrink sc rx ry rz x) by (rewrite Ex; symmetry; now apply shrink_grow).
  rewrite Ev in S1, S2, S3. apply (shrink_seg sc rx ry rz X Y Z) in S1. apply (shrink_in sc rx ry rz) in S2.
  split; auto. split; auto. intros y Sy Iy.
  pose proof (S3 _ (proj1 (shrink_seg sc rx ry rz X Y Z p q y) Sy) (proj1 (shrink_in sc rx ry rz y) Iy)) as D.
  destruct S1 as (s1 & H1 & ->). destruct Sy as (s2 & H2 & ->).
  rewrite !(shrink_along sc rx ry rz X Y Z), !(dist_along _ _ N) in D. rewrite !(dist_along _ _ PQ).
  pose proof (dist_pos _ _ N) as D1. pose proof (dist_pos _ _ PQ) as D2.
  set (a := sqrt (dist2 (shrink sc rx ry rz p) (shrink sc rx ry rz q))) in *. set (e := sqrt (dist2 p q)) in *.
  assert (A0 : s1 * a <= s2 * a) by (apply Rsqr_incr_0_var; [exact D | apply Rmult_le_pos; lra]).
  apply Rmult_le_reg_r in A0; [|exact D1].
  assert (A1 : 0 <= s1 * e) by (apply Rmult_le_pos; lra).
  assert (A2 : s1 * e <= s2 * e) by (apply Rmult_le_compat_r; lra).
  apply Rmult_le_compat; lra.
Qed.
(** The output point is changed by a call that reports no hit. *)
Theorem C89_output_refuted : exists p q sc : vec R, exists x0 x,
  spheroid sqrt p q sc 2 1 1 (Some x0) = (false, Some x) /\ x <> x0.
Proof.
  exists (V 9 0 0), (V 8 0 0), (V 0 0 0), (V 1 1 1), (grow (V 0 0 0) 2 1 1 (V 1 1 1)). split.
  - assert (F : fst (spheroid sqrt (V 9 0 0) (V 8 0 0) (V 0 0 0) 2 1 1 (Some (V 1 1 1))) = false).
    { destruct (fst _) eqn:E; auto. apply C89_spheroid in E; try lra; [|intro F; injection F; lra].
      destruct E as (y & (s & S & ->) & I). unfold in_spheroid, along in I. cbn in I. nra. }
    revert F. unfold spheroid, sphere, miss, hit.
    repeat match goal with |- context [if ?z then _ else _] => destruct z end; cbn [fst]; try discriminate; reflexivity.
  - unfold grow. cbn. intro E. injection E. lra.
Qed.
Example C89_nonvacuous : fst (spheroid sqrt (V 5 0 0) (V 1 0 0) (V 0 0 0) 2 1 1 None) = true.
Proof.
  apply C89_spheroid; try lra; [intro F; injection F; lra|]. exists (V 1 0 0). split.
  - exists 1. split; [lra|]. unfold along. cbn. f_equal; lra.
  - unfold in_spheroid. cbn. lra.
Qed.

(** ** Cylinder (C52, C90) *)
Lemma root_bound a b c w : 0 < a -> 0 < c -> b < 0 -> 0 <= w -> w * w = b * b - a * c -> w <= - b.
Proof. intros. apply Rsqr_incr_0_var; [unfold Rsqr; nra|lra]. Qed.
Lemma lin_neg x y t s : 0 <= x -> 0 <= t <= s -> x + t * y < 0 -> 0 <= x + s * y -> False.
Proof. intros. destruct (Rle_or_lt 0 y); nra. Qed.
Lemma lin_down x y t s e : t <= s -> e < x + t * y -> x + s * y <= e -> y < 0.
Proof. intros. destruct (Rle_or_lt 0 y); nra. Qed.
Lemma lin_between x y t u s e : y < 0 -> e < x + t * y -> x + u * y = e -> x + s * y <= e -> t <= u <= s.
Proof. intros. split; nra. Qed.
Lemma conv_lt s d x y : 0 <= s <= 1 -> d < x -> d < x + y -> d < x + s * y.
Proof.
  intros S X Y. destruct (Req_dec s 0) as [->|N]; [lra|].
  assert (0 < s) by lra. assert (s * d < s * (x + y)) by (apply Rmult_lt_compat_l; lra).
  assert ((1 - s) * d <= (1 - s) * x) by (apply Rmult_le_compat_l; lra). lra.
Qed.
Section CYLINDER.
Variables (sa sb p q : vec R) (r : R).
Hypothesis PQ : p <> q.
Let d := diff q p.
Let m := diff sa p.
Let n := diff sb sa.
Let md := dot m d.
Let nd := dot n d.
Let dd := dot d d.
Let nn := dot n n.
Let mn := dot m n.
Let a := dd * nn - nd * nd.
Let k := dot m m - r * r.
Let c := dd * k - md * md.
Let b := dd * mn - nd * md.

Lemma dd_pos : 0 < dd.
Proof.
  replace dd with (dist2 p q); [now apply vec_neq|].
  unfold dd, d, dot, diff, dist2. rnum. cbn [vx vy vz]. ring.
Qed.
Lemma a_skew : a = skew sa sb p q.
Proof. unfold a, nd, nn, dd, n, d, dot, diff, skew. rnum. cbn [vx vy vz]. ring. Qed.
Lemma a_nonneg : 0 <= a.
Proof.
  replace a with (dot (cross d n) (cross d n)).
  - generalize (cross d n). intro z. unfold dot. rnum.
    pose proof (Rle_0_sqr (vx z)). pose proof (Rle_0_sqr (vy z)). pose proof (Rle_0_sqr (vz z)).
    unfold Rsqr in *. lra.
  - unfold a, nd, nn, dd, cross, dot. rnum. cbn [vx vy vz]. ring.
Qed.

Lemma axis_dist s h : dist2 (along sa sb s) (along p q h) =
  k + r * r + 2 * s * mn + s * s * nn - 2 * h * (md + s * nd) + h * h * dd.
Proof. unfold dist2, along, k, mn, nn, md, nd, dd, m, n, d, dot, diff. rnum. cbn [vx vy vz]. ring. Qed.
Lemma axis_perp s h :
  (vx (along sa sb s) - vx (along p q h)) * (vx q - vx p) + (vy (along sa sb s) - vy (along p q h)) * (vy q - vy p) +
  (vz (along sa sb s) - vz (along p q h)) * (vz q - vz p) = md + s * nd - h * dd.
Proof. unfold along, md, nd, dd, m, n, d, dot, diff. rnum. cbn [vx vy vz]. ring. Qed.

Lemma cyl_in s : in_cylinder p q r (along sa sb s) <->
  0 <= md + s * nd <= dd /\ a * s * s + 2 * b * s + c <= 0.
Proof.
  pose proof dd_pos as DP. unfold in_cylinder. split.
  - intros (h & H & D & P). rewrite axis_perp in P. rewrite axis_dist in D.
    assert (E : md + s * nd = h * dd) by lra. split; [rewrite E; nra|].
    assert (Q : dd * (k + 2 * s * mn + s * s * nn - h * h * dd) <= 0).
    { rewrite E in D. replace (k + 2 * s * mn + s * s * nn - h * h * dd) with
        (k + r * r + 2 * s * mn + s * s * nn - 2 * h * (h * dd) + h * h * dd - r * r) by ring. nra. }
    replace (a * s * s + 2 * b * s + c) with (dd * (k + 2 * s * mn + s * s * nn) - (md + s * nd) * (md + s * nd))
      by (unfold a, b, c; ring).
    rewrite E. replace (dd * (k + 2 * s * mn + s * s * nn) - h * dd * (h * dd)) with (dd * (k + 2 * s * mn + s * s * nn - h * h * dd)) by ring.
    exact Q.
  - intros (B & Q). exists ((md + s * nd) / dd).
    split; [apply div01; left; lra|]. rewrite axis_perp, axis_dist. split; [|field; lra].
    set (z := md + s * nd) in *.
    apply Rmult_le_reg_l with dd; auto.
    replace (dd * (k + r * r + 2 * s * mn + s * s * nn - 2 * (z / dd) * z + z / dd * (z / dd) * dd))
      with (dd * (k + r * r + 2 * s * mn + s * s * nn) - z * z) by (field; lra).
    replace (a * s * s + 2 * b * s + c) with (dd * (k + 2 * s * mn + s * s * nn) - z * z) in Q
      by (unfold a, b, c, z; ring).
    lra.
Qed.

(** The membership of a point on an end cap. *)
Lemma cap_in s : md + s * nd = 0 -> k + 2 * s * mn + s * s * nn <= 0 -> a * s * s + 2 * b * s + c <= 0.
Proof.
  intros E K. pose proof dd_pos as DP.
  replace (a * s * s + 2 * b * s + c) with (dd * (k + 2 * s * mn + s * s * nn) - (md + s * nd) * (md + s * nd))
      by (unfold a, b, c; ring).
  rewrite E. nra.
Qed.
Lemma qcap_in s : md + s * nd = dd -> k + dd - 2 * md + s * (2 * (mn - nd) + s * nn) <= 0 -> a * s * s + 2 * b * s + c <= 0.
Proof.
  intros E K. pose proof dd_pos as DP.
  replace (a * s * s + 2 * b * s + c) with (dd * (k + 2 * s * mn + s * s * nn) - (md + s * nd) * (md + s * nd))
      by (unfold a, b, c; ring).
  rewrite E.
  replace (dd * (k + 2 * s * mn + s * s * nn) - dd * dd) with
    (dd * (k + dd - 2 * md + s * (2 * (mn - nd) + s * nn)) + 2 * dd * (md + s * nd - dd)) by ring.
  rewrite E. nra.
Qed.

Lemma root_eq t w : 0 < a -> w * w = b * b - a * c -> t = (- b - w) / a -> a * t * t + 2 * b * t + c = 0.
Proof.
  intros A W ->. apply Rmult_eq_reg_l with a; [|lra].
  replace (a * (a * ((- b - w) / a) * ((- b - w) / a) + 2 * b * ((- b - w) / a) + c)) with (w * w - b * b + a * c) by (field; lra).
  rewrite W. ring.
Qed.
Lemma root_least t w s : 0 < a -> 0 <= w -> w * w = b * b - a * c -> t = (- b - w) / a ->
  a * s * s + 2 * b * s + c <= 0 -> t <= s.
Proof.
  intros A W0 W -> Q. apply Rmult_le_reg_l with a; auto.
  replace (a * ((- b - w) / a)) with (- b - w) by (field; lra).
  assert (S : (a * s + b) * (a * s + b) <= w * w).
  { rewrite W. replace ((a * s + b) * (a * s + b)) with (a * (a * s * s + 2 * b * s + c) + (b * b - a * c)) by ring. nra. }
  destruct (Rle_or_lt (- b - w) (a * s)); auto. exfalso. nra.
Qed.

(** The value of t at a hit of a segment that is not nearly parallel. *)
Definition good s := 0 <= s <= 1 /\ 0 <= md + s * nd <= dd /\ a * s * s + 2 * b * s + c <= 0.

Lemma cyl_hit x0 : 1 / 100000 <= a -> fst (cylinder sqrt sa sb p q r (Some x0)) = true ->
  exists t, snd (cylinder sqrt sa sb p q r (Some x0)) = Some (along sa sb t) /\ good t /\ forall s, good s -> t <= s.
Proof.
  intro A. unfold cylinder. fold d m n md nd dd nn mn. rewrite eps_val. rnum. fold a k c b. unfold miss, hit.
  unfold Rdec. cbn [Z.pow]. pose proof dd_pos as DP.
  destruct (Rltb_spec (Rabs a) (1 / 100000)) as [X|_]; [rewrite Rabs_right in X by lra; lra|].
  assert (H1 : fst (if Rltb md 0 && Rltb (md + nd) 0 then (false, Some x0) else (true, Some x0)) = true -> md < 0 -> 0 <= md + nd).
  { destruct (Rltb_spec md 0), (Rltb_spec (md + nd) 0); cbn [andb fst]; intros; try discriminate; lra. }
  assert (H2 : fst (if Rltb dd md && Rltb dd (md + nd) then (false, Some x0) else (true, Some x0)) = true -> dd < md -> md + nd <= dd).
  { destruct (Rltb_spec dd md), (Rltb_spec dd (md + nd)); cbn [andb fst]; intros; try discriminate; lra. }
  destruct (Rltb md 0 && Rltb (md + nd) 0); [discriminate|]. specialize (H1 eq_refl).
  destruct (Rltb dd md && Rltb dd (md + nd)); [discriminate|]. specialize (H2 eq_refl).
  destruct (Rltb_spec (b * b - a * c) 0) as [Dn|Dn]; [discriminate|].
  assert (W : sqrt (b * b - a * c) * sqrt (b * b - a * c) = b * b - a * c) by (apply sqrt_sqrt; lra).
  pose proof (sqrt_pos (b * b - a * c)) as W0. set (w := sqrt (b * b - a * c)) in *.
  remember ((- b - w) / a) as t eqn:T.
  assert (A0 : 0 < a) by lra.
  pose proof (root_eq t w A0 W T) as Root.
  assert (Least : forall s, a * s * s + 2 * b * s + c <= 0 -> t <= s) by (intros s; now apply root_least with w).
  destruct (Rltb_spec t 0); cbn [orb]; [discriminate|]. destruct (Rltb_spec 1 t); [discriminate|].
  destruct (Rltb_spec (md + t * nd) 0).
  - destruct (Rleb_spec nd 0); [discriminate|].
    match goal with |- context [Rleb ?z 0] => destruct (Rleb_spec z 0) as [K|K] end; [|discriminate].
    intros _. assert (M0 : md < 0) by nra. specialize (H1 M0).
    exists (- md / nd). cbn [snd]. rewrite pol_along. split; auto.
    assert (E : md + - md / nd * nd = 0) by (field; lra).
    assert (T1 : 0 <= - md / nd <= 1) by (apply div01; left; lra).
    split; [|intros s (_ & B & _); apply Rmult_le_reg_r with nd; [lra|]; lra].
    split; auto. split; [lra|]. apply cap_in; auto.
    assert (0 <= nn).
    { unfold nn, dot. rnum. pose proof (Rle_0_sqr (vx n)). pose proof (Rle_0_sqr (vy n)). pose proof (Rle_0_sqr (vz n)).
      unfold Rsqr in *. lra. }
    set (z := - md / nd) in *. assert (0 <= z * z * nn) by (apply Rmult_le_pos; [nra|auto]). lra.
  - destruct (Rltb_spec dd (md + t * nd)).
    + destruct (Rleb_spec 0 nd); [discriminate|].
      match goal with |- context [Rleb ?z 0] => destruct (Rleb_spec z 0) as [K|K] end; [|discriminate].
      intros _. assert (M0 : dd < md) by nra. specialize (H2 M0).
      exists ((dd - md) / nd). cbn [snd]. rewrite pol_along. split; auto.
      assert (E : md + (dd - md) / nd * nd = dd) by (field; lra).
      assert (T1 : 0 <= (dd - md) / nd <= 1) by (apply div01; right; lra).
      split; [|intros s (_ & B & _); apply Rmult_le_reg_r with (- nd); [lra|]; lra].
      split; auto. split; [lra|]. apply qcap_in; auto.
    + intros _. exists t. cbn [snd]. rewrite pol_along. split; auto. split; [|intros s (_ & _ & Q); auto].
      split; [lra|]. split; [lra|]. lra.
Qed.

(** The same for a segment that is exactly parallel to the axis. *)
Lemma parallel_n : a = 0 -> vx n * dd = nd * vx d /\ vy n * dd = nd * vy d /\ vz n * dd = nd * vz d.
Proof.
  intro A.
  assert (C : dot (cross d n) (cross d n) = 0).
  { rewrite <- A. unfold a, nd, nn, dd, cross, dot. rnum. cbn [vx vy vz]. ring. }
  assert (Z : vx (cross d n) = 0 /\ vy (cross d n) = 0 /\ vz (cross d n) = 0).
  { revert C. generalize (cross d n). intros z C. unfold dot in C. revert C. rnum. intro C.
    pose proof (Rle_0_sqr (vx z)). pose proof (Rle_0_sqr (vy z)). pose proof (Rle_0_sqr (vz z)).
    unfold Rsqr in *. repeat split; apply Rsqr_0_uniq; unfold Rsqr; lra. }
  destruct Z as (X & Y & Z). unfold cross in X, Y, Z. revert X Y Z. rnum. cbn [vx vy vz]. intros X Y Z.
  unfold nd, dd, dot. rnum.
  set (dx := vx d) in *. set (dy := vy d) in *. set (dz := vz d) in *.
  set (nx := vx n) in *. set (ny := vy n) in *. set (nz := vz n) in *.
  repeat split.
  - replace (nx * (dx * dx + dy * dy + dz * dz)) with (nx*dx*dx + dy * (dx * ny - (dx * ny - dy * nx)) + dz * (dx * nz + (dz * nx - dx * nz))) by ring.
    rewrite Y, Z. ring.
  - replace (ny * (dx * dx + dy * dy + dz * dz)) with (ny*dy*dy + dx * (dy * nx + (dx * ny - dy * nx)) + dz * (dy * nz - (dy * nz - dz * ny))) by ring.
    rewrite X, Z. ring.
  - replace (nz * (dx * dx + dy * dy + dz * dz)) with (nz*dz*dz + dx * (dz * nx - (dz * nx - dx * nz)) + dy * (dz * ny + (dy * nz - dz * ny))) by ring.
    rewrite X, Y. ring.
Qed.
Lemma cyl_parallel x0 : sa <> sb -> a = 0 -> fst (cylinder sqrt sa sb p q r (Some x0)) = true ->
  exists t, snd (cylinder sqrt sa sb p q r (Some x0)) = Some (along sa sb t) /\ good t /\ forall s, good s -> t <= s.
Proof.
  intros NS A. destruct (parallel_n A) as (NX & NY & NZ). pose proof dd_pos as DP.
  assert (NN : 0 < nn).
  { replace nn with (dist2 sa sb); [now apply vec_neq|]. unfold nn, n, dot, diff, dist2. rnum. cbn [vx vy vz]. ring. }
  assert (E1 : mn * dd = nd * md).
  { unfold mn, md, dot. rnum. set (z := dd) in *.
    transitivity (vx m * (vx n * z) + vy m * (vy n * z) + vz m * (vz n * z)); [ring|]. rewrite NX, NY, NZ. ring. }
  assert (E2 : nn * dd = nd * nd) by (unfold a in A; lra).
  assert (B0 : b = 0) by (unfold b; lra).
  assert (ND : nd <> 0) by (intro E; rewrite E in E2; nra).
  unfold cylinder. fold d m n md nd dd nn mn. rewrite eps_val. rnum. fold a k c b. unfold miss, hit.
  destruct (Rltb_spec (Rabs a) (1 / 100000)) as [_|X]; [|rewrite A, Rabs_R0 in X; lra].
  assert (H1 : fst (if Rltb md 0 && Rltb (md + nd) 0 then (false, Some x0) else (true, Some x0)) = true -> md < 0 -> 0 <= md + nd).
  { destruct (Rltb_spec md 0), (Rltb_spec (md + nd) 0); cbn [andb fst]; intros; try discriminate; lra. }
  assert (H2 : fst (if Rltb dd md && Rltb dd (md + nd) then (false, Some x0) else (true, Some x0)) = true -> dd < md -> md + nd <= dd).
  { destruct (Rltb_spec dd md), (Rltb_spec dd (md + nd)); cbn [andb fst]; intros; try discriminate; lra. }
  destruct (Rltb md 0 && Rltb (md + nd) 0); [discriminate|]. specialize (H1 eq_refl).
  destruct (Rltb dd md && Rltb dd (md + nd)); [discriminate|]. specialize (H2 eq_refl).
  destruct (Rltb_spec 0 c); [discriminate|]. intros _. cbn [snd].
  assert (Q : forall s, a * s * s + 2 * b * s + c <= 0) by (intro s; rewrite A, B0; lra).
  destruct (Rltb_spec md 0) as [M|M]; [|destruct (Rltb_spec dd md) as [M'|M']].
  - specialize (H1 M). assert (P : 0 < nd) by lra.
    assert (T : - mn / nn = - md / nd).
    { apply Rmult_eq_reg_r with (nn * nd * dd); [|apply Rgt_not_eq; repeat apply Rmult_gt_0_compat; lra].
      transitivity (- (mn * dd) * nd); [field; lra|]. transitivity (- md * (nn * dd)); [rewrite E1, E2; ring|field; lra]. }
    exists (- mn / nn). rewrite pol_along. split; auto. rewrite T.
    assert (E : md + - md / nd * nd = 0) by (field; lra).
    split; [|intros s (_ & B & _); apply Rmult_le_reg_r with nd; [lra|]; lra].
    split; [apply div01; left; lra|]. split; [lra|]. apply Q.
  - specialize (H2 M'). assert (P : nd < 0) by lra.
    assert (T : (nd - mn) / nn = (dd - md) / nd).
    { apply Rmult_eq_reg_r with (nn * nd * dd); [|repeat apply Rmult_integral_contrapositive_currified; lra].
      transitivity ((nd * dd - mn * dd) * nd); [field; lra|]. transitivity ((dd - md) * (nn * dd)); [rewrite E1, E2; ring|field; lra]. }
    exists ((nd - mn) / nn). rewrite pol_along. split; auto. rewrite T.
    assert (E : md + (dd - md) / nd * nd = dd) by (field; lra).
    split; [|intros s (_ & B & _); apply Rmult_le_reg_r with (- nd); [lra|]; lra].
    split; [apply div01; right; lra|]. split; [lra|]. apply Q.
  - exists 0. rewrite pol_along. split; auto. split; [|intros s (S & _); lra].
    split; [lra|]. split; [lra|]. apply Q.
Qed.

(** Completeness for segments that begin beside the cylinder and not before its first cap. *)
Lemma cyl_complete x s : 1 / 100000 <= a -> 0 < c -> 0 <= md -> good s -> fst (cylinder sqrt sa sb p q r x) = true.
Proof.
  intros A C M (S & B & Q). pose proof dd_pos as DP. assert (A0 : 0 < a) by lra.
  unfold cylinder. fold d m n md nd dd nn mn. rewrite eps_val. rnum. fold a k c b. unfold miss, hit.
  unfold Rdec. cbn [Z.pow].
  destruct (Rltb_spec (Rabs a) (1 / 100000)) as [X|_]; [rewrite Rabs_right in X by lra; lra|].
  destruct (Rltb_spec md 0); [lra|]. cbn [andb].
  assert (N2 : Rltb dd md && Rltb dd (md + nd) = false).
  { destruct (Rltb_spec dd md), (Rltb_spec dd (md + nd)); auto. exfalso. pose proof (conv_lt s dd md nd S). lra. }
  rewrite N2.
  assert (SQ : (a * s + b) * (a * s + b) <= b * b - a * c).
  { replace ((a * s + b) * (a * s + b)) with (a * (a * s * s + 2 * b * s + c) + (b * b - a * c)) by ring. nra. }
  assert (D0 : 0 <= b * b - a * c) by (pose proof (Rle_0_sqr (a * s + b)); unfold Rsqr in *; lra).
  destruct (Rltb_spec (b * b - a * c) 0); [lra|].
  assert (W : sqrt (b * b - a * c) * sqrt (b * b - a * c) = b * b - a * c) by (now apply sqrt_sqrt).
  pose proof (sqrt_pos (b * b - a * c)) as W0. set (w := sqrt (b * b - a * c)) in *.
  remember ((- b - w) / a) as t eqn:T.
  assert (Ta : a * t = - b - w) by (rewrite T; field; lra).
  pose proof (root_least t w s A0 W0 W T Q) as Le.
  assert (Bn : b < 0) by nra.
  assert (T0 : 0 <= t).
  { apply Rmult_le_reg_l with a; auto. rewrite Ta. pose proof (root_bound a b c w A0 C Bn W0 W). lra. }
  destruct (Rltb_spec t 0); [lra|]. destruct (Rltb_spec 1 t); [lra|]. cbn [orb].
  destruct (Rltb_spec (md + t * nd) 0) as [G0|G0]; [exfalso; apply (lin_neg md nd t s); lra|].
  destruct (Rltb_spec dd (md + t * nd)) as [G|G]; auto.
  assert (Nd : nd < 0) by (apply (lin_down md nd t s dd); lra).
  destruct (Rleb_spec 0 nd); [exfalso; lra|].
  match goal with |- context [Rleb ?z 0] => destruct (Rleb_spec z 0) as [K|K] end; auto.
  exfalso. apply K. clear K.
  set (t' := (dd - md) / nd). assert (E : md + t' * nd = dd) by (unfold t'; field; lra).
  assert (T1 : t <= t' <= s) by (apply (lin_between md nd t t' s dd); lra).
  assert (Root : a * t * t + 2 * b * t + c = 0) by (now apply (root_eq t w)).
  assert (Q' : a * t' * t' + 2 * b * t' + c <= 0).
  { replace (a * t' * t' + 2 * b * t' + c) with ((a * t * t + 2 * b * t + c) + (t' - t) * (a * (t' + t) + 2 * b)) by ring.
    rewrite Root.
    assert (a * (s + t) + 2 * b <= 0 \/ s = t).
    { destruct (Req_dec s t); auto. left.
      assert (0 < s - t) by lra.
      assert ((s - t) * (a * (s + t) + 2 * b) <= 0) by
        (replace ((s - t) * (a * (s + t) + 2 * b)) with ((a * s * s + 2 * b * s + c) - (a * t * t + 2 * b * t + c)) by ring; lra).
      nra. }
    destruct H as [H|H].
    - assert (a * (t' + t) + 2 * b <= 0) by nra. nra.
    - assert (t' = t) by lra. nra. }
  apply Rmult_le_reg_l with dd; auto. rewrite Rmult_0_r.
  replace (dd * (k + dd - 2 * md + t' * (2 * (mn - nd) + t' * nn))) with
    ((a * t' * t' + 2 * b * t' + c) + (md + t' * nd) * (md + t' * nd) + dd * dd - 2 * dd * (md + t' * nd)) by (unfold a, b, c; ring).
  rewrite E. lra.
Qed.

Lemma beside_c : beside p q r sa -> 0 < c.
Proof.
  intro B. pose proof dd_pos as DP. specialize (B (md / dd)).
  assert (E : sa = along sa sb 0) by (destruct sa; unfold along; cbn; f_equal; ring).
  rewrite E, axis_dist in B. unfold c.
  assert (K : 0 < k - 2 * (md / dd) * md + md / dd * (md / dd) * dd) by lra.
  replace (k - 2 * (md / dd) * md + md / dd * (md / dd) * dd) with ((dd * k - md * md) / dd) in K by (field; lra).
  apply Rmult_lt_reg_r with (/ dd); [now apply Rinv_0_lt_compat|]. unfold Rdiv in K. lra.
Qed.
Lemma past_md : past_p p q sa -> 0 <= md.
Proof. unfold past_p, md, m, d, dot, diff. rnum. cbn [vx vy vz]. auto. Qed.
End CYLINDER.

(** C90: when a hit is reported for a segment that is exactly parallel to the axis or
    not nearly so, the point returned is on the segment, in the solid cylinder, and the
    nearest such point to the beginning of the segment. *)
Theorem C90_cylinder_point : forall sa sb p q r x0 x, p <> q -> sa <> sb ->
  (skew sa sb p q = 0 \/ 1 / 100000 <= skew sa sb p q) ->
  cylinder sqrt sa sb p q r (Some x0) = (true, Some x) ->
  on_segment sa sb x /\ in_cylinder p q r x /\
  forall y, on_segment sa sb y -> in_cylinder p q r y -> dist2 sa x <= dist2 sa y.
Proof.
  intros sa sb p q r x0 x PQ AB SK E.
  assert (H : exists t, snd (cylinder sqrt sa sb p q r (Some x0)) = Some (along sa sb t) /\ good sa sb p q r t /\
     forall s, good sa sb p q r s -> t <= s).
  { destruct SK as [SK|SK]; rewrite <- (a_skew sa sb p q) in SK.
    - apply cyl_parallel; auto. now rewrite E.
    - apply cyl_hit; auto. now rewrite E. }
  destruct H as (t & Vt & G & Min). rewrite E in Vt. cbn [snd] in Vt. injection Vt as ->.
  pose proof G as (T & B & Q). split; [exists t; auto|]. split; [apply cyl_in; auto|].
  intros y (s & S & ->) I. apply cyl_in in I; auto. destruct I as (B1 & Q1).
  assert (L : t <= s) by (apply Min; repeat split; try apply S; try apply B1; exact Q1).
  rewrite !(dist_along _ _ AB). pose proof (dist_pos _ _ AB) as DP. set (e := sqrt (dist2 sa sb)) in *.
  assert (A1 : 0 <= t * e) by (apply Rmult_le_pos; lra).
  assert (A2 : t * e <= s * e) by (apply Rmult_le_compat_r; lra).
  apply Rmult_le_compat; lra.
Qed.
(** No hit is missed that begins beside the (endless) cylinder and not before its first
    end cap. *)
Theorem C52_complete_partial : forall sa sb p q r x y, p <> q ->
  1 / 100000 <= skew sa sb p q -> beside p q r sa -> past_p p q sa ->
  on_segment sa sb y -> in_cylinder p q r y -> fst (cylinder sqrt sa sb p q r x) = true.
Proof.
  intros sa sb p q r x y PQ SK B M (s & S & ->) I. apply cyl_in in I; auto. destruct I as (B1 & Q1).
  apply (cyl_complete sa sb p q r PQ x s).
  - rewrite (a_skew sa sb p q). exact SK.
  - exact (beside_c sa sb p q r PQ B).
  - exact (past_md sa p q M).
  - exact (conj S (conj B1 Q1)).
Qed.

(** C52 is false.  A segment that goes through the middle of the first end cap and ends
    inside the cylinder, from beside the cylinder: *)
Lemma sqrt_val x y : 0 <= y -> x = y * y -> sqrt x = y.
Proof. intros H ->. now apply sqrt_square. Qed.
Ltac cyl_run := unfold cylinder, point_on_line, dot, diff, miss, hit; rewrite eps_val; rnum;
  unfold Rdec; cbn [vx vy vz].
Theorem C52_cap_refuted : exists sa sb p q y : vec R,
  beside p q 1 sa /\ on_segment sa sb y /\ in_cylinder p q 1 y /\
  fst (cylinder sqrt sa sb p q 1 None) = false.
Proof.
  exists (V (3/2) 0 (-1)), (V (-1/2) 0 1), (V 0 0 0), (V 0 0 1), (V (1/2) 0 0).
  split; [|split; [|split]].
  - intro h. unfold dist2, along. cbn. pose proof (pow2_ge_0 (-1 - (0 + h * (1 - 0)))) as H. cbn in H. lra.
  - exists (1/2). split; [lra|]. unfold along. cbn. f_equal; lra.
  - exists 0. split; [lra|]. unfold dist2, along. cbn. split; lra.
  - cyl_run.
    repeat first
      [ match goal with |- context [sqrt ?z] => rewrite (sqrt_val z 2) by lra end
      | match goal with |- context [Rltb (Rabs ?z) ?y] => rewrite (Rabs_right z) by lra end
      | ncase; try lra ]; try reflexivity; exfalso; lra.
Qed.
(** ... and from straight below it: *)
Theorem C52_cap_below_refuted : exists sa sb p q y : vec R,
  ~ in_cylinder p q 1 sa /\ in_cylinder p q 1 sb /\ on_segment sa sb y /\ in_cylinder p q 1 y /\
  fst (cylinder sqrt sa sb p q 1 None) = false.
Proof.
  exists (V 0 0 (-1)), (V (1/2) 0 (1/2)), (V 0 0 0), (V 0 0 1), (V (1/3) 0 0).
  split; [|split; [|split; [|split]]].
  - intros (h & H & _ & P). unfold along in P. cbn in P. lra.
  - exists (1/2). split; [lra|]. unfold dist2, along. cbn. split; lra.
  - exists (2/3). split; [lra|]. unfold along. cbn. f_equal; lra.
  - exists 0. split; [lra|]. unfold dist2, along. cbn. split; lra.
  - cyl_run.
    repeat first
      [ match goal with |- context [sqrt ?z] => rewrite (sqrt_val z (1/2)) by lra end
      | match goal with |- context [Rltb (Rabs ?z) ?y] => rewrite (Rabs_right z) by lra end
      | ncase; try lra ]; try reflexivity; exfalso; lra.
Qed.
(** A segment wholly inside the cylinder is not reported. *)
Theorem C52_inside_refuted : exists sa sb p q : vec R,
  (forall y, on_segment sa sb y -> in_cylinder p q 1 y) /\
  fst (cylinder sqrt sa sb p q 1 None) = false.
Proof.
  exists (V 0 0 (1/4)), (V (1/2) 0 (3/4)), (V 0 0 0), (V 0 0 1). split.
  - intros y (s & S & ->). exists (1/4 + s / 2). split; [lra|]. unfold dist2, along. cbn. split; nra.
  - cyl_run.
    repeat first
      [ match goal with |- context [sqrt ?z] => rewrite (sqrt_val z (1/2)) by lra end
      | match goal with |- context [Rltb (Rabs ?z) ?y] => rewrite (Rabs_right z) by lra end
      | ncase; try lra ]; try reflexivity; exfalso; lra.
Qed.
(** A short segment is taken to be parallel to the axis whatever its direction: this one
    goes past the rim of the end cap, and is reported as a hit. *)
Theorem C90_short_refuted : exists sa sb p q : vec R,
  sa <> sb /\ (forall y, on_segment sa sb y -> ~ in_cylinder p q 1 y) /\
  fst (cylinder sqrt sa sb p q 1 None) = true.
Proof.
  exists (V (9999/10000) 0 (-1/2000)), (V (10009/10000) 0 (1/2000)), (V 0 0 0), (V 0 0 1).
  split; [intro E; injection E; lra|]. split.
  - intros y (s & S & ->) (h & H & D & P). unfold dist2, along in D, P. cbn in D, P.
    assert (h = -1/2000 + s / 1000) by lra. subst h. nra.
  - cyl_run.
    repeat first
      [ match goal with |- context [Rltb (Rabs ?z) ?y] => rewrite (Rabs_right z) by lra end
      | ncase; try lra ]; try reflexivity; exfalso; lra.
Qed.
Example C90_nonvacuous :
  (cylinder PrimFloat.sqrt (V 3 0 0.5) (V (-3) 0 0.5) (V 0 0 0) (V 0 0 1) 1 (Some (V 9 9 9)) =
   (true, Some (V 1 0 0.5)))%float.
Proof. vm_compute. reflexivity. Qed.
Example C52_partial_nonvacuous :
  1 / 100000 <= skew (V 3 0 (1/2)) (V (-3) 0 (1/2)) (V 0 0 0) (V 0 0 1) /\
  beside (V 0 0 0) (V 0 0 1) 1 (V 3 0 (1/2)) /\ past_p (V 0 0 0) (V 0 0 1) (V 3 0 (1/2)) /\
  on_segment (V 3 0 (1/2)) (V (-3) 0 (1/2)) (V 0 0 (1/2)) /\ in_cylinder (V 0 0 0) (V 0 0 1) 1 (V 0 0 (1/2)).
Proof.
  split; [unfold skew; cbn; lra|]. split.
  { intro h. unfold dist2, along. cbn. pose proof (pow2_ge_0 (1 / 2 - (0 + h * (1 - 0)))) as H. cbn in H. lra. }
  split; [unfold past_p; cbn; lra|]. split.
  - exists (1/2). split; [lra|]. unfold along. cbn. f_equal; lra.
  - exists (1/2). split; [lra|]. unfold dist2, along. cbn. split; lra.
Qed.

Print Assumptions C51_triangle.
Print Assumptions C51_triangle_point.
Print Assumptions C51_triangle_null.
Print Assumptions C51_small_triangle_refuted.
Print Assumptions C51_sphere.
Print Assumptions C51_sphere_point.
Print Assumptions C51_degenerate_refuted.
Print Assumptions C52_complete_partial.
Print Assumptions C52_cap_refuted.
Print Assumptions C52_cap_below_refuted.
Print Assumptions C52_inside_refuted.
Print Assumptions C89_spheroid.
Print Assumptions C89_point.
Print Assumptions C89_output_refuted.
Print Assumptions C90_cylinder_point.
Print Assumptions C90_short_refuted.
