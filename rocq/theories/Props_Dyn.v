(** Quaternions, rotation matrices and the motion of the axes (C128). *)
From Coq Require Import Floats.
From Coq Require Import Reals Bool ZArith Lra Lia List Psatz.
From Verif Require Import Num MathUtil Dyn Spec_Dyn.
Import ListNotations.
Open Scope R_scope.

Ltac dfields := cbn [v_0 v_1 v_2 q_0 q_1 q_2 q_3 m_0 m_1 m_2 m_3 m_4 m_5 m_6 m_7 m_8] in *.
(** Everything down to real arithmetic. *)
Ltac dyn :=
  cbv beta zeta iota delta
    [two half addV subV scaleV dot3 dot4 zeroV crossV mulMV mulMtV mulMM scaleM skew qvec qdot qtom
     vadd vscale vdot vcross vzero row0 row1 row2 col0 col1 col2 mvec tvec mmul mid
     qnorm2 qunit qscale qconj qmul pure vpart qrotate is_rotation
     n0 n1 nadd nsub nmul ndiv nopp nabs nlt nle neqb ndec neps RNum Rdec
     v_0 v_1 v_2 q_0 q_1 q_2 q_3 m_0 m_1 m_2 m_3 m_4 m_5 m_6 m_7 m_8] in *;
  change (IZR (10 ^ 1)) with 10 in *; change (IZR (10 ^ 2)) with 100 in *.

(** ** Linear algebra *)
Lemma mulMV_R (m : m9 R) v : mulMV m v = mvec m v.
Proof. destruct m, v; dyn; f_equal; ring. Qed.
Lemma mulMtV_R (m : m9 R) v : mulMtV m v = tvec m v.
Proof. destruct m, v; dyn; f_equal; ring. Qed.
Lemma mulMM_R (a b : m9 R) : mulMM a b = mmul a b.
Proof. destruct a, b; dyn; f_equal; ring. Qed.
Lemma cross_R (a b : v3 R) : crossV a b = vcross a b.
Proof. reflexivity. Qed.
Lemma dot4_R (a : q4 R) : dot4 a a = qnorm2 a.
Proof. destruct a; dyn; ring. Qed.
Lemma mmul_assoc a b c : mmul a (mmul b c) = mmul (mmul a b) c.
Proof. destruct a, b, c; dyn; f_equal; ring. Qed.
Lemma mmul_vec a b v : mvec (mmul a b) v = mvec a (mvec b v).
Proof. destruct a, b, v; dyn; f_equal; ring. Qed.

Lemma sq0 x y z : x * x + y * y + z * z = 0 -> x = 0 /\ y = 0 /\ z = 0.
Proof. intro H. repeat split; nra. Qed.

(** A rotation is its own matrix of cofactors. *)
Lemma rotation_cof m : is_rotation m ->
  (m_0 m = m_4 m * m_8 m - m_5 m * m_7 m /\ m_1 m = m_5 m * m_6 m - m_3 m * m_8 m /\
   m_2 m = m_3 m * m_7 m - m_4 m * m_6 m) /\
  (m_3 m = m_2 m * m_7 m - m_1 m * m_8 m /\ m_4 m = m_0 m * m_8 m - m_2 m * m_6 m /\
   m_5 m = m_1 m * m_6 m - m_0 m * m_7 m) /\
  (m_6 m = m_1 m * m_5 m - m_2 m * m_4 m /\ m_7 m = m_2 m * m_3 m - m_0 m * m_5 m /\
   m_8 m = m_0 m * m_4 m - m_1 m * m_3 m).
Proof.
  destruct m as [a b c d e f g h i]. dyn. intros (H0 & H1 & H2 & H01 & H02 & H12 & D).
  assert (K2 : (a*a+b*b+c*c)*(d*d+e*e+f*f) - (a*d+b*e+c*f)*(a*d+b*e+c*f)
               - 2 * ((b*f-c*e)*g + (c*d-a*f)*h + (a*e-b*d)*i) + (g*g+h*h+i*i) = 0)
    by (rewrite H0, H1, H2, H01, D; ring).
  assert (K0 : (d*d+e*e+f*f)*(g*g+h*h+i*i) - (d*g+e*h+f*i)*(d*g+e*h+f*i)
               - 2 * ((b*f-c*e)*g + (c*d-a*f)*h + (a*e-b*d)*i) + (a*a+b*b+c*c) = 0)
    by (rewrite H0, H1, H2, H12, D; ring).
  assert (K1 : (a*a+b*b+c*c)*(g*g+h*h+i*i) - (a*g+b*h+c*i)*(a*g+b*h+c*i)
               - 2 * ((b*f-c*e)*g + (c*d-a*f)*h + (a*e-b*d)*i) + (d*d+e*e+f*f) = 0)
    by (rewrite H0, H1, H2, H02, D; ring).
  destruct (sq0 (a - (e*i-f*h)) (b - (f*g-d*i)) (c - (d*h-e*g))) as (A1 & A2 & A3);
    [rewrite <- K0; ring|].
  destruct (sq0 (d - (c*h-b*i)) (e - (a*i-c*g)) (f - (b*g-a*h))) as (B1 & B2 & B3);
    [rewrite <- K1; ring|].
  destruct (sq0 (g - (b*f-c*e)) (h - (c*d-a*f)) (i - (a*e-b*d))) as (C1 & C2 & C3);
    [rewrite <- K2; ring|].
  repeat split; lra.
Qed.
(** The columns are orthonormal too. *)
Lemma rotation_cols m : is_rotation m ->
  vdot (col0 m) (col0 m) = 1 /\ vdot (col1 m) (col1 m) = 1 /\ vdot (col2 m) (col2 m) = 1 /\
  vdot (col0 m) (col1 m) = 0 /\ vdot (col0 m) (col2 m) = 0 /\ vdot (col1 m) (col2 m) = 0.
Proof.
  intro H. destruct (rotation_cof m H) as ((A1 & A2 & A3) & (B1 & B2 & B3) & (C1 & C2 & C3)).
  destruct m as [a b c d e f g h i]. dyn. destruct H as (H0 & H1 & H2 & H01 & H02 & H12 & D).
  assert (E1 : a*a + d*d + g*g = a*(e*i-f*h) + d*(c*h-b*i) + g*(b*f-c*e)) by (rewrite <- A1, <- B1, <- C1; ring).
  assert (E2 : b*b + e*e + h*h = b*(f*g-d*i) + e*(a*i-c*g) + h*(c*d-a*f)) by (rewrite <- A2, <- B2, <- C2; ring).
  assert (E3 : c*c + f*f + i*i = c*(d*h-e*g) + f*(b*g-a*h) + i*(a*e-b*d)) by (rewrite <- A3, <- B3, <- C3; ring).
  assert (E4 : a*b + d*e + g*h = a*(f*g-d*i) + d*(a*i-c*g) + g*(c*d-a*f)) by (rewrite <- A2, <- B2, <- C2; ring).
  assert (E5 : a*c + d*f + g*i = a*(d*h-e*g) + d*(b*g-a*h) + g*(a*e-b*d)) by (rewrite <- A3, <- B3, <- C3; ring).
  assert (E6 : b*c + e*f + h*i = b*(d*h-e*g) + e*(b*g-a*h) + h*(a*e-b*d)) by (rewrite <- A3, <- B3, <- C3; ring).
  repeat split; [rewrite E1|rewrite E2|rewrite E3|rewrite E4|rewrite E5|rewrite E6];
    try (rewrite <- D); ring.
Qed.

(** ** Quaternions to matrices *)
Theorem C128_matrix : forall q v, qunit q ->
  is_rotation (qtom q) /\
  mulMV (qtom q) v = qrotate q v /\
  mulMtV (qtom q) (mulMV (qtom q) v) = v /\
  mulMV (qtom q) (mulMtV (qtom q) v) = v /\
  qtom (qscale (-1) q) = qtom q.
Proof.
  intros [a b c d] [x y z] U. dyn.
  assert (E : a * a = 1 - b*b - c*c - d*d) by lra.
  assert (F : forall P Q : R, Q * (1 - (a*a + b*b + c*c + d*d)) = P -> P = 0)
    by (intros P Q <-; rewrite U; ring).
  repeat split.
  - apply Rminus_diag_uniq. apply (F _ (-4*(c*c+d*d))). ring.
  - apply Rminus_diag_uniq. apply (F _ (-4*(b*b+d*d))). ring.
  - apply Rminus_diag_uniq. apply (F _ (-4*(b*b+c*c))). ring.
  - apply (F _ (4*b*c)). ring.
  - apply (F _ (4*b*d)). ring.
  - apply (F _ (4*c*d)). ring.
  - apply Rminus_diag_uniq. apply (F _ (-4*(b*b+c*c+d*d))). ring.
  - f_equal; apply Rminus_diag_uniq.
    + apply (F _ x). ring.
    + apply (F _ y). ring.
    + apply (F _ z). ring.
  - f_equal; apply Rminus_diag_uniq.
    + apply (F _ (-4*x*(c*c+d*d) + 4*y*b*c + 4*z*b*d)). ring.
    + apply (F _ (4*x*b*c - 4*y*(b*b+d*d) + 4*z*c*d)). ring.
    + apply (F _ (4*x*b*d + 4*y*c*d - 4*z*(b*b+c*c))). ring.
  - f_equal; apply Rminus_diag_uniq.
    + apply (F _ (-4*x*(c*c+d*d) + 4*y*b*c + 4*z*b*d)). ring.
    + apply (F _ (4*x*b*c - 4*y*(b*b+d*d) + 4*z*c*d)). ring.
    + apply (F _ (4*x*b*d + 4*y*c*d - 4*z*(b*b+c*c))). ring.
  - f_equal; ring.
Qed.
Print Assumptions C128_matrix.

Lemma qmul_unit p q : qunit p -> qunit q -> qunit (qmul p q).
Proof.
  intros P Q. unfold qunit in *.
  assert (E : qnorm2 (qmul p q) = qnorm2 p * qnorm2 q) by (destruct p, q; dyn; ring).
  rewrite E, P, Q. ring.
Qed.
Lemma qmul_assoc a b c : qmul a (qmul b c) = qmul (qmul a b) c.
Proof. destruct a, b, c. dyn. f_equal; ring. Qed.
Lemma qrotate_qmul p q v : qrotate (qmul p q) v = qrotate p (qrotate q v).
Proof.
  unfold qrotate.
  assert (E : pure (vpart (qmul (qmul q (pure v)) (qconj q))) = qmul (qmul q (pure v)) (qconj q))
    by (destruct q, v; dyn; f_equal; ring).
  rewrite E. f_equal.
  assert (C : qconj (qmul p q) = qmul (qconj q) (qconj p)) by (destruct p, q; dyn; f_equal; ring).
  rewrite C, !qmul_assoc. reflexivity.
Qed.
Lemma mvec_ext a b : (forall v, mvec a v = mvec b v) -> a = b.
Proof.
  intro H. pose proof (H (V3 1 0 0)) as H0. pose proof (H (V3 0 1 0)) as H1. pose proof (H (V3 0 0 1)) as H2.
  destruct a, b. dyn. injection H0. injection H1. injection H2. intros. f_equal; lra.
Qed.
(** The matrix of the product is the product of the matrices. *)
Theorem C128_compose : forall p q, qunit p -> qunit q ->
  qtom (qmul p q) = mulMM (qtom p) (qtom q).
Proof.
  intros p q P Q. rewrite mulMM_R. apply mvec_ext. intro v.
  rewrite mmul_vec, <- !mulMV_R.
  rewrite (proj1 (proj2 (C128_matrix _ v (qmul_unit p q P Q)))).
  rewrite (proj1 (proj2 (C128_matrix q v Q))).
  rewrite (proj1 (proj2 (C128_matrix p _ P))). apply qrotate_qmul.
Qed.
Print Assumptions C128_compose.

(** ** Matrices to quaternions *)
Lemma mtoq_eq (m : m9 R) :
  mtoq sqrt m =
  let t := m_0 m + m_4 m + m_8 m in
  if Rltb (-1) t then
    Some (Q4 (1/2 * sqrt (1 + t)) (1/4 * (m_7 m - m_5 m) / (1/2 * sqrt (1 + t)))
             (1/4 * (m_2 m - m_6 m) / (1/2 * sqrt (1 + t))) (1/4 * (m_3 m - m_1 m) / (1/2 * sqrt (1 + t))))
  else None.
Proof.
  unfold mtoq. dyn. destruct (Rltb _ _); [|reflexivity].
  replace (5/10) with (1/2) by lra. replace (25/100) with (1/4) by lra. reflexivity.
Qed.

Theorem C128_round_trip : forall q, qunit q ->
  match mtoq sqrt (qtom q) with
  | Some p => q_0 q <> 0 /\ p = (if Rlt_dec 0 (q_0 q) then q else qscale (-1) q)
  | None => q_0 q = 0
  end.
Proof.
  intros [a b c d] U. rewrite mtoq_eq. cbv zeta.
  assert (T : m_0 (qtom (Q4 a b c d)) + m_4 (qtom (Q4 a b c d)) + m_8 (qtom (Q4 a b c d)) = 4 * (a * a) - 1)
    by (dyn; lra).
  rewrite T. clear T. destruct (Rltb_spec (-1) (4 * (a * a) - 1)) as [H|H].
  2:{ cbn [q_0]. nra. }
  assert (S : 1/2 * sqrt (1 + (4 * (a * a) - 1)) = Rabs a).
  { replace (1 + (4 * (a * a) - 1)) with (Rsqr (2 * a)) by (unfold Rsqr; ring).
    rewrite sqrt_Rsqr_abs, Rabs_mult, (Rabs_right 2) by lra. lra. }
  rewrite S. cbn [q_0]. assert (A : a <> 0) by (intro; subst; lra). split; [exact A|].
  destruct (Rlt_dec 0 a) as [P|P].
  - rewrite Rabs_right by lra. dyn. f_equal; field; exact A.
  - rewrite Rabs_left by lra. dyn. f_equal; [ring|..]; field; exact A.
Qed.
Print Assumptions C128_round_trip.

(** Every rotation is turned into the one unit quaternion with a positive scalar part that
    stands for it, half turns excepted. *)
Theorem C128_inverse : forall m, is_rotation m ->
  match mtoq sqrt m with
  | Some q => qunit q /\ 0 < q_0 q /\ qtom q = m
  | None => m <> mid /\ mulMM m m = mid
  end.
Proof.
  intros m H. destruct (rotation_cof m H) as ((A1 & A2 & A3) & (B1 & B2 & B3) & (C1 & C2 & C3)).
  destruct (rotation_cols m H) as (L0 & L1 & L2 & L01 & L02 & L12).
  rewrite mtoq_eq. cbv zeta. rewrite mulMM_R. destruct m as [a b c d e f g h i]. dyn.
  destruct H as (H0 & H1 & H2 & H01 & H02 & H12 & D).
  set (t := a + e + i).
  (* the squares of the differences across the diagonal *)
  assert (X1 : (h-f)*(h-f) + (c-g)*(c-g) + (d-b)*(d-b) = (3-t)*(1+t)).
  { assert (Y : (b*d + c*g + f*h) = a*e + a*i + e*i - t) by (unfold t; lra).
    unfold t in *. lra. }
  destruct (Rltb_spec (-1) t) as [P|P].
  - set (r := sqrt (1 + t)). assert (R2 : r * r = 1 + t) by (apply sqrt_sqrt; lra).
    assert (RP : 0 < r) by (apply sqrt_lt_R0; lra).
    assert (Z : r <> 0) by lra. clearbody r.
    assert (Q : forall x, 1/4 * x / (1/2 * r) = x / (2 * r)) by (intro; field; exact Z).
    rewrite !Q.
    (* the products across the diagonal *)
    assert (S1 : (c-g)*(c-g) + (d-b)*(d-b) = 2*(1-a)*(r*r)).
    { rewrite R2. unfold t.
      assert (Y1 : b*d = a*e - i) by lra. assert (Y2 : c*g = a*i - e) by lra. lra. }
    assert (S2 : (h-f)*(h-f) + (d-b)*(d-b) = 2*(1-e)*(r*r)).
    { rewrite R2. unfold t.
      assert (Y1 : b*d = a*e - i) by lra. assert (Y2 : f*h = e*i - a) by lra. lra. }
    assert (S3 : (h-f)*(h-f) + (c-g)*(c-g) = 2*(1-i)*(r*r)).
    { rewrite R2. unfold t.
      assert (Y1 : c*g = a*i - e) by lra. assert (Y2 : f*h = e*i - a) by lra. lra. }
    assert (S4 : (h-f)*(c-g) = (b+d)*(r*r)).
    { rewrite R2. unfold t.
      assert (Y1 : c*h = d + b*i) by lra. assert (Y2 : f*g = b + d*i) by lra.
      assert (Y3 : g*h = - (a*b + d*e)) by lra. assert (Y4 : c*f = - (a*d + b*e)) by lra. lra. }
    assert (S5 : (h-f)*(d-b) = (c+g)*(r*r)).
    { rewrite R2. unfold t.
      assert (Y1 : d*h = c + e*g) by lra. assert (Y2 : b*f = g + c*e) by lra.
      assert (Y3 : d*f = - (a*c + g*i)) by lra. assert (Y4 : b*h = - (a*g + c*i)) by lra. lra. }
    assert (S6 : (c-g)*(d-b) = (f+h)*(r*r)).
    { rewrite R2. unfold t.
      assert (Y1 : c*d = h + a*f) by lra. assert (Y2 : b*g = f + a*h) by lra.
      assert (Y3 : b*c = - (e*f + h*i)) by lra. assert (Y4 : d*g = - (e*h + f*i)) by lra. lra. }
    assert (I2 : / (r*r) * (r*r) = 1) by (field; exact Z).
    assert (M : forall x y z, x * y = z * (r*r) -> x / (2*r) * (y / (2*r)) = z / 4).
    { intros x y z E. replace (x / (2*r) * (y / (2*r))) with (x * y * / (r*r) / 4) by (field; exact Z).
      rewrite E. field. exact Z. }
    assert (M2 : forall x y z, x*x + y*y = z * (r*r) -> x/(2*r)*(x/(2*r)) + y/(2*r)*(y/(2*r)) = z / 4).
    { intros x y z E. replace (x/(2*r)*(x/(2*r)) + y/(2*r)*(y/(2*r))) with ((x*x+y*y) * / (r*r) / 4) by (field; exact Z).
      rewrite E. field. exact Z. }
    pose proof (M2 _ _ _ S1) as W1. pose proof (M2 _ _ _ S2) as W2. pose proof (M2 _ _ _ S3) as W3.
    pose proof (M _ _ _ S4) as W4. pose proof (M _ _ _ S5) as W5. pose proof (M _ _ _ S6) as W6.
    assert (V : forall x, 1/2 * r * (x / (2*r)) = x / 4) by (intro; field; exact Z).
    split; [|split; [lra|]].
    + transitivity (r*r/4 + ((c-g)/(2*r)*((c-g)/(2*r)) + (d-b)/(2*r)*((d-b)/(2*r))
        + ((h-f)/(2*r)*((h-f)/(2*r)) + (d-b)/(2*r)*((d-b)/(2*r)))
        + ((h-f)/(2*r)*((h-f)/(2*r)) + (c-g)/(2*r)*((c-g)/(2*r)))) / 2); [field; exact Z|].
      rewrite W1, W2, W3, R2. unfold t. field.
    + f_equal.
      * rewrite W1. field.
      * rewrite W4, V. field.
      * rewrite W5, V. field.
      * rewrite W4, V. field.
      * rewrite W2. field.
      * rewrite W6, V. field.
      * rewrite W5, V. field.
      * rewrite W6, V. field.
      * rewrite W3. field.
  - assert (T : t = -1).
    { pose proof (Rle_0_sqr (h-f)) as Q1. pose proof (Rle_0_sqr (c-g)) as Q2. pose proof (Rle_0_sqr (d-b)) as Q3.
      unfold Rsqr in Q1, Q2, Q3. assert (Q : 0 <= (3-t)*(1+t)) by lra. clear - Q P. clearbody t. nra. }
    rewrite T in X1. destruct (sq0 (h-f) (c-g) (d-b)) as (Z1 & Z2 & Z3); [rewrite X1; ring|].
    assert (h = f) by lra. assert (c = g) by lra. assert (d = b) by lra. clear A1 A2 A3 B1 B2 B3 C1 C2 C3. subst h g d.
    split; [intro E; injection E; unfold t in T; intros; lra|].
    f_equal; lra.
Qed.
Print Assumptions C128_inverse.

(** ** Keeping the quaternion a unit *)
Lemma normalizeQ_eq (q : q4 R) :
  normalizeQ sqrt q =
  qscale (if Rltb (Rabs (1 - qnorm2 q)) (23842 / 100000000000) then 2 / (1 + qnorm2 q) else 1 / sqrt (qnorm2 q)) q.
Proof.
  unfold normalizeQ. rewrite dot4_R. unfold quat_tol. dyn. change (IZR (10 ^ 11)) with 100000000000.
  f_equal; apply Rmult_comm.
Qed.
Lemma qnorm2_scale k q : qnorm2 (qscale k q) = k * k * qnorm2 q.
Proof. destruct q. dyn. ring. Qed.

Theorem C128_normalize : forall q, 0 < qnorm2 q ->
  (exists k, 0 < k /\ normalizeQ sqrt q = qscale k q) /\
  1 - 15 / 1000000000000000 <= qnorm2 (normalizeQ sqrt q) <= 1 /\
  (23842 / 100000000000 <= Rabs (1 - qnorm2 q) -> qunit (normalizeQ sqrt q)) /\
  (qunit q -> normalizeQ sqrt q = q).
Proof.
  intros q P. rewrite normalizeQ_eq, qnorm2_scale. unfold qunit. rewrite qnorm2_scale.
  assert (E1 : qnorm2 q = 1 -> (if Rltb (Rabs (1 - qnorm2 q)) (23842 / 100000000000)
             then 2 / (1 + qnorm2 q) else 1 / sqrt (qnorm2 q)) = 1).
  { intros ->. rewrite sqrt_1. destruct (Rltb _ _); lra. }
  set (k := if Rltb (Rabs (1 - qnorm2 q)) (23842 / 100000000000)
             then 2 / (1 + qnorm2 q) else 1 / sqrt (qnorm2 q)) in *.
  assert (L : qnorm2 q = 1 -> qscale k q = q).
  { intro U. rewrite (E1 U). destruct q. dyn. f_equal; ring. }
  assert (K : 0 < k /\ (1 - 15 / 1000000000000000 <= k * k * qnorm2 q <= 1) /\
              (23842 / 100000000000 <= Rabs (1 - qnorm2 q) -> k * k * qnorm2 q = 1)).
  { clear E1 L. subst k. set (m := qnorm2 q) in *. clearbody m.
    destruct (Rltb_spec (Rabs (1 - m)) (23842 / 100000000000)) as [H|H].
    - assert (B : - (23842 / 100000000000) < 1 - m < 23842 / 100000000000)
        by (revert H; unfold Rabs; destruct (Rcase_abs (1 - m)); lra).
      split; [apply Rdiv_lt_0_compat; lra|]. split; [|intro; lra].
      assert (E : 2 / (1 + m) * (2 / (1 + m)) * m = 1 - (1 - m) * (1 - m) * / ((1 + m) * (1 + m)))
        by (field; lra).
      assert (I : 0 < / ((1 + m) * (1 + m)) <= 1 / 399 * 100).
      { split; [apply Rinv_0_lt_compat; nra|].
        replace (1 / 399 * 100) with (/ (399 / 100)) by field. apply Rinv_le_contravar; nra. }
      rewrite E. set (j := / ((1 + m) * (1 + m))) in *. clearbody j.
      assert (X : 0 <= (1 - m) * (1 - m) <= 568441 / 10000000000000000000).
      { split; [apply (Rle_0_sqr (1 - m))|].
        assert (Y : 0 <= (23842 / 100000000000 - (1 - m)) * (23842 / 100000000000 + (1 - m)))
          by (apply Rmult_le_pos; lra). lra. }
      set (y := (1 - m) * (1 - m)) in *. clearbody y.
      assert (0 <= y * j) by (apply Rmult_le_pos; lra).
      assert (y * j <= 568441 / 10000000000000000000 * (1 / 399 * 100)) by (apply Rmult_le_compat; lra).
      lra.
    - assert (S : 0 < sqrt m) by (apply sqrt_lt_R0; exact P).
      assert (SS : sqrt m * sqrt m = m) by (apply sqrt_sqrt; lra).
      split; [apply Rdiv_lt_0_compat; lra|].
      assert (E : 1 / sqrt m * (1 / sqrt m) * m = 1) by (rewrite <- SS at 3; field; lra).
      rewrite E. split; [lra|reflexivity]. }
  destruct K as (K1 & K2 & K3). repeat split; try assumption; try lra. exists k. auto.
Qed.
Print Assumptions C128_normalize.

Theorem C128_normalize_vector : forall v,
  let r := normalizeV sqrt v in
  let mag := sqrt (vdot v v) in
  (mag < Reps -> r = (v, false)) /\
  (Reps <= mag -> snd r = true /\ vdot (fst r) (fst r) = 1 /\ vscale mag (fst r) = v).
Proof.
  intros v r mag.
  assert (M : mag3 sqrt v = mag) by (unfold mag, mag3; destruct v; dyn; f_equal; ring).
  unfold r, normalizeV. rewrite M. cbn [neps nlt RNum]. split; intro H.
  - rewrite Rltb_true by exact H. reflexivity.
  - rewrite Rltb_false by exact H. cbn [fst snd]. pose proof Reps_pos as RP.
    assert (SS : mag * mag = vdot v v) by (apply sqrt_sqrt; destruct v; dyn; nra).
    assert (Z : mag <> 0) by lra. clearbody mag. clear M r. destruct v as [x y z]. dyn.
    split; [reflexivity|]. split.
    + replace (x * (1/mag) * (x * (1/mag)) + y * (1/mag) * (y * (1/mag)) + z * (1/mag) * (z * (1/mag)))
        with ((x*x + y*y + z*z) * / (mag*mag)) by (field; exact Z).
      rewrite <- SS. field. exact Z.
    + f_equal; field; exact Z.
Qed.
Print Assumptions C128_normalize_vector.

(** ** The motion of the axes *)
Theorem C128_rate : forall q w,
  qdot q w = qscale (1/2) (qmul (pure (vscale (-1) w)) q).
Proof. intros [a b c d] [x y z]. dyn. f_equal; field. Qed.
Print Assumptions C128_rate.

Lemma D_const (c t : R) : derivable_pt_lim (fun _ => c) t 0.
Proof. apply (derivable_pt_lim_const c t). Qed.
Lemma D_plus f g t a b : derivable_pt_lim f t a -> derivable_pt_lim g t b ->
  derivable_pt_lim (fun s => f s + g s) t (a + b).
Proof. apply derivable_pt_lim_plus. Qed.
Lemma D_minus f g t a b : derivable_pt_lim f t a -> derivable_pt_lim g t b ->
  derivable_pt_lim (fun s => f s - g s) t (a - b).
Proof. apply derivable_pt_lim_minus. Qed.
Lemma D_mult f g t a b : derivable_pt_lim f t a -> derivable_pt_lim g t b ->
  derivable_pt_lim (fun s => f s * g s) t (a * g t + f t * b).
Proof. apply derivable_pt_lim_mult. Qed.
Lemma D_eq f t a b : derivable_pt_lim f t a -> a = b -> derivable_pt_lim f t b.
Proof. now intros H <-. Qed.

Lemma zero_derivative_const f : (forall t, derivable_pt_lim f t 0) -> forall t, f t = f 0.
Proof.
  intros H t.
  assert (pr : derivable f) by (intro x; exists 0; apply H).
  assert (E : forall x, derive_pt f x (pr x) = 0) by (intro x; apply derive_pt_eq_0, H).
  pose proof (null_derivative_1 f pr E) as C. exact (C t 0).
Qed.

(** A quaternion that moves as told: its length does not change, and the body components
    of a vector [u] fixed in space move as seen from axes turning with [w]. *)
Definition moves (q : R -> q4 R) (w : R -> v3 R) : Prop :=
  forall t, derivable_pt_lim (fun s => q_0 (q s)) t (q_0 (qdot (q t) (w t))) /\
            derivable_pt_lim (fun s => q_1 (q s)) t (q_1 (qdot (q t) (w t))) /\
            derivable_pt_lim (fun s => q_2 (q s)) t (q_2 (qdot (q t) (w t))) /\
            derivable_pt_lim (fun s => q_3 (q s)) t (q_3 (qdot (q t) (w t))).
Theorem C128_motion : forall q w, moves q w ->
  (forall t, qnorm2 (q t) = qnorm2 (q 0)) /\
  (qunit (q 0) -> forall u t,
     let seen s := mulMV (qtom (q s)) u in
     let rate := vcross (seen t) (w t) in
     derivable_pt_lim (fun s => v_0 (seen s)) t (v_0 rate) /\
     derivable_pt_lim (fun s => v_1 (seen s)) t (v_1 rate) /\
     derivable_pt_lim (fun s => v_2 (seen s)) t (v_2 rate)).
Proof.
  intros q w H.
  assert (C : forall t, qnorm2 (q t) = qnorm2 (q 0)).
  { apply (zero_derivative_const (fun t => qnorm2 (q t))). intro t.
    destruct (H t) as (H0 & H1 & H2 & H3). unfold qnorm2. eapply D_eq.
    - repeat first [apply D_plus|apply D_mult]; eassumption.
    - dyn. field. }
  split; [exact C|]. intros U u t. cbv zeta.
  pose proof (C t) as Ut. unfold qunit in U. rewrite U in Ut. clear C U.
  destruct (H t) as (H0 & H1 & H2 & H3). clear H.
  assert (F : forall P Q : R, Q * (1 - qnorm2 (q t)) = P -> P = 0)
    by (intros P Q <-; rewrite Ut; ring).
  unfold mulMV, qtom. cbn [m_0 m_1 m_2 m_3 m_4 m_5 m_6 m_7 m_8 v_0 v_1 v_2].
  cbv beta zeta iota delta [n0 n1 nadd nsub nmul two ndec RNum Rdec].
  destruct u as [x y z]. cbn [v_0 v_1 v_2].
  repeat split; (eapply D_eq;
    [repeat first [apply D_minus|apply D_plus|apply D_mult|eassumption|apply D_const]|];
    dyn; destruct (q t) as [a b c d]; destruct (w t) as [p r s]; cbn [q_0 q_1 q_2 q_3 v_0 v_1 v_2] in *;
    apply Rminus_diag_uniq).
  - apply (F _ (z*r - y*s)). field.
  - apply (F _ (x*s - z*p)). field.
  - apply (F _ (y*p - x*r)). field.
Qed.
Print Assumptions C128_motion.

(** In binary64 the way back from the matrix fails next to half turns: some quaternions
    that are not half turns are refused, and others come back far from unit length. *)
Theorem C128_round_trip_binary64_refuted : exists q r p : q4 float,
  (nlt n0 (q_0 q) = true /\ dot4 q q = n1 /\ mtoq PrimFloat.sqrt (qtom q) = None) /\
  (nlt (nabs (dot4 r r -~ n1)) (ndec 1 (-15)) = true /\ mtoq PrimFloat.sqrt (qtom r) = Some p /\
   nlt (dot4 p p) (ndec 3 (-1)) = true).
Proof.
  set (r := Q4 8e-9%float 0x1.fffffffffffffp-1%float 0%float 0%float).
  exists (Q4 7e-9 1 0 0)%float, r.
  match goal with |- context [mtoq PrimFloat.sqrt (qtom r)] =>
    let F := eval vm_compute in (mtoq PrimFloat.sqrt (qtom r)) in
    match F with Some ?P => exists P end end.
  vm_compute. auto 10.
Qed.
Print Assumptions C128_round_trip_binary64_refuted.
(** Nothing becomes of the zero quaternion: the result is not a number. *)
Theorem C128_normalize_zero_refuted :
  PrimFloat.is_nan (q_0 (normalizeQ PrimFloat.sqrt (Q4 0 0 0 0)%float)) = true.
Proof. vm_compute. reflexivity. Qed.

(** ** Examples *)
(** A quarter turn about the third axis. *)
Definition ex_q : q4 R := Q4 (sqrt 2 / 2) 0 0 (- (sqrt 2 / 2)).
Lemma sqrt22 : sqrt 2 * sqrt 2 = 2.
Proof. apply sqrt_sqrt. lra. Qed.
Example ex_q_unit : qunit ex_q /\ mulMV (qtom ex_q) (V3 1 0 0) = V3 0 (-1) 0 /\ qtom ex_q = elem 3 (PI / 2).
Proof.
  pose proof sqrt22 as H. unfold ex_q, elem. rewrite cos_PI2, sin_PI2. dyn.
  repeat split; try (f_equal; nra); nra.
Qed.
Example ex_half_turn : mtoq sqrt (qtom (Q4 0 1 0 0)) = None.
Proof. pose proof (C128_round_trip (Q4 0 1 0 0)) as H. destruct (mtoq _ _); [|reflexivity].
  exfalso. destruct H as [H _]; [dyn; ring|]. apply H. reflexivity.
Qed.
Example ex_normalize : normalizeQ sqrt (Q4 3 0 0 4) = Q4 (3/5) 0 0 (4/5).
Proof.
  rewrite normalizeQ_eq. replace (qnorm2 (Q4 3 0 0 4)) with 25 by (dyn; ring).
  rewrite Rltb_false by (rewrite Rabs_left; lra).
  replace 25 with (5 * 5) by ring. rewrite sqrt_square by lra. dyn. f_equal; field.
Qed.
(** Turning steadily about the third axis. *)
Example ex_motion : moves (fun t => Q4 (cos t) 0 0 (- sin t)) (fun _ => V3 0 0 2).
Proof.
  intro t. split; [|split; [|split]].
  - eapply D_eq; [apply derivable_pt_lim_cos|]. dyn. field.
  - eapply D_eq; [apply (D_const 0)|]. dyn. field.
  - eapply D_eq; [apply (D_const 0)|]. dyn. field.
  - eapply D_eq; [apply (derivable_pt_lim_opp sin t (cos t)), derivable_pt_lim_sin|]. dyn. field.
Qed.
