(** The integration of the state of a rigid body (C131). *)
From Coq Require Import Floats.
From Coq Require Import Reals Bool ZArith Lra Lia List Psatz.
From Verif Require Import Num MathUtil Dyn Spec_Dyn Props_Dyn Props_DynEuler.
Import ListNotations.
Open Scope R_scope.

Lemma abs_le x y : Rabs x <= y <-> - y <= x <= y.
Proof.
  split; [intro H; pose proof (Rle_abs x); pose proof (Rle_abs (- x)); rewrite Rabs_Ropp in *; lra|].
  intro H. unfold Rabs. destruct (Rcase_abs x); lra.
Qed.

(** ** Small changes of the angles *)
Definition trig_near (k t u : R) : Prop := Rabs (cos t - cos u) <= k /\ Rabs (sin t - sin u) <= k.
Lemma elem_near k axis t u : 0 <= k -> trig_near k t u -> mnear k (elem axis t) (elem axis u).
Proof.
  intros K [C S]. apply abs_le in C. apply abs_le in S.
  destruct axis as [|[|[|axis]]]; unfold mnear, elem; dfields; repeat split; apply abs_le; lra.
Qed.
Definition bounded (m : m9 R) : Prop := mnear 1 m (M9 0 0 0 0 0 0 0 0 0).
Lemma elem_bounded axis t : bounded (elem axis t).
Proof.
  pose proof (COS_bound t). pose proof (SIN_bound t).
  destruct axis as [|[|[|axis]]]; unfold bounded, mnear, elem; dfields; repeat split; apply abs_le; lra.
Qed.
Lemma prod_near a b a' b' x y : Rabs (a - a') <= x -> Rabs (b - b') <= y -> Rabs (a' - 0) <= 1 -> Rabs (b - 0) <= 1 ->
  Rabs (a * b - a' * b') <= x + y.
Proof.
  rewrite !Rminus_0_r. intros A B A1 B1. replace (a * b - a' * b') with ((a - a') * b + a' * (b - b')) by ring.
  eapply Rle_trans; [apply Rabs_triang|]. rewrite !Rabs_mult.
  pose proof (Rabs_pos (a - a')). pose proof (Rabs_pos (b - b')). pose proof (Rabs_pos a'). pose proof (Rabs_pos b).
  apply Rplus_le_compat; nra.
Qed.
Lemma dot_near a0 a1 a2 b0 b1 b2 c0 c1 c2 d0 d1 d2 x y :
  Rabs (a0 - c0) <= x -> Rabs (a1 - c1) <= x -> Rabs (a2 - c2) <= x ->
  Rabs (b0 - d0) <= y -> Rabs (b1 - d1) <= y -> Rabs (b2 - d2) <= y ->
  Rabs (c0 - 0) <= 1 -> Rabs (c1 - 0) <= 1 -> Rabs (c2 - 0) <= 1 ->
  Rabs (b0 - 0) <= 1 -> Rabs (b1 - 0) <= 1 -> Rabs (b2 - 0) <= 1 ->
  Rabs ((a0 * b0 + a1 * b1 + a2 * b2) - (c0 * d0 + c1 * d1 + c2 * d2)) <= 3 * (x + y).
Proof.
  intros. pose proof (prod_near a0 b0 c0 d0 x y). pose proof (prod_near a1 b1 c1 d1 x y).
  pose proof (prod_near a2 b2 c2 d2 x y).
  replace ((a0 * b0 + a1 * b1 + a2 * b2) - (c0 * d0 + c1 * d1 + c2 * d2))
    with ((a0 * b0 - c0 * d0) + (a1 * b1 - c1 * d1) + (a2 * b2 - c2 * d2)) by ring.
  eapply Rle_trans; [apply Rabs_triang|]. eapply Rle_trans; [apply Rplus_le_compat_r, Rabs_triang|].
  repeat match goal with H : _ -> _ |- _ => specialize (H ltac:(assumption)) end. lra.
Qed.
Lemma mmul_near a b c d x y : mnear x a c -> mnear y b d -> bounded c -> bounded b ->
  mnear (3 * (x + y)) (mmul a b) (mmul c d).
Proof.
  intros (? & ? & ? & ? & ? & ? & ? & ? & ?) (? & ? & ? & ? & ? & ? & ? & ? & ?)
    (? & ? & ? & ? & ? & ? & ? & ? & ?) (? & ? & ? & ? & ? & ? & ? & ? & ?).
  destruct a, b, c, d. unfold mnear, mmul, vdot, row0, row1, row2, col0, col1, col2. dfields.
  repeat split; apply dot_near; assumption.
Qed.
Lemma orth_bounded a b : bounded a -> is_rotation a -> bounded b -> is_rotation b -> bounded (mmul a b).
Proof.
  intros _ A _ B.
  assert (R : is_rotation (mmul a b)).
  { destruct (rotation_cols b B) as (L0 & L1 & L2 & L01 & L02 & L12).
    destruct A as (A0 & A1 & A2 & A01 & A02 & A12 & AD). destruct B as (B0 & B1 & B2 & B01 & B02 & B12 & BD).
    destruct a as [a b' c d e f g h i], b as [k l m n o p q r s]. dyn.
    repeat split.
    - transitivity ((k*k+l*l+m*m)*(a*a) + (n*n+o*o+p*p)*(b'*b') + (q*q+r*r+s*s)*(c*c)
        + 2*(k*n+l*o+m*p)*(a*b') + 2*(k*q+l*r+m*s)*(a*c) + 2*(n*q+o*r+p*s)*(b'*c)); [ring|].
      rewrite B0, B1, B2, B01, B02, B12. lra.
    - transitivity ((k*k+l*l+m*m)*(d*d) + (n*n+o*o+p*p)*(e*e) + (q*q+r*r+s*s)*(f*f)
        + 2*(k*n+l*o+m*p)*(d*e) + 2*(k*q+l*r+m*s)*(d*f) + 2*(n*q+o*r+p*s)*(e*f)); [ring|].
      rewrite B0, B1, B2, B01, B02, B12. lra.
    - transitivity ((k*k+l*l+m*m)*(g*g) + (n*n+o*o+p*p)*(h*h) + (q*q+r*r+s*s)*(i*i)
        + 2*(k*n+l*o+m*p)*(g*h) + 2*(k*q+l*r+m*s)*(g*i) + 2*(n*q+o*r+p*s)*(h*i)); [ring|].
      rewrite B0, B1, B2, B01, B02, B12. lra.
    - transitivity ((k*k+l*l+m*m)*(a*d) + (n*n+o*o+p*p)*(b'*e) + (q*q+r*r+s*s)*(c*f)
        + (k*n+l*o+m*p)*(a*e+b'*d) + (k*q+l*r+m*s)*(a*f+c*d) + (n*q+o*r+p*s)*(b'*f+c*e)); [ring|].
      rewrite B0, B1, B2, B01, B02, B12. lra.
    - transitivity ((k*k+l*l+m*m)*(a*g) + (n*n+o*o+p*p)*(b'*h) + (q*q+r*r+s*s)*(c*i)
        + (k*n+l*o+m*p)*(a*h+b'*g) + (k*q+l*r+m*s)*(a*i+c*g) + (n*q+o*r+p*s)*(b'*i+c*h)); [ring|].
      rewrite B0, B1, B2, B01, B02, B12. lra.
    - transitivity ((k*k+l*l+m*m)*(d*g) + (n*n+o*o+p*p)*(e*h) + (q*q+r*r+s*s)*(f*i)
        + (k*n+l*o+m*p)*(d*h+e*g) + (k*q+l*r+m*s)*(d*i+f*g) + (n*q+o*r+p*s)*(e*i+f*h)); [ring|].
      rewrite B0, B1, B2, B01, B02, B12. lra.
    - transitivity (((b'*f-c*e)*g + (c*d-a*f)*h + (a*e-b'*d)*i) * ((l*p-m*o)*q + (m*n-k*p)*r + (k*o-l*n)*s)); [ring|].
      rewrite AD, BD. ring. }
  destruct R as (R0 & R1 & R2 & _).
  destruct (unit_row _ _ _ R0) as (? & ? & ?). destruct (unit_row _ _ _ R1) as (? & ? & ?).
  destruct (unit_row _ _ _ R2) as (? & ? & ?). unfold bounded, mnear. cbn [m_0 m_1 m_2 m_3 m_4 m_5 m_6 m_7 m_8].
  unfold row0, row1, row2 in *. dfields. rewrite !Rminus_0_r. repeat split; apply abs_le; lra.
Qed.
Lemma elem_rotation axis t : is_rotation (elem axis t).
Proof.
  pose proof (sin2_cos2 t) as Q. unfold Rsqr in Q.
  destruct axis as [|[|[|axis]]]; unfold elem; dyn; repeat split; lra.
Qed.
Lemma euler_near s a b k : 0 <= k -> trig_near k (v_0 a) (v_0 b) -> trig_near k (v_1 a) (v_1 b) ->
  trig_near k (v_2 a) (v_2 b) -> mnear (21 * k) (euler_matrix s a) (euler_matrix s b).
Proof.
  intros K T0 T1 T2. unfold euler_matrix. destruct (axes s) as [[x y] z].
  replace (21 * k) with (3 * (k + 3 * (k + k))) by ring.
  apply mmul_near.
  - now apply elem_near.
  - apply mmul_near; try apply elem_bounded; now apply elem_near.
  - apply elem_bounded.
  - apply orth_bounded; try apply elem_bounded; apply elem_rotation.
Qed.
Lemma mnear_trans x y a b c : mnear x a b -> mnear y b c -> mnear (x + y) a c.
Proof.
  intros (? & ? & ? & ? & ? & ? & ? & ? & ?) (? & ? & ? & ? & ? & ? & ? & ? & ?).
  unfold mnear. rewrite !abs_le in *. lra.
Qed.
Lemma mnear_weaken x y a b : x <= y -> mnear x a b -> mnear y a b.
Proof. intros L (? & ? & ? & ? & ? & ? & ? & ? & ?). unfold mnear. rewrite !abs_le in *. lra. Qed.

(** ** A quaternion a little shorter than a unit *)
Lemma scale_bound a x b : 0 <= a -> - b <= x <= b -> - (a * b) <= a * x <= a * b.
Proof. intros. split; nra. Qed.
(** The direction of a point that is moved a little. *)
Lemma dir_near c d dl n x y x' y' : 0 < c -> x * x + y * y = c * c -> 0 <= dl -> n = 1 - dl -> 0 <= d <= dl ->
  dl < n * c -> x' = d + n * x -> y' = n * y ->
  trig_near (2 * dl / (n * c - dl)) (atan2R y' x') (atan2R y x).
Proof.
  intros C E D N DD L X Y.
  destruct (polar_atan2 x y (two_nonzero _ _ _ E (Rmult_lt_0_compat _ _ C C))) as (P1 & P2 & P3 & P4 & _).
  assert (CE : sqrt (x * x + y * y) = c) by (rewrite E; apply sqrt_square; lra).
  rewrite CE in P3, P4. clear P1 P2 CE.
  set (t := atan2R y x) in *. clearbody t.
  assert (NP : 0 < n) by (destruct (Rle_lt_dec n 0); [nra|assumption]).
  assert (XB : - c <= x <= c) by (apply (small2 x y c E); lra).
  assert (R2 : (n * c - dl) * (n * c - dl) <= x' * x' + y' * y' <= (n * c + dl) * (n * c + dl)).
  { assert (Q : x' * x' + y' * y' = n * n * (c * c) + 2 * d * n * x + d * d) by (rewrite <- E; subst x' y'; ring).
    rewrite Q. assert (0 <= n * c) by nra. pose proof (scale_bound d (n * x) (n * c) (proj1 DD) (scale_bound n x c ltac:(lra) XB)) as SBd.
    assert (d * (n * c) <= dl * (n * c)) by (apply Rmult_le_compat_r; lra).
    assert (0 <= d * d <= dl * dl) by (split; [apply (Rle_0_sqr d)|apply Rmult_le_compat; lra]).
    assert ((n * c - dl) * (n * c - dl) <= (n * c - d) * (n * c - d)) by (apply Rmult_le_compat; lra).
    split; lra. }
  assert (RP : 0 < x' * x' + y' * y') by nra.
  destruct (polar_atan2 x' y' (two_nonzero _ _ _ eq_refl RP)) as (Q1 & Q2 & Q3 & Q4 & _).
  set (r := sqrt (x' * x' + y' * y')) in *. clearbody r. set (u := atan2R y' x') in *. clearbody u.
  assert (RB : n * c - dl <= r <= n * c + dl) by (split; nra).
  pose proof (COS_bound t) as CB. pose proof (SIN_bound t) as SB.
  assert (W : forall v, - (2 * dl) <= r * v <= 2 * dl -> Rabs v <= 2 * dl / (n * c - dl)).
  { intros v V. apply abs_le.
    assert (I : 0 < / (n * c - dl)) by (apply Rinv_0_lt_compat; lra).
    assert (V2 : - (2 * dl) <= (n * c - dl) * v <= 2 * dl).
    { destruct (Rle_dec 0 v); split; nra. }
    unfold Rdiv. assert (J : v = ((n * c - dl) * v) * / (n * c - dl)) by (field; lra). split; nra. }
  split; apply W.
  - replace (r * (cos u - cos t)) with (d + (n * c - r) * cos t) by (rewrite Rmult_minus_distr_l, <- Q3, X, P3; ring).
    split; nra.
  - replace (r * (sin u - sin t)) with ((n * c - r) * sin t) by (rewrite Rmult_minus_distr_l, <- Q4, Y, P4; ring).
    split; nra.
Qed.
(** The matrix of a quaternion of any length. *)
Lemma qtom_scaled u k : qunit u -> qtom (qscale k u) =
  let n := k * k in let m := qtom u in
  M9 ((1 - n) + n * m_0 m) (n * m_1 m) (n * m_2 m) (n * m_3 m) ((1 - n) + n * m_4 m) (n * m_5 m)
     (n * m_6 m) (n * m_7 m) ((1 - n) + n * m_8 m).
Proof. intros U. destruct u. dyn. f_equal; ring. Qed.
Lemma rot2sin_scaled s u k : qunit u -> rot2sin s (qscale k u) = k * k * rot2sin s u.
Proof.
  intro U. unfold rot2sin. rewrite (qtom_scaled u k U). destruct s; cbn [m_0 m_1 m_2 m_3 m_4 m_5 m_6 m_7 m_8 nopp RNum]; ring.
Qed.
Lemma sin_tol_ge : 99 / 100000000 <= sin (1 / 1000000).
Proof.
  pose proof PI2_1 as P1.
  destruct (SIN (1 / 1000000)) as [L _]; [lra|lra|]. eapply Rle_trans; [|exact L].
  unfold sin_lb, sin_approx, sin_term, sum_f_R0. cbn [Nat.mul Nat.add fact pow INR].
  lra.
Qed.
Lemma asin_near r n dl : -1 < r < 1 -> n = 1 - dl -> 0 <= dl <= 15 / 1000000000000000 ->
  81 / 100000000000000 <= 1 - r * r -> trig_near (4 / 100000000) (asin (n * r)) (asin r).
Proof.
  intros B N D C.
  assert (B' : -1 < n * r < 1) by (subst n; split; nra).
  destruct (asin_facts r B) as (P1 & P2 & P3 & _). destruct (asin_facts (n * r) B') as (Q1 & Q2 & Q3 & _).
  unfold trig_near. rewrite P3, Q3. set (x := cos (asin r)) in *. set (y := cos (asin (n * r))) in *.
  clearbody x y.
  assert (R2 : 0 <= r * r <= 1) by (split; [apply (Rle_0_sqr r)|lra]).
  assert (X : 9 / 10000000 <= x) by nra.
  assert (XY : 0 <= y * y - x * x <= 30 / 1000000000000000).
  { replace (y * y - x * x) with (r * r * (2 * dl - dl * dl)) by (rewrite P2, Q2; subst n; ring).
    assert (0 <= 2 * dl - dl * dl <= 30 / 1000000000000000) by (split; nra). split; nra. }
  split; apply abs_le; [|subst n; split; nra].
  assert (x <= y) by nra. split; [lra|]. nra.
Qed.

(** The Euler angles of such a quaternion are those of the rotation of its direction, to
    about one part in a million. *)
Ltac dn DN SM z d E :=
  apply (DN _ _ z d);
  [lra|match goal with |- - _ <= z <= _ => idtac end;
       match goal with w : R |- _ => destruct (SM z w) as [? ?]; [rewrite E; lra|assumption] end
  |lra|lra|lra].
Lemma near_update s e u k : qunit u -> 0 < k -> 1 - 15 / 1000000000000000 <= k * k <= 1 ->
  mnear (11 / 10000000) (euler_matrix s (e_ang (fst (eupdate s e (qscale k u))))) (qtom u).
Proof.
  intros U KP KB.
  pose proof (proj1 (C128_matrix u vzero U)) as H. pose proof (rot2sin_le s u) as L.
  unfold qunit in U. rewrite U in L. pose proof tol_pos as TP.
  pose proof (rot2sin_scaled s u k U) as RS. pose proof (qtom_scaled u k U) as QS. cbv zeta in QS.
  rewrite update_cases. cbv zeta. rewrite RS.
  set (n := k * k) in *. assert (N : n = 1 - (1 - n)) by ring.
  set (dl := 1 - n) in *. assert (DB : 0 <= dl <= 15 / 1000000000000000) by (unfold dl; lra). clearbody dl. clearbody n.
  set (r := rot2sin s u) in *. assert (E : r = rot2sin s u) by reflexivity. clearbody r.
  assert (NP : 0 < n) by lra.
  assert (A : Rabs (n * r) = n * Rabs r) by (rewrite Rabs_mult, (Rabs_right n) by lra; reflexivity).
  assert (RR : Rabs r * Rabs r = r * r) by (rewrite <- Rabs_mult; apply Rabs_right, Rle_ge, (Rle_0_sqr r)).
  pose proof (Rabs_pos r) as RP.
  rewrite (Rleb_true (Rabs (n * r)) 1) by (rewrite A; nra).
  pose proof (sin2_cos2 (1/1000000)) as SC. unfold Rsqr in SC.
  destruct (Rltb_spec (Rabs (n * r)) (cos (1/1000000))) as [T|T]; cbn [fst e_ang].
  - assert (CL : 81 / 100000000000000 <= 1 - r * r).
    { pose proof sin_tol_ge as SL. rewrite A in T.
      assert (T2 : (n * Rabs r) * (n * Rabs r) <= cos (1/1000000) * cos (1/1000000)) by (apply Rmult_le_compat; nra).
      assert (T3 : n * n * (r * r) <= 1 - 98 / 100000000000000) by (rewrite <- RR; nra).
      assert (T4 : 1 - 30 / 1000000000000000 <= n * n) by nra.
      destruct (Rle_lt_dec (81 / 100000000000000) (1 - r * r)) as [|Z]; [assumption|exfalso].
      assert ((1 - 30 / 1000000000000000) * (1 - 81 / 100000000000000) <= n * n * (r * r)) by (apply Rmult_le_compat; lra).
      lra. }
    assert (B : -1 < r < 1) by (split; nra).
    destruct (no_sing_exact s u r H E B) as (NE & _).
    destruct (asin_facts r B) as (CP & CC & _ & _).
    set (C := cos (asin r)) in *. clearbody C.
    assert (CG : 9 / 10000000 <= C) by nra.
    assert (NC : 8 / 10000000 <= n * C - dl) by nra.
    eapply (mnear_weaken (21 * (4 / 100000000))); [lra|]. rewrite <- NE.
    assert (DN : forall x y x' y', x * x + y * y = C * C -> x' = dl + n * x -> y' = n * y ->
      trig_near (4 / 100000000) (atan2R y' x') (atan2R y x)).
    { intros x y x' y' E1 E2 E3.
      destruct (dir_near C dl dl n x y x' y' CP E1 (proj1 DB) N) as [D1 D2]; try assumption; [lra|lra|].
      assert (2 * dl / (n * C - dl) <= 4 / 100000000).
      { apply (Rmult_le_reg_r (n * C - dl)); [lra|]. unfold Rdiv at 1. rewrite Rmult_assoc, Rinv_l by lra. lra. }
      split; lra. }
    assert (DA : trig_near (4 / 100000000) (asin (n * r)) (asin r)) by (now apply asin_near with (dl := dl)).
    clear NE.
    destruct s; (apply euler_near; [lra|..]); unfold angles_no_sing; rewrite QS;
      cbn [v_0 v_1 v_2 m_0 m_1 m_2 m_3 m_4 m_5 m_6 m_7 m_8 nopp RNum]; try exact DA;
      clear QS; unfold rot2sin in E; cbn [nopp RNum] in E;
      generalize dependent (qtom u); intros m H E;
      rot_facts m H; destruct m as [a b c d e' f g h i]; dyn;
      (apply DN; [rewrite CC, E; lra|reflexivity|ring]).
  - rewrite A in T.
    assert (RT : cos (1/1000000) <= Rabs r) by nra.
    assert (KK : 0 <= 1 - r * r <= 1 / 1000000000000).
    { pose proof sin_tol_le as ST. rewrite <- RR. split; nra. }
    assert (K2 : sqrt (1 - r * r) * sqrt (1 - r * r) = 1 - r * r) by (apply sqrt_sqrt; lra).
    assert (K1 : 0 <= sqrt (1 - r * r) <= 1 / 1000000) by (pose proof (sqrt_pos (1 - r * r)); split; nra).
    destruct (sing_near s u r _ H E K1 K2) as [SP SN].
    assert (DN : forall x y z d x' y', x * x + y * y + z * z = 1 -> - (1 / 1000000) <= z <= 1 / 1000000 -> 0 <= d <= dl ->
      x' = d + n * x -> y' = n * y -> trig_near (4 / 100000000000000) (atan2R y' x') (atan2R y x)).
    { intros x y z d x' y' E1 ZB Dd E2 E3.
      assert (Z2 : 0 <= z * z <= 1 / 1000000000000) by (split; [apply (Rle_0_sqr z)|nra]).
      set (c := sqrt (x * x + y * y)). assert (C2 : c * c = x * x + y * y) by (apply sqrt_sqrt; lra).
      assert (CP : 0 <= c) by apply sqrt_pos. clearbody c. assert (CG : 99 / 100 <= c) by nra.
      assert (NC : 9 / 10 <= n * c - dl) by nra.
      destruct (dir_near c d dl n x y x' y') as [D1 D2]; try lra.
      assert (2 * dl / (n * c - dl) <= 4 / 100000000000000).
      { apply (Rmult_le_reg_r (n * c - dl)); [lra|]. unfold Rdiv at 1. rewrite Rmult_assoc, Rinv_l by lra. lra. }
      split; lra. }
    assert (TR : forall t, trig_near (4 / 100000000000000) t t)
      by (intro t; split; rewrite Rminus_diag_eq, Rabs_R0 by reflexivity; lra).
    assert (FIN : forall a b, mnear (sqrt (1 - r * r)) (euler_matrix s b) (qtom u) ->
      trig_near (4 / 100000000000000) (v_0 a) (v_0 b) -> v_1 a = v_1 b -> v_2 a = v_2 b ->
      mnear (11 / 10000000) (euler_matrix s a) (qtom u)).
    { intros a b Mb T0 T1 T2. eapply mnear_weaken; [|eapply mnear_trans; [apply (euler_near s a b (4 / 100000000000000)); [lra|exact T0|rewrite T1; apply TR|rewrite T2; apply TR]|exact Mb]]. lra. }
    assert (RZ : r <> 0) by (intros ->; rewrite Rabs_R0 in RT; lra).
    assert (SM : forall x y, x * x + y * y = 1 - r * r -> - (1/1000000) <= x <= 1/1000000 /\ - (1/1000000) <= y <= 1/1000000).
    { intros x y Exy. rewrite <- K2 in Exy. destruct (small2 _ _ _ Exy (proj1 K1)). lra. }
    destruct (Rltb_spec 0 (n * r)) as [S|S]; cbn [fst e_ang].
    + destruct SP as [S1 S2]; [nra|]. apply (FIN _ _ S1); try reflexivity. clear FIN S1 S2 SN.
      unfold angles_pos_sing. rewrite QS. cbn [v_0]. destruct s; cbn [m_0 m_1 m_2 m_3 m_4 m_5 m_6 m_7 m_8];
      clear QS; unfold rot2sin in E; cbn [nopp RNum] in E;
      generalize dependent (qtom u); intros m H E; rot_facts m H; destruct m as [a b c d e' f g h i]; dyn.
      * dn DN SM h dl E.
      * dn DN SM a 0 E.
      * dn DN SM g dl E.
      * dn DN SM h dl E.
      * dn DN SM c dl E.
      * dn DN SM i 0 E.
    + destruct SN as [S1 S2]; [nra|]. apply (FIN _ _ S1); try reflexivity. clear FIN S1 S2 SP.
      unfold angles_neg_sing. rewrite QS. cbn [v_0]. destruct s; cbn [m_0 m_1 m_2 m_3 m_4 m_5 m_6 m_7 m_8];
      clear QS; unfold rot2sin in E; cbn [nopp RNum] in E;
      generalize dependent (qtom u); intros m H E; rot_facts m H; destruct m as [a b c d e' f g h i]; dyn.
      * dn DN SM h dl E.
      * dn DN SM a 0 E.
      * dn DN SM g dl E.
      * dn DN SM h dl E.
      * dn DN SM c dl E.
      * dn DN SM i 0 E.
Qed.

Lemma near_matrix u k : qunit u -> 1 - 15 / 1000000000000000 <= k * k <= 1 ->
  mnear (3 / 100000000000000) (qtom (qscale k u)) (qtom u).
Proof.
  intros U KB. rewrite (qtom_scaled u k U). cbv zeta.
  pose proof (proj1 (C128_matrix u vzero U)) as H.
  set (n := k * k) in *. clearbody n. generalize dependent (qtom u). intros m H.
  rot_facts m H. destruct m as [a b c d e f g h i]. dyn. unfold mnear.
  cbn [m_0 m_1 m_2 m_3 m_4 m_5 m_6 m_7 m_8] in *.
  assert (B : forall x y z, x * x + y * y + z * z = 1 ->
    (-1 <= x <= 1) /\ (-1 <= y <= 1) /\ (-1 <= z <= 1)).
  { clear. intros x y z H. pose proof (Rle_0_sqr x). pose proof (Rle_0_sqr y). pose proof (Rle_0_sqr z). unfold Rsqr in *.
    repeat split; nra. }
  assert (Q : forall x, -1 <= x <= 1 -> Rabs (n * x - x) <= 3 / 100000000000000)
    by (intros x X; apply Rabs_le; clear - X KB; nra).
  assert (P : forall x, -1 <= x <= 1 -> Rabs (1 - n + n * x - x) <= 3 / 100000000000000)
    by (intros x X; apply Rabs_le; clear - X KB; nra).
  destruct (B a b c) as (? & ? & ?); [assumption|].
  destruct (B d e f) as (? & ? & ?); [assumption|].
  destruct (B g h i) as (? & ? & ?); [assumption|].
  repeat split; auto.
Qed.

(** One integration pass, for any integrator that leaves a quaternion other than zero:
    position, velocity and angular velocity are what it made of them, from the velocity, the
    acceleration turned into the inertial frame, the quaternion rate and the angular
    acceleration; the quaternion keeps its direction and has length one but for 1e-14; the
    matrix is that of the new quaternion, and it and the Euler angles describe the rotation of
    that direction; the Euler extraction never throws; the angular speed fits, and its unit
    vector too unless the body has all but stopped. *)
Theorem C131_integ : forall s integ acc angacc qd b p v q w,
  integ (b_pos b, b_vel b, b_q b, b_w b) (b_vel b, tvec (b_m b) acc, qd, angacc) = (p, v, q, w) ->
  0 < qnorm2 q ->
  let '(b', threw) := @eom_integ R RNum sqrt sin asin atan2R (PI/2) s integ acc angacc qd b in
  let unit := qscale (/ sqrt (qnorm2 q)) q in
  threw = false /\
  b_pos b' = p /\ b_vel b' = v /\ b_w b' = w /\
  (exists k, 0 < k /\ b_q b' = qscale k q) /\
  1 - 15 / 1000000000000000 <= qnorm2 (b_q b') <= 1 /\
  b_m b' = qtom (b_q b') /\
  is_rotation (qtom unit) /\
  mnear (3 / 100000000000000) (b_m b') (qtom unit) /\
  mnear (11 / 10000000) (euler_matrix s (e_ang (b_eul b'))) (qtom unit) /\
  b_wmag b' = sqrt (vdot w w) /\
  (Reps < b_wmag b' -> vscale (b_wmag b') (b_wunit b') = w) /\
  (b_wmag b' <= Reps -> b_wunit b' = b_wunit b).
Proof.
  intros s integ acc angacc qd b p v q w E P. unfold eom_integ.
  replace (mulMtV (b_m b) acc) with (tvec (b_m b) acc)
    by (destruct (b_m b), acc; dyn; f_equal; ring).
  rewrite E.
  destruct (C128_normalize q P) as ((k & KP & NK) & NB & _ & _).
  set (r := sqrt (qnorm2 q)). assert (R2 : r * r = qnorm2 q) by (apply sqrt_sqrt; lra).
  assert (R0 : 0 < r) by (apply sqrt_lt_R0; exact P).
  set (u := qscale (/ r) q).
  assert (U : qunit u).
  { unfold u, qunit. rewrite qnorm2_scale, <- R2. field. lra. }
  assert (QU : qscale k q = qscale (k * r) u).
  { unfold u. destruct q; dyn; f_equal; field; lra. }
  rewrite NK in *. rewrite QU in *. 
  assert (KR : 0 < k * r) by (apply Rmult_lt_0_compat; assumption).
  rewrite qnorm2_scale in NB. unfold qunit in U. rewrite U, Rmult_1_r in NB. fold (qunit u) in U.
  pose proof (near_update s (b_eul b) u (k * r) U KR NB) as NU.
  pose proof (near_matrix u (k * r) U NB) as NM.
  destruct (C129_throws s (b_eul b) (qscale (k * r) u)) as (_ & T2 & _).
  unfold eupdate in *.
  destruct (euler_update sin asin atan2R (PI / 2) s (b_eul b) (qscale (k * r) u)) as [e' th].
  cbn [fst snd b_pos b_vel b_q b_m b_w b_wmag b_wunit b_eul] in *.
  assert (MG : mag3 sqrt w = sqrt (vdot w w)) by (unfold mag3; destruct w; dyn; f_equal; ring).
  rewrite MG. cbn [neps nlt RNum n1 ndiv].
  assert (N2 : qnorm2 (qscale (k * r) u) = (k * r) * (k * r)).
  { rewrite qnorm2_scale. unfold qunit in U. rewrite U. ring. }
  repeat match goal with |- _ /\ _ => split end; auto.
  - apply T2. rewrite N2. lra.
  - exists k. split; [assumption|reflexivity || (symmetry; exact QU)].
  - rewrite N2. lra.
  - rewrite N2. lra.
  - apply (proj1 (C128_matrix u vzero U)).
  - intro L. rewrite Rltb_true by exact L. pose proof Reps_pos as RP.
    set (g := sqrt (vdot w w)) in *. clearbody g. destruct w; dyn. f_equal; field; lra.
  - intro L. rewrite Rltb_false by exact L. reflexivity.
Qed.
Print Assumptions C131_integ.

(** A body turning about its long axis, integrated by one step of Euler's rule. *)
Definition euler_step (h : R) (x d : v3 R * v3 R * q4 R * v3 R) : v3 R * v3 R * q4 R * v3 R :=
  let '(p, v, q, w) := x in let '(dp, dv, dq, dw) := d in
  (vadd p (vscale h dp), vadd v (vscale h dv),
   Q4 (q_0 q + h * q_0 dq) (q_1 q + h * q_1 dq) (q_2 q + h * q_2 dq) (q_3 q + h * q_3 dq),
   vadd w (vscale h dw)).
Example ex_integ : forall e, let b := mkbody (V3 0 0 0) (V3 1 0 0) (Q4 1 0 0 0) mid (V3 0 0 2) 2 (V3 0 0 1) e in
  let '(b', threw) := @eom_integ R RNum sqrt sin asin atan2R (PI/2) S321 (euler_step (1/2)) (V3 0 4 0) vzero
    (qdot (Q4 1 0 0 0) (V3 0 0 2)) b in
  threw = false /\ b_pos b' = V3 (1/2) 0 0 /\ b_vel b' = V3 1 2 0 /\ b_wunit b' = V3 0 0 1.
Proof.
  intros e b.
  assert (E : euler_step (1/2) (b_pos b, b_vel b, b_q b, b_w b)
    (b_vel b, tvec (b_m b) (V3 0 4 0), qdot (Q4 1 0 0 0) (V3 0 0 2), vzero)
    = (V3 (1/2) 0 0, V3 1 2 0, Q4 1 0 0 (-1/2), V3 0 0 2)).
  { unfold b, euler_step. cbn [b_pos b_vel b_q b_w b_m]. dyn.
    repeat match goal with |- (_, _) = (_, _) => apply f_equal2 end; f_equal; lra. }
  assert (P : 0 < qnorm2 (Q4 1 0 0 (-1/2))) by (dyn; lra).
  pose proof (C131_integ S321 _ (V3 0 4 0) vzero (qdot (Q4 1 0 0 0) (V3 0 0 2)) b _ _ _ _ E P) as H.
  destruct (eom_integ _ _ _ _ _ _ _ _ _ _ _) as [b' th].
  destruct H as (H1 & H2 & H3 & _ & _ & _ & _ & _ & _ & _ & HM & HU & _).
  assert (S2 : sqrt (vdot (V3 0 0 2) (V3 0 0 2)) = 2).
  { replace (vdot (V3 0 0 2) (V3 0 0 2)) with (2 * 2) by (dyn; lra). apply sqrt_square; lra. }
  rewrite S2 in HM. rewrite HM in HU. pose proof Reps_small as RS.
  assert (W : vscale 2 (b_wunit b') = V3 0 0 2) by (apply HU; lra).
  destruct (b_wunit b') as [x y z]. dyn. injection W as -> || injection W; intros.
  repeat split; try assumption. f_equal; lra.
Qed.
