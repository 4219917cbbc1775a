(** Euler angles (C129). *)
From Coq Require Import Floats.
From Coq Require Import Reals Bool ZArith Lra Lia List Psatz.
From Verif Require Import Num MathUtil Dyn Spec_Dyn Props_Dyn.
Import ListNotations.
Open Scope R_scope.

(** ** atan2 *)
Lemma polar_atan2 x y : x <> 0 \/ y <> 0 ->
  let r := sqrt (x * x + y * y) in let t := atan2R y x in
  0 < r /\ r * r = x * x + y * y /\ x = r * cos t /\ y = r * sin t /\ - PI < t <= PI.
Proof.
  intros H r t.
  assert (P : 0 < x * x + y * y).
  { assert (0 <= x * x) by apply (Rle_0_sqr x). assert (0 <= y * y) by apply (Rle_0_sqr y).
    destruct H as [H|H].
    - assert (0 < x * x) by (apply (Rsqr_pos_lt x); exact H). lra.
    - assert (0 < y * y) by (apply (Rsqr_pos_lt y); exact H). lra. }
  assert (RP : 0 < r) by (apply sqrt_lt_R0; exact P).
  assert (R2 : r * r = x * x + y * y) by (apply sqrt_sqrt; lra).
  split; [exact RP|]. split; [exact R2|]. pose proof PI_RGT_0 as PP.
  pose proof (atan_bound (y / x)) as AB.
  assert (S : x <> 0 -> sqrt (1 + (y / x)²) = r / Rabs x).
  { intro X. apply Rsqr_inj; [apply sqrt_pos| |].
    - apply Rlt_le, Rdiv_lt_0_compat; [exact RP|apply Rabs_pos_lt; exact X].
    - rewrite Rsqr_sqrt by (assert (0 <= (y/x)²) by apply Rle_0_sqr; lra).
      unfold Rsqr. replace (r / Rabs x * (r / Rabs x)) with (r * r / (Rabs x * Rabs x))
        by (field; now apply Rabs_no_R0).
      rewrite R2, <- Rabs_mult, (Rabs_right (x * x)) by (apply Rle_ge, (Rle_0_sqr x)). field. exact X. }
  subst t. unfold atan2R.
  destruct (Rlt_dec 0 x) as [X|X].
  - rewrite cos_atan, sin_atan, S, (Rabs_right x) by lra.
    split; [field; lra|]. split; [field; lra|lra].
  - destruct (Rlt_dec x 0) as [X'|X'].
    + assert (C : cos (atan (y/x)) = - x / r /\ sin (atan (y/x)) = - y / r).
      { rewrite cos_atan, sin_atan, S, (Rabs_left x) by lra. split; field; lra. }
      destruct C as [C1 C2].
      assert (Q : y < 0 -> 0 < y / x).
      { intro Y. replace (y / x) with ((- y) / (- x)) by (field; lra). apply Rdiv_lt_0_compat; lra. }
      assert (Q' : ~ y < 0 -> y / x <= 0).
      { intro Y. replace (y / x) with (- (y / (- x))) by (field; lra).
        assert (0 <= y / - x) by (apply Rmult_le_pos; [lra|apply Rlt_le, Rinv_0_lt_compat; lra]). lra. }
      destruct (Rlt_dec y 0) as [Y|Y].
      * assert (A : 0 < atan (y/x)) by (rewrite <- atan_0; apply atan_increasing, Q; exact Y).
        rewrite cos_minus, sin_minus, cos_PI, sin_PI, C1, C2.
        split; [field; lra|]. split; [field; lra|lra].
      * assert (A : atan (y/x) <= 0).
        { destruct (Q' Y) as [Z|Z]; [|rewrite Z, atan_0; lra].
          apply Rlt_le. rewrite <- atan_0. now apply atan_increasing. }
        rewrite cos_plus, sin_plus, cos_PI, sin_PI, C1, C2.
        split; [field; lra|]. split; [field; lra|lra].
    + assert (x = 0) by lra. subst x. assert (RY : r * r = y * y) by lra.
      destruct (Rlt_dec 0 y) as [Y|Y].
      * assert (r = y) by nra. rewrite cos_PI2, sin_PI2. repeat split; lra.
      * destruct (Rlt_dec y 0) as [Y'|Y'].
        -- assert (r = - y) by nra. rewrite cos_neg, sin_neg, cos_PI2, sin_PI2. repeat split; lra.
        -- exfalso. destruct H as [H|H]; apply H; lra.
Qed.

Lemma angle_unique a b : - PI < a <= PI -> - PI < b <= PI -> cos a = cos b -> sin a = sin b -> a = b.
Proof.
  intros A B C S. pose proof PI_RGT_0 as PP.
  assert (K : sin ((a - b) / 2) = 0).
  { assert (E : cos (a - b) = 1).
    { rewrite cos_minus, C, S. pose proof (sin2_cos2 b) as Q. unfold Rsqr in Q. lra. }
    assert (E2 : cos (a - b) = 1 - 2 * sin ((a-b)/2) * sin ((a-b)/2)).
    { rewrite <- cos_2a_sin. f_equal. field. }
    nra. }
  apply sin_eq_0_0 in K as [k K].
  assert (k = 0%Z).
  { assert (-1 < IZR k < 1) as [L U] by (split; nra).
    apply (lt_IZR (-1)) in L. apply (lt_IZR _ 1) in U. lia. }
  subst k. lra.
Qed.
Lemma atan2_polar r t : 0 < r -> - PI < t <= PI -> atan2R (r * sin t) (r * cos t) = t.
Proof.
  intros P B. pose proof (sin2_cos2 t) as Q. unfold Rsqr in Q.
  destruct (polar_atan2 (r * cos t) (r * sin t)) as (H1 & H2 & H3 & H4 & H5).
  { destruct (Req_dec (cos t) 0) as [E|E].
    - right. intro Z. apply Rmult_integral in Z as [Z|Z]; [lra|]. rewrite E, Z in Q. lra.
    - left. intro Z. apply Rmult_integral in Z as [Z|Z]; lra. }
  assert (E : sqrt (r * cos t * (r * cos t) + r * sin t * (r * sin t)) = r).
  { replace (r * cos t * (r * cos t) + r * sin t * (r * sin t)) with (r * r * (sin t * sin t + cos t * cos t)) by ring.
    rewrite Q, Rmult_1_r. apply sqrt_square. lra. }
  rewrite E in H3, H4. apply angle_unique; auto.
  - apply (Rmult_eq_reg_l r); lra.
  - apply (Rmult_eq_reg_l r); lra.
Qed.

(** ** Angles to quaternions *)
(** The turn of the axes by [t] about one axis, as a quaternion. *)
Definition qe (axis : nat) (s c : R) : q4 R :=
  match axis with 1%nat => Q4 c (- s) 0 0 | 2%nat => Q4 c 0 (- s) 0 | _ => Q4 c 0 0 (- s) end.
Lemma qe_elem axis t : qunit (qe axis (sin (t/2)) (cos (t/2))) /\ qtom (qe axis (sin (t/2)) (cos (t/2))) = elem axis t.
Proof.
  assert (S : sin t = 2 * sin (t/2) * cos (t/2)) by (rewrite <- sin_2a; f_equal; field).
  assert (C : cos t = 1 - 2 * sin (t/2) * sin (t/2)) by (rewrite <- cos_2a_sin; f_equal; field).
  pose proof (sin2_cos2 (t/2)) as Q. unfold Rsqr in Q.
  set (s := sin (t/2)) in *. set (c := cos (t/2)) in *. clearbody s c.
  destruct axis as [|[|[|axis]]]; unfold qe, elem; rewrite S, C; dyn; (split; [nra|f_equal; ring]).
Qed.
Lemma quat_seq_product s s1 c1 s2 c2 s3 c3 :
  quat_seq s s1 c1 s2 c2 s3 c3 =
  let '(x, y, z) := axes s in qmul (qe z s3 c3) (qmul (qe y s2 c2) (qe x s1 c1)).
Proof. destruct s; cbn [axes qe quat_seq]; dyn; f_equal; ring. Qed.

Theorem C129_quaternion : forall s e given,
  let a := match given with Some a => a | None => e_ang e end in
  let r := compute_quat sin cos s e given in
  qunit (snd r) /\ qtom (snd r) = euler_matrix s a /\
  fst r = match given with Some a => mkeuler a a (e_sing e) | None => e end.
Proof.
  intros s e given a r.
  assert (E : snd r = quat_seq s (sin (v_0 a / 2)) (cos (v_0 a / 2)) (sin (v_1 a / 2)) (cos (v_1 a / 2))
                        (sin (v_2 a / 2)) (cos (v_2 a / 2)) /\
              fst r = match given with Some a => mkeuler a a (e_sing e) | None => e end).
  { assert (HF : forall x, x * (5 / 10) = x / 2) by (intro; field).
    unfold r, compute_quat. cbn [fst snd]. unfold a. destruct given; cbn [e_ang]; unfold scaleV, half;
    cbn [v_0 v_1 v_2]; change (@ndec R RNum 5 (-1)) with (5 / 10); cbn [nmul RNum]; rewrite !HF; auto. }
  destruct E as [E1 E2]. rewrite E1, quat_seq_product. clearbody a. clear E1. unfold euler_matrix.
  destruct (axes s) as [[x y] z].
  destruct (qe_elem x (v_0 a)) as [U1 M1]. destruct (qe_elem y (v_1 a)) as [U2 M2].
  destruct (qe_elem z (v_2 a)) as [U3 M3].
  pose proof (qmul_unit _ _ U2 U1) as U21.
  split; [now apply qmul_unit|]. split; [|exact E2].
  rewrite C128_compose, C128_compose, !mulMM_R, M1, M2, M3 by assumption. reflexivity.
Qed.
Print Assumptions C129_quaternion.

(** ** Quaternions to angles *)
Lemma range_eq a x b : is_in_range a x b = true <-> a <= x <= b.
Proof.
  unfold is_in_range. cbn [nle nlt RNum].
  destruct (Rleb_spec a x), (Rleb_spec x b); cbn; split; intro; try discriminate; try lra; auto.
Qed.
Lemma tolsing_eq : tolsing sin (PI / 2) = cos (1 / 1000000).
Proof.
  unfold tolsing. change (@ndec R RNum 1 (-6)) with (1 / 1000000). cbn [nsub RNum].
  rewrite sin_shift. reflexivity.
Qed.
Lemma tol_pos : 0 < cos (1 / 1000000) < 1.
Proof.
  pose proof PI2_1 as P1. split; [apply cos_gt_0; lra|].
  pose proof (cos_decreasing_1 0 (1 / 1000000)) as H. rewrite cos_0 in H. apply H; lra.
Qed.
Lemma sin_tol_le : sin (1 / 1000000) * sin (1 / 1000000) <= 1 / 1000000000000.
Proof.
  assert (A : sin (1/1000000) < 1/1000000) by (apply sin_lt_x; lra).
  assert (B : 0 < sin (1/1000000)) by (apply sin_gt_0; [lra|pose proof PI2_1; lra]). nra.
Qed.

Lemma asin_facts r : -1 < r < 1 ->
  0 < cos (asin r) /\ cos (asin r) * cos (asin r) = 1 - r * r /\ sin (asin r) = r /\
  - (PI / 2) < asin r < PI / 2.
Proof.
  intro B. assert (S : sin (asin r) = r) by (apply sin_asin; lra).
  assert (P : 0 < 1 - r * r) by nra.
  pose proof (asin_bound r) as AB.
  assert (E : cos (asin r) = sqrt (1 - r²)) by (apply cos_asin; lra). unfold Rsqr in E.
  repeat split; [rewrite E; now apply sqrt_lt_R0|rewrite E; apply sqrt_sqrt; lra|exact S| |].
  - destruct (proj1 AB) as [H|H]; [exact H|]. exfalso.
    rewrite <- H, sin_neg, sin_PI2 in S. lra.
  - destruct (proj2 AB) as [H|H]; [exact H|]. exfalso.
    rewrite H, sin_PI2 in S. lra.
Qed.

(** An entry of the last row or column is not zero when the other is. *)
Lemma two_nonzero x y c : x * x + y * y = c -> 0 < c -> x <> 0 \/ y <> 0.
Proof. intros E P. destruct (Req_dec x 0) as [->|]; [right|left]; [intro; subst; lra|assumption]. Qed.

Ltac rot_facts m H :=
  let A1 := fresh in let A2 := fresh in let A3 := fresh in let B1 := fresh in let B2 := fresh in
  let B3 := fresh in let C1 := fresh in let C2 := fresh in let C3 := fresh in
  destruct (rotation_cof m H) as ((A1 & A2 & A3) & (B1 & B2 & B3) & (C1 & C2 & C3));
  destruct (rotation_cols m H) as (? & ? & ? & ? & ? & ?);
  destruct H as (? & ? & ? & ? & ? & ? & ?).

(** The angles away from the singularity. *)
Lemma no_sing_exact s q r : is_rotation (qtom q) -> r = rot2sin s q -> -1 < r < 1 ->
  let a := angles_no_sing asin atan2R s q r in
  euler_matrix s a = qtom q /\ - PI < v_0 a <= PI /\ - (PI/2) < v_1 a < PI/2 /\ - PI < v_2 a <= PI.
Proof.
  intros H E B a. subst a. destruct (asin_facts r B) as (CP & CC & SS & AB).
  assert (P : 0 < 1 - r * r) by nra.
  unfold euler_matrix, angles_no_sing.
  destruct s; cbn [axes v_0 v_1 v_2 elem]; unfold rot2sin in E; cbn [nopp RNum] in *;
    generalize dependent (qtom q); intros m H E;
    rot_facts m H; destruct m as [a b c d e f g h i]; dyn;
    set (C := cos (asin r)) in *; rewrite SS; clearbody C;
    match goal with
    | |- context [atan2R ?y1 ?x1] =>
      match goal with |- context [atan2R ?y2 ?x2] =>
        lazymatch constr:((y1, x1)) with (y2, x2) => fail | _ => idtac end;
        assert (W1 : x1 * x1 + y1 * y1 = C * C) by (rewrite CC; subst r; lra);
        assert (W2 : x2 * x2 + y2 * y2 = C * C) by (rewrite CC; subst r; lra);
        destruct (polar_atan2 x1 y1 (two_nonzero _ _ _ W1 (Rmult_lt_0_compat _ _ CP CP))) as (R1 & Q1 & X1 & Y1 & B1);
        destruct (polar_atan2 x2 y2 (two_nonzero _ _ _ W2 (Rmult_lt_0_compat _ _ CP CP))) as (R2 & Q2 & X2 & Y2 & B2);
        set (r1 := sqrt (x1 * x1 + y1 * y1)) in *; set (r2 := sqrt (x2 * x2 + y2 * y2)) in *;
        assert (r1 = C) by (apply Rsqr_inj; unfold Rsqr; lra);
        assert (r2 = C) by (apply Rsqr_inj; unfold Rsqr; lra);
        clearbody r1 r2; subst r1 r2;
        set (t1 := atan2R y1 x1) in *; set (t2 := atan2R y2 x2) in *; clearbody t1 t2;
        set (c1 := cos t1) in *; set (s1 := sin t1) in *; set (c2 := cos t2) in *; set (s2 := sin t2) in *;
        clearbody c1 s1 c2 s2
      end
    end; (split; [|repeat split; lra]).
  all: clear AB B R1 R2 B1 B2 SS W1 W2 Q1 Q2 t1 t2 q.
  all: assert (Z : C * C <> 0) by (pose proof (Rmult_lt_0_compat _ _ CP CP); lra).
  all: pose proof (f_equal2 Rmult X1 X2) as K1; pose proof (f_equal2 Rmult X1 Y2) as K2;
    pose proof (f_equal2 Rmult Y1 X2) as K3; pose proof (f_equal2 Rmult Y1 Y2) as K4;
    pose proof (f_equal (Rmult r) K1) as L1; pose proof (f_equal (Rmult r) K2) as L2;
    pose proof (f_equal (Rmult r) K3) as L3; pose proof (f_equal (Rmult r) K4) as L4;
    pose proof (f_equal (fun x => x * a) CC) as E0; pose proof (f_equal (fun x => x * b) CC) as E1;
    pose proof (f_equal (fun x => x * c) CC) as E2; pose proof (f_equal (fun x => x * d) CC) as E3;
    pose proof (f_equal (fun x => x * e) CC) as E4; pose proof (f_equal (fun x => x * f) CC) as E5;
    pose proof (f_equal (fun x => x * g) CC) as E6; pose proof (f_equal (fun x => x * h) CC) as E7;
    pose proof (f_equal (fun x => x * i) CC) as E8;
    pose proof (f_equal (Rmult r) H0) as F0; pose proof (f_equal (Rmult r) H1) as F1;
    pose proof (f_equal (Rmult r) H2) as F2; pose proof (f_equal (Rmult r) H3) as F3;
    pose proof (f_equal (Rmult r) H4) as F4; pose proof (f_equal (Rmult r) H5) as F5;
    pose proof (f_equal (Rmult r) H6) as F6; pose proof (f_equal (Rmult r) H7) as F7;
    pose proof (f_equal (Rmult r) H8) as F8.
  all: clear H H9 H10 H11 H12 H13 H14 H15 H16 H17 H18 H19 H20.
  all: cbv beta in *; rewrite ?E in *; clear E r CP P.
  all: f_equal; solve [clear - X1 X2 Y1 Y2; lra|apply (Rmult_eq_reg_l (C * C)); [|exact Z]; lra].
Qed.

(** The angles at and next to the singularity. *)
Lemma small2 x y k : x * x + y * y = k * k -> 0 <= k -> - k <= x <= k /\ - k <= y <= k.
Proof. intros E P. pose proof (Rle_0_sqr x). pose proof (Rle_0_sqr y). unfold Rsqr in *. repeat split; nra. Qed.
Lemma small_mul x y k : - k <= x <= k -> - k <= y <= k -> - (k * k) <= x * y <= k * k.
Proof. intros. split; nra. Qed.
Lemma big_mul x y k : 0 <= x <= k -> -1 <= y <= 1 -> - k <= x * y <= k.
Proof. intros. split; nra. Qed.

Lemma unit_row x y z : x * x + y * y + z * z = 1 -> -1 <= x <= 1 /\ -1 <= y <= 1 /\ -1 <= z <= 1.
Proof.
  intro H. pose proof (Rle_0_sqr x). pose proof (Rle_0_sqr y). pose proof (Rle_0_sqr z). unfold Rsqr in *.
  repeat split; nra.
Qed.
Lemma near_point r k x y z t : 0 < r -> r * r = x * x + y * y -> x * x + y * y + z * z = 1 ->
  - k <= z <= k -> x = r * cos t -> y = r * sin t ->
  - (k * k) <= x - cos t <= k * k /\ - (k * k) <= y - sin t <= k * k.
Proof.
  intros RP R2 N Z X Y.
  assert (W : 0 <= 1 - r <= k * k).
  { pose proof (small_mul z z k Z Z). pose proof (Rle_0_sqr z) as Q. unfold Rsqr in Q. split; nra. }
  pose proof (COS_bound t) as CB. pose proof (SIN_bound t) as SB.
  pose proof (big_mul (1 - r) (cos t) (k * k) W CB). pose proof (big_mul (1 - r) (sin t) (k * k) W SB).
  lra.
Qed.

Ltac sing k KK E W K2 AB p1 p2 p3 p4 z b1 b2 b3 b4 :=
  let S1 := fresh in let S2 := fresh in let S3 := fresh in let S4 := fresh in
  destruct (small2 p1 p2 k) as [S1 S2]; [rewrite KK, E; lra|lra|];
  destruct (small2 p3 p4 k) as [S3 S4]; [rewrite KK, E; lra|lra|];
  match goal with |- context [atan2R ?y ?x] =>
    let N := fresh in
    assert (N : x * x + y * y + z * z = 1) by lra;
    let NZ := fresh in
    assert (NZ : x <> 0 \/ y <> 0)
      by (apply (two_nonzero x y (1 - z * z)); [lra|];
          assert (0 <= z * z <= k * k) by (split; [apply (Rle_0_sqr z)|apply small_mul; assumption]); lra);
    destruct (polar_atan2 x y NZ) as (? & ? & ? & ? & ?);
    let NP := fresh in
    assert (NP := near_point (sqrt (x * x + y * y)) k x y z (atan2R y x) ltac:(assumption) ltac:(assumption)
                    N ltac:(assumption) ltac:(assumption) ltac:(assumption));
    let t := fresh "t" in
    set (t := atan2R y x) in *; clearbody t;
    pose proof (small_mul p1 p3 k S1 S3); pose proof (small_mul p1 p4 k S1 S4);
    pose proof (small_mul p2 p3 k S2 S3); pose proof (small_mul p2 p4 k S2 S4);
    pose proof (big_mul _ b1 (k * k) W ltac:(assumption)); pose proof (big_mul _ b2 (k * k) W ltac:(assumption));
    pose proof (big_mul _ b3 (k * k) W ltac:(assumption)); pose proof (big_mul _ b4 (k * k) W ltac:(assumption))
  end.

Lemma sing_near s q r k : is_rotation (qtom q) -> r = rot2sin s q -> 0 <= k <= 1 / 1000000 -> k * k = 1 - r * r ->
  (0 < r -> mnear k (euler_matrix s (angles_pos_sing atan2R (PI / 2) s q)) (qtom q) /\
            - PI < v_0 (angles_pos_sing atan2R (PI / 2) s q) <= PI) /\
  (r < 0 -> mnear k (euler_matrix s (angles_neg_sing atan2R (PI / 2) s q)) (qtom q) /\
            - PI < v_0 (angles_neg_sing atan2R (PI / 2) s q) <= PI).
Proof.
  intros H E B KK.
  assert (K2 : 0 <= k * k /\ 3 * (k * k) <= k) by (split; nra).
  assert (RP : 0 < r -> 0 <= 1 - r <= k * k) by (intro; split; nra).
  assert (RN : r < 0 -> 0 <= 1 + r <= k * k) by (intro; split; nra).
  assert (AB : forall x, - k <= x <= k -> Rabs x <= k) by (intros x Hx; unfold Rabs; destruct (Rcase_abs x); lra).
  unfold angles_pos_sing, angles_neg_sing, euler_matrix, mnear.
  destruct s; cbn [axes v_0 v_1 v_2 elem]; unfold rot2sin in E; cbn [nopp n0 RNum] in *;
    generalize dependent (qtom q); intros m H E;
    rot_facts m H; destruct m as [a b c d e f g h i]; dyn;
    rewrite ?cos_neg, ?sin_neg, ?cos_PI2, ?sin_PI2, ?cos_0, ?sin_0.
  all: split; intro SG; [pose proof (RP SG) as W|pose proof (RN SG) as W]; clear RP RN.
  all: destruct (unit_row a b c ltac:(assumption)) as (? & ? & ?);
    destruct (unit_row d e f ltac:(assumption)) as (? & ? & ?);
    destruct (unit_row g h i ltac:(assumption)) as (? & ? & ?).
  1-2: sing k KK E W K2 AB h i a d h b c e f.
  3-4: sing k KK E W K2 AB e f a g a b c h i.
  5-6: sing k KK E W K2 AB g i b e g a c d f.
  7-8: sing k KK E W K2 AB a c e h h d f g i.
  9-10: sing k KK E W K2 AB d e c i c a b g h.
  11-12: sing k KK E W K2 AB a b f i i d e g h.
  all: rewrite ?E in *; repeat split; try (apply AB); lra.
Qed.

(** The sine of the second angle is at most the squared length of the quaternion. *)
Lemma rot2sin_le s q : Rabs (rot2sin s q) <= qnorm2 q.
Proof.
  assert (K : forall x y z w, - (x*x+y*y+z*z+w*w) <= 2 * (x*y - z*w) <= x*x+y*y+z*z+w*w).
  { intros. pose proof (Rle_0_sqr (x-y)). pose proof (Rle_0_sqr (x+y)). pose proof (Rle_0_sqr (z-w)).
    pose proof (Rle_0_sqr (z+w)). unfold Rsqr in *. lra. }
  assert (A : forall x y, - y <= x <= y -> Rabs x <= y) by (intros x y H; unfold Rabs; destruct (Rcase_abs x); lra).
  destruct q as [a b c d]. apply A. unfold rot2sin. destruct s; dyn.
  - pose proof (K b d a c). lra.
  - pose proof (K b c (- a) d). lra.
  - pose proof (K c d (- a) b). lra.
  - pose proof (K b c a d). lra.
  - pose proof (K c d a b). lra.
  - pose proof (K b d (- a) c). lra.
Qed.

Definition eupdate := @euler_update R RNum sin asin atan2R (PI / 2).

(** All the cases at once. *)
Lemma update_cases s e q : let r := rot2sin s q in
  let done a k := (mkeuler a a k, false) in
  eupdate s e q =
  if Rleb (Rabs r) 1 then
    if Rltb (Rabs r) (cos (1 / 1000000)) then done (angles_no_sing asin atan2R s q r) 0%Z
    else if Rltb 0 r then done (angles_pos_sing atan2R (PI/2) s q) 1%Z
    else done (angles_neg_sing atan2R (PI/2) s q) 2%Z
  else if Rleb (Rabs r) (1 + 1 / 1000000000000000) then
    if Rltb 0 r then done (angles_pos_sing atan2R (PI/2) s q) 3%Z
    else done (angles_neg_sing atan2R (PI/2) s q) 4%Z
  else (mkeuler (V3 (0/0) (0/0) (0/0)) (e_prev e) 5, true).
Proof.
  intros r done. unfold eupdate, euler_update. fold r. rewrite tolsing_eq. unfold tole15, is_in_range.
  change (@ndec R RNum 1 (-15)) with (1 / 1000000000000000). change (@ndec R RNum (-1) 0) with (-1).
  cbn [n0 n1 nadd nsub ndiv nabs nlt nle RNum].
  assert (A : (Rabs r = r /\ 0 <= r) \/ (Rabs r = - r /\ r < 0))
    by (unfold Rabs; destruct (Rcase_abs r); [right|left]; lra).
  set (ra := Rabs r) in *. clearbody ra.
  destruct (Rleb_spec ra 1).
  - rewrite (Rleb_true (-1) r), (Rleb_true r 1) by lra. reflexivity.
  - assert (X : (Rleb (-1) r && Rleb r 1)%bool = false).
    { destruct A; [rewrite (Rleb_false r 1) by lra; apply andb_false_r|rewrite (Rleb_false (-1) r) by lra; reflexivity]. }
    rewrite X. destruct A as [[A1 A2]|[A1 A2]].
    + rewrite (Rleb_true 1 r) by lra. rewrite (Rltb_true 0 r) by lra. cbn [andb].
      rewrite (Rleb_false r (-1)) by lra. rewrite andb_false_r.
      destruct (Rleb_spec ra (1 + 1 / 1000000000000000)).
      * rewrite Rleb_true by lra. reflexivity.
      * rewrite Rleb_false by lra. reflexivity.
    + rewrite (Rleb_false 1 r) by lra. rewrite (Rltb_false 0 r) by lra. cbn [andb].
      rewrite (Rleb_true r (-1)) by lra. rewrite andb_true_r.
      destruct (Rleb_spec ra (1 + 1 / 1000000000000000)).
      * rewrite Rleb_true by lra. reflexivity.
      * rewrite Rleb_false by lra. reflexivity.
Qed.

(** It never throws for a quaternion not longer than a unit, and in general exactly when the
    sine is beyond the tolerance. *)
Theorem C129_throws : forall s e q,
  (snd (eupdate s e q) = true <-> 1 + 1 / 1000000000000000 < Rabs (rot2sin s q)) /\
  (qnorm2 q <= 1 -> snd (eupdate s e q) = false) /\
  (snd (eupdate s e q) = true -> e_sing (fst (eupdate s e q)) = 5%Z) /\
  (snd (eupdate s e q) = false -> e_prev (fst (eupdate s e q)) = e_ang (fst (eupdate s e q))).
Proof.
  intros s e q. pose proof (rot2sin_le s q) as L. rewrite update_cases. cbv zeta.
  destruct (Rleb_spec (Rabs (rot2sin s q)) 1);
    [destruct (Rltb_spec (Rabs (rot2sin s q)) (cos (1/1000000))); [|destruct (Rltb_spec 0 (rot2sin s q))]
    |destruct (Rleb_spec (Rabs (rot2sin s q)) (1 + 1 / 1000000000000000)); [destruct (Rltb_spec 0 (rot2sin s q))|]];
    cbn [fst snd e_sing e_prev e_ang]; repeat split; intros; try discriminate; try reflexivity; lra.
Qed.
Print Assumptions C129_throws.

(** The angles stand for the same rotation: exactly away from the singularity, and to one
    part in a million elsewhere. *)
Theorem C129_update : forall s e q, qunit q ->
  let e' := fst (eupdate s e q) in
  let a := e_ang e' in
  - PI < v_0 a <= PI /\ - (PI/2) <= v_1 a <= PI/2 /\ - PI < v_2 a <= PI /\
  (e_sing e' = 0%Z /\ - (PI/2) < v_1 a < PI/2 /\ euler_matrix s a = qtom q \/
   (e_sing e' = 1%Z /\ v_1 a = PI/2 \/ e_sing e' = 2%Z /\ v_1 a = - (PI/2)) /\
   v_2 a = 0 /\ mnear (1 / 1000000) (euler_matrix s a) (qtom q)).
Proof.
  intros s e q U. cbv zeta.
  pose proof (proj1 (C128_matrix q vzero U)) as H. pose proof (rot2sin_le s q) as L.
  unfold qunit in U. rewrite U in L. rewrite update_cases. cbv zeta.
  rewrite (Rleb_true _ _ L). pose proof PI_RGT_0 as PP. pose proof tol_pos as TP.
  set (r := rot2sin s q) in *. assert (E : r = rot2sin s q) by reflexivity. clearbody r.
  assert (A : (Rabs r = r /\ 0 <= r) \/ (Rabs r = - r /\ r < 0))
    by (unfold Rabs; destruct (Rcase_abs r); [right|left]; lra).
  destruct (Rltb_spec (Rabs r) (cos (1/1000000))) as [T|T]; cbn [fst e_ang e_sing].
  - destruct (no_sing_exact s q r H E) as (N1 & N2 & N3 & N4); [destruct A; lra|].
    repeat split; try lra. left. repeat split; try lra. exact N1.
  - assert (KK : 0 <= 1 - r * r <= 1 / 1000000000000).
    { pose proof sin_tol_le as ST. pose proof (sin2_cos2 (1/1000000)) as SC. unfold Rsqr in SC. split; nra. }
    assert (K2 : sqrt (1 - r * r) * sqrt (1 - r * r) = 1 - r * r) by (apply sqrt_sqrt; lra).
    assert (K1 : 0 <= sqrt (1 - r * r) <= 1 / 1000000) by (pose proof (sqrt_pos (1 - r * r)); split; nra).
    destruct (sing_near s q r _ H E K1 K2) as [SP SN].
    assert (MN : forall x y, mnear (sqrt (1 - r * r)) x y -> mnear (1 / 1000000) x y)
      by (intros x y M; unfold mnear in *; lra).
    destruct (Rltb_spec 0 r) as [S|S]; cbn [fst e_ang e_sing].
    + destruct (SP S) as [S1 S2]. repeat split; try (cbn [v_1 v_2 angles_pos_sing n0 RNum]; lra).
      right. repeat split; [left; split; reflexivity|apply MN; exact S1..].
    + destruct SN as [S1 S2]; [destruct A; lra|].
      repeat split; try (cbn [v_1 v_2 angles_neg_sing n0 nopp RNum]; lra).
      right. repeat split; [right; split; reflexivity|apply MN; exact S1..].
Qed.
Print Assumptions C129_update.

Lemma mnear0 a b : mnear 0 a b -> a = b.
Proof.
  assert (Z : forall x y, Rabs (x - y) <= 0 -> x = y).
  { intros x y H. pose proof (Rabs_pos (x - y)). assert (Rabs (x - y) = 0) as E by lra.
    destruct (Req_dec (x - y) 0) as [|N]; [lra|]. apply Rabs_pos_lt in N. lra. }
  intros (? & ? & ? & ? & ? & ? & ? & ? & ?). destruct a, b. dyn. f_equal; apply Z; assumption.
Qed.
Lemma rot2sin_matrix s q a : qtom q = euler_matrix s a -> rot2sin s q = sin (v_1 a).
Proof.
  intro E. unfold rot2sin. rewrite E. unfold euler_matrix.
  destruct s; cbn [axes elem]; dyn; ring.
Qed.
(** At the singularity itself the rotation is met exactly too. *)
Theorem C129_singular : forall s e q b, qunit q -> qtom q = euler_matrix s b ->
  v_1 b = PI/2 \/ v_1 b = - (PI/2) ->
  let a := e_ang (fst (eupdate s e q)) in euler_matrix s a = qtom q.
Proof.
  intros s e q b U E B. cbv zeta. pose proof (proj1 (C128_matrix q vzero U)) as H.
  pose proof (rot2sin_matrix s q b E) as R. rewrite update_cases. cbv zeta.
  pose proof tol_pos as TP. set (r := rot2sin s q) in *.
  assert (Er : r = rot2sin s q) by reflexivity. clearbody r.
  assert (R1 : r = 1 \/ r = -1)
    by (destruct B as [B|B]; rewrite B in R; rewrite ?sin_neg, sin_PI2 in R; auto).
  destruct (sing_near s q r 0 H Er) as [SP SN]; [lra|destruct R1; subst r; rewrite H0; ring|].
  destruct R1 as [R1|R1].
  - rewrite R1, Rabs_R1. rewrite Rleb_true, Rltb_false, Rltb_true by lra. apply mnear0, SP. lra.
  - rewrite R1. replace (Rabs (-1)) with 1 by (rewrite Rabs_left; lra).
    rewrite Rleb_true, !Rltb_false by lra. apply mnear0, SN. lra.
Qed.
Print Assumptions C129_singular.

(** Angles within their ranges and more than a millionth of a radian away from the
    singularity come back. *)
Theorem C129_round_trip : forall s e e' a,
  - PI < v_0 a <= PI -> - (PI/2) + 1/1000000 < v_1 a < PI/2 - 1/1000000 -> - PI < v_2 a <= PI ->
  eupdate s e' (snd (compute_quat sin cos s e (Some a))) = (mkeuler a a 0, false).
Proof.
  intros s e e' a B0 B1 B2. destruct (C129_quaternion s e (Some a)) as (U & M & _).
  set (q := snd (compute_quat sin cos s e (Some a))) in *. clearbody q. cbv beta iota in M.
  pose proof (rot2sin_matrix s q a M) as R. rewrite update_cases. cbv zeta. rewrite R.
  pose proof PI2_1 as P1.
  assert (S : Rabs (sin (v_1 a)) < cos (1/1000000)).
  { rewrite <- sin_shift. apply Rabs_def1.
    - apply sin_increasing_1; lra.
    - rewrite <- sin_neg. apply sin_increasing_1; lra. }
  rewrite Rleb_true by (pose proof tol_pos; lra). rewrite Rltb_true by exact S.
  assert (C : 0 < cos (v_1 a)) by (apply cos_gt_0; lra).
  assert (AE : angles_no_sing asin atan2R s q (sin (v_1 a)) = a); [|rewrite AE; reflexivity].
  unfold angles_no_sing. rewrite M. rewrite asin_sin by lra.
  assert (T : forall y x t, - PI < t <= PI -> y = cos (v_1 a) * sin t -> x = cos (v_1 a) * cos t -> atan2R y x = t)
    by (intros y x t Bt -> ->; now apply atan2_polar).
  destruct a as [a0 a1 a2]. cbn [v_0 v_1 v_2] in *. unfold euler_matrix.
  destruct s; cbn [axes elem v_0 v_1 v_2 nopp RNum]; dyn;
    f_equal; apply T; try assumption; ring.
Qed.
Print Assumptions C129_round_trip.

(** ** Examples *)
Example ex_euler_quarter : forall s e,
  eupdate s e (snd (compute_quat sin cos s e (Some (V3 (PI/2) 0 0)))) = (mkeuler (V3 (PI/2) 0 0) (V3 (PI/2) 0 0) 0, false).
Proof. intros. pose proof PI2_1. apply C129_round_trip; cbn [v_0 v_1 v_2]; lra. Qed.
(** At the singularity only the sum or the difference of the other two is kept. *)
Example ex_euler_singular : forall s e, exists q, qunit q /\
  euler_matrix s (e_ang (fst (eupdate s e q))) = euler_matrix s (V3 1 (PI/2) 1).
Proof.
  intros s e. destruct (C129_quaternion s e (Some (V3 1 (PI/2) 1))) as (U & M & _).
  eexists. split; [exact U|]. rewrite (C129_singular s e _ (V3 1 (PI/2) 1) U M); [exact M|]. left. reflexivity.
Qed.
(** A quaternion a little too long is refused. *)
Example ex_euler_throw : snd (eupdate S321 euler0 (Q4 (1/2 + 1/1000000000000000) (1/2) (-(1/2 + 1/1000000000000000)) (-(1/2)))) = true.
Proof.
  apply (proj1 (C129_throws _ _ _)). unfold rot2sin. dyn. rewrite Rabs_right; lra.
Qed.
