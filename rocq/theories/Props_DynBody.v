(** The equations of motion of a rigid body (C130). *)
From Coq Require Import Floats.
From Coq Require Import Reals Bool ZArith Lra Lia List Psatz.
From Verif Require Import Num MathUtil Dyn Spec_Dyn Props_Dyn Props_DynEuler.
Import ListNotations.
Open Scope R_scope.

Ltac vdestruct := repeat match goal with x : v3 R |- _ =>
  let a := fresh "a" in let b := fresh "a" in let c := fresh "a" in destruct x as [a b c] end.
Ltac vring := vdestruct; dyn; first [ring|f_equal; ring].

(** ** The vectors of the model are those of the specification *)
Lemma addV_R a b : addV a b = vadd a b.
Proof. reflexivity. Qed.
Lemma scaleV_R a k : scaleV a k = vscale k a.
Proof. destruct a. dyn. f_equal; ring. Qed.
Lemma vadd_comm a b : vadd a b = vadd b a.
Proof. destruct a, b. dyn. f_equal; ring. Qed.
Lemma vadd_assoc a b c : vadd a (vadd b c) = vadd (vadd a b) c.
Proof. destruct a, b, c. dyn. f_equal; ring. Qed.
Lemma vadd_0_l a : vadd vzero a = a.
Proof. destruct a. dyn. f_equal; ring. Qed.
Lemma vadd_0_r a : vadd a vzero = a.
Proof. destruct a. dyn. f_equal; ring. Qed.
Lemma fold_vec {A} (on : A -> bool) (g : A -> v3 R) l : forall acc,
  fold_left (fun acc x => if on x then addV acc (g x) else acc) l acc =
  vadd acc (fold_right (fun x s => if on x then vadd (g x) s else s) vzero l).
Proof.
  induction l as [|x l IH]; intro acc; cbn [fold_left fold_right]; [now rewrite vadd_0_r|].
  rewrite IH. destruct (on x); [|reflexivity]. now rewrite vadd_assoc.
Qed.
Lemma nonzeroV_R (v : v3 R) : nonzeroV v = false <-> v = vzero.
Proof.
  unfold nonzeroV. cbn [neqb n0 RNum]. destruct v as [x y z]. cbn [v_0 v_1 v_2].
  destruct (Reqb_spec x 0), (Reqb_spec y 0), (Reqb_spec z 0); cbn; split; intro H; try discriminate;
    try (unfold vzero in H; injection H; intros; contradiction); subst; reflexivity.
Qed.
Lemma sum_forces_R fs : sum_forces fs = total_force fs.
Proof.
  unfold sum_forces, total_force. rewrite (fold_vec fo_on fo_f). apply vadd_0_l.
Qed.
Lemma sum_torques_R p fs ts : sum_torques p fs ts = total_torque (mp_cm p) fs ts.
Proof.
  unfold sum_torques, total_torque.
  rewrite (fold_vec to_on to_t). f_equal.
  rewrite (fold_vec fo_on (fun f => crossV (if nonzeroV (mp_cm p) then subV (fo_at f) (mp_cm p) else fo_at f) (fo_f f))).
  change (@zeroV R RNum) with vzero. rewrite vadd_0_l.
  assert (E : forall f, (if nonzeroV (mp_cm p) then subV (fo_at f) (mp_cm p) else fo_at f)
                        = vadd (fo_at f) (vscale (-1) (mp_cm p))).
  { intro f. destruct (nonzeroV (mp_cm p)) eqn:Z.
    - destruct (fo_at f), (mp_cm p). dyn. f_equal; ring.
    - apply nonzeroV_R in Z. rewrite Z. destruct (fo_at f). dyn. f_equal; ring. }
  induction fs as [|f fs IH]; cbn [fold_right]; [reflexivity|]. rewrite IH, E. reflexivity.
Qed.

(** ** What the six equations say *)
Definition parts (x : list R) : v3 R * v3 R :=
  (V3 (nth 0 x 0) (nth 1 x 0) (nth 2 x 0), V3 (nth 3 x 0) (nth 4 x 0) (nth 5 x 0)).
Definition net_force (p : massprops R) (w : v3 R) (fs : list (force R)) : v3 R :=
  vadd (total_force fs) (vscale (- mp_mass p) (vcross w (vcross w (mp_cm p)))).
Definition law (p : massprops R) (w : v3 R) fs ts (a wd : v3 R) : Prop :=
  let c := mp_cm p in
  vscale (mp_mass p) (vadd a (vcross wd c)) = net_force p w fs /\
  vadd (vcross c (vscale (mp_mass p) (vadd a (vcross wd c)))) (tensor p wd)
  = vadd (total_torque c fs ts) (vscale (-1) (vcross w (tensor p w))).
Lemma six (P : nat -> Prop) : (forall i, (i < 6)%nat -> P i) <->
  P 0%nat /\ P 1%nat /\ P 2%nat /\ P 3%nat /\ P 4%nat /\ P 5%nat.
Proof.
  split; [intro H; repeat split; apply H; lia|].
  intros (? & ? & ? & ? & ? & ?) i Hi. do 6 (destruct i as [|i]; [assumption|]). lia.
Qed.
Lemma v3_ext (a b : v3 R) : v_0 a = v_0 b -> v_1 a = v_1 b -> v_2 a = v_2 b -> a = b.
Proof. destruct a, b. cbn. intros -> -> ->. reflexivity. Qed.
Lemma solves_law p w fs ts x : length x = 6%nat ->
  (solves (mass_matrix p) (source_vector p w fs ts) x <-> law p w fs ts (fst (parts x)) (snd (parts x))).
Proof.
  intro L. unfold solves, law, net_force. rewrite (six (fun i => _ = nth i (source_vector p w fs ts) 0)).
  unfold source_vector. rewrite sum_forces_R, sum_torques_R.
  set (F := total_force fs). set (T := total_torque (mp_cm p) fs ts). clearbody F T.
  do 6 (destruct x as [|? x]; [discriminate L|]). destruct x; [|discriminate L]. clear L.
  unfold parts, mass_matrix. cbn [nth Nat.mul Nat.add fst snd].
  destruct p as [m c xx xy xz yy yz zz]. cbn [mp_mass mp_cm mp_xx mp_xy mp_xz mp_yy mp_yz mp_zz].
  unfold ang_momentum, tensor. cbn [mp_mass mp_cm mp_xx mp_xy mp_xz mp_yy mp_yz mp_zz].
  destruct (nonzeroV c) eqn:Z; [|apply nonzeroV_R in Z; rewrite Z; clear Z c];
    try (destruct c as [c0 c1 c2]); destruct F as [F0 F1 F2], T as [T0 T1 T2], w as [w0 w1 w2];
    cbn [nth Nat.mul Nat.add]; dyn.
  all: split; [intros (_ & H0 & H1 & H2 & H3 & H4 & H5); split; apply v3_ext; dyn; lra|];
    intros (H1 & H2); injection H1 as E0 E1 E2; injection H2 as E3 E4 E5;
    split; [reflexivity|]; repeat split; lra.
Qed.

Definition inertia_det (p : massprops R) : R :=
  mp_xx p * (mp_yy p * mp_zz p - mp_yz p * mp_yz p) - mp_xy p * (mp_xy p * mp_zz p - mp_yz p * mp_xz p)
  + mp_xz p * (mp_xy p * mp_yz p - mp_yy p * mp_xz p).
Lemma tensor_solve p b : inertia_det p <> 0 -> exists! u, tensor p u = b.
Proof.
  destruct p as [m c xx xy xz yy yz zz], b as [b0 b1 b2]. unfold inertia_det, tensor. cbn.
  set (D := xx * (yy * zz - yz * yz) - xy * (xy * zz - yz * xz) + xz * (xy * yz - yy * xz)). intro ND.
  assert (S : forall u0 u1 u2,
    (D * u0 = (yy*zz - yz*yz) * b0 + (xz*yz - xy*zz) * b1 + (xy*yz - xz*yy) * b2 /\
     D * u1 = (xz*yz - xy*zz) * b0 + (xx*zz - xz*xz) * b1 + (xy*xz - xx*yz) * b2 /\
     D * u2 = (xy*yz - xz*yy) * b0 + (xy*xz - xx*yz) * b1 + (xx*yy - xy*xy) * b2) <->
    (xx * u0 + xy * u1 + xz * u2 = b0 /\ xy * u0 + yy * u1 + yz * u2 = b1 /\ xz * u0 + yz * u1 + zz * u2 = b2)).
  { intros u0 u1 u2. split.
    - intros (H0 & H1 & H2).
      repeat split; apply (Rmult_eq_reg_l D); try exact ND.
      + transitivity (xx * (D * u0) + xy * (D * u1) + xz * (D * u2)); [ring|]. rewrite H0, H1, H2. unfold D. ring.
      + transitivity (xy * (D * u0) + yy * (D * u1) + yz * (D * u2)); [ring|]. rewrite H0, H1, H2. unfold D. ring.
      + transitivity (xz * (D * u0) + yz * (D * u1) + zz * (D * u2)); [ring|]. rewrite H0, H1, H2. unfold D. ring.
    - intros (<- & <- & <-). unfold D. repeat split; ring. }
  set (r0 := (yy*zz - yz*yz) * b0 + (xz*yz - xy*zz) * b1 + (xy*yz - xz*yy) * b2) in *.
  set (r1 := (xz*yz - xy*zz) * b0 + (xx*zz - xz*xz) * b1 + (xy*xz - xx*yz) * b2) in *.
  set (r2 := (xy*yz - xz*yy) * b0 + (xy*xz - xx*yz) * b1 + (xx*yy - xy*xy) * b2) in *.
  clearbody r0 r1 r2 D.
  exists (V3 (r0 / D) (r1 / D) (r2 / D)). split.
  - cbn. destruct (proj1 (S (r0/D) (r1/D) (r2/D))) as (-> & -> & ->); [|reflexivity].
    repeat split; field; exact ND.
  - intros [u0 u1 u2] E. cbn in E. injection E as E0 E1 E2.
    destruct (proj2 (S u0 u1 u2)) as (H0 & H1 & H2); [auto|].
    f_equal; apply (Rmult_eq_reg_l D); try exact ND; [rewrite H0|rewrite H1|rewrite H2]; field; exact ND.
Qed.

(** The torque that is left for the rotation. *)
Definition net_torque (p : massprops R) (w : v3 R) fs ts : v3 R :=
  vadd (vadd (total_torque (mp_cm p) fs ts) (vscale (-1) (vcross w (tensor p w))))
       (vscale (-1) (vcross (mp_cm p) (net_force p w fs))).
Lemma law_split p w fs ts a wd : law p w fs ts a wd <->
  vscale (mp_mass p) (vadd a (vcross wd (mp_cm p))) = net_force p w fs /\ tensor p wd = net_torque p w fs ts.
Proof.
  unfold law, net_torque. cbv zeta. set (L := vscale (mp_mass p) (vadd a (vcross wd (mp_cm p)))).
  set (N := net_force p w fs). set (I := tensor p wd).
  set (T := vadd (total_torque (mp_cm p) fs ts) _). clearbody L N I T.
  split; intros [-> H]; (split; [reflexivity|]).
  - rewrite <- H. clear H. generalize (mp_cm p). intros. vring.
  - rewrite H. clear H. generalize (mp_cm p). intros. vring.
Qed.
(** With some mass and an inertia that can be inverted there is exactly one solution. *)
Theorem C130_wellposed : forall p w fs ts, mp_mass p <> 0 -> inertia_det p <> 0 ->
  exists! x, solves (mass_matrix p) (source_vector p w fs ts) x.
Proof.
  intros p w fs ts M D. destruct (tensor_solve p (net_torque p w fs ts) D) as (wd & W & WU).
  set (a := vadd (vscale (/ mp_mass p) (net_force p w fs)) (vscale (-1) (vcross wd (mp_cm p)))).
  assert (LA : law p w fs ts a wd).
  { apply law_split. split; [|exact W]. subst a. clear W WU. revert M.
    generalize (net_force p w fs), (mp_cm p), (mp_mass p). intros. vdestruct. dyn. f_equal; field; assumption. }
  exists [v_0 a; v_1 a; v_2 a; v_0 wd; v_1 wd; v_2 wd]. split.
  - apply solves_law; [reflexivity|]. unfold parts. cbn [nth fst snd]. clearbody a. destruct a, wd. exact LA.
  - intros x S. pose proof (proj1 S) as L. apply solves_law in S; [|exact L].
    do 6 (destruct x as [|? x]; [discriminate L|]). destruct x; [|discriminate L].
    unfold parts in S. cbn [nth fst snd] in S. apply law_split in S as [S1 S2].
    apply WU in S2. subst wd.
    apply law_split in LA as [LA _]. rewrite <- LA in S1. clearbody a. clear - S1 M.
    revert S1. generalize (mp_cm p). intros C S1. vdestruct. unfold vscale, vadd, vcross in S1. cbn [v_0 v_1 v_2] in *.
    injection S1 as E0 E1 E2. apply Rmult_eq_reg_l in E0, E1, E2; try exact M. repeat f_equal; lra.
Qed.
Print Assumptions C130_wellposed.

(** ** The matrix follows the mass properties *)
Inductive reachable : sderiv R -> Prop :=
| reach_init : reachable (sd_init sd_new)
| reach_update solve p q w fs ts d a wd qd d' : reachable d ->
    sd_update solve p q w fs ts d = Some (a, wd, qd, d') -> reachable d'.
Lemma mass_eq_R (a b : massprops R) : mass_eq a b = true <-> a = b.
Proof.
  unfold mass_eq. cbn [neqb RNum]. rewrite !andb_true_iff.
  assert (Q : forall x y, Reqb x y = true <-> x = y)
    by (intros x y; destruct (Reqb_spec x y); split; intro; try discriminate; auto; contradiction).
  rewrite !Q. destruct a as [? [? ? ?] ? ? ? ? ? ?], b as [? [? ? ?] ? ? ? ? ? ?]. cbn.
  split; [intros (((((((((-> & ->) & ->) & ->) & ->) & ->) & ->) & ->) & ->) & ->); reflexivity|].
  intro E. injection E. intros. subst. repeat split; reflexivity.
Qed.
Lemma valid_mass p : mass_invalid p = false -> Reps <= mp_mass p /\ p <> mass0.
Proof.
  unfold mass_invalid. cbn [nlt neps RNum]. rewrite !orb_false_iff.
  intros ((((((H & _) & _) & _) & _) & _) & _).
  destruct (Rltb_spec (mp_mass p) Reps); [discriminate|]. split; [lra|]. intros ->.
  apply n. cbn. apply Reps_pos.
Qed.
Lemma reachable_inv d : reachable d ->
  sd_last d = mass0 \/ sd_a d = mass_matrix (sd_last d).
Proof.
  induction 1 as [|solve p q w fs ts d a wd qd d' R IH U]; [left; reflexivity|].
  unfold sd_update in U. destruct (mass_invalid p) eqn:V; [discriminate|]. injection U as _ _ _ <-.
  unfold build_admittance. destruct (mass_eq p (sd_last d)); [exact IH|right; reflexivity].
Qed.
Theorem C130_matrix : forall solve p q w fs ts d a wd qd d', reachable d ->
  sd_update solve p q w fs ts d = Some (a, wd, qd, d') ->
  sd_a d' = mass_matrix p /\ sd_last d' = p /\
  (a, wd) = parts (solve (mass_matrix p) (source_vector p w fs ts)) /\
  qd = qscale (1/2) (qmul (pure (vscale (-1) w)) q).
Proof.
  intros solve p q w fs ts d a wd qd d' R U. unfold sd_update in U.
  destruct (mass_invalid p) eqn:V; [discriminate|]. injection U as <- <- <- <-.
  assert (E : sd_a (build_admittance p d) = mass_matrix p /\ sd_last (build_admittance p d) = p).
  { unfold build_admittance. destruct (mass_eq p (sd_last d)) eqn:Q; [|split; reflexivity].
    apply mass_eq_R in Q. destruct (reachable_inv d R) as [E|E].
    - exfalso. apply (proj2 (valid_mass p V)). congruence.
    - rewrite Q. split; [exact E|reflexivity]. }
  destruct E as [E1 E2]. rewrite E1. split; [reflexivity|]. split; [exact E2|]. split; [reflexivity|].
  apply C128_rate.
Qed.
Print Assumptions C130_matrix.

(** ** The laws of motion *)
Definition shift (c : v3 R) (b : list particle) : list particle :=
  map (fun x => (fst x, vadd (snd x) (vscale (-1) c))) b.
Lemma momentum_rate_eq b a wd w :
  momentum_rate b a wd w =
  vadd (vscale (total_mass b) a) (vadd (vcross wd (first_moment b)) (vcross w (vcross w (first_moment b)))).
Proof.
  induction b as [|[m r] b IH]; [unfold momentum_rate, ang_momentum_rate, total_mass, first_moment, inertia, shift; cbn [map fold_right]; vring|].
  unfold momentum_rate, total_mass, first_moment in *. cbn [fold_right fst snd] in *.
  rewrite IH. unfold accel_at. generalize (fold_right (fun p s => vadd (vscale (fst p) (snd p)) s) vzero b).
  generalize (fold_right (fun (p : particle) s => fst p + s) 0 b). intros. vring.
Qed.
Lemma ang_momentum_rate_eq b a wd w :
  ang_momentum_rate b a wd w =
  vadd (vcross (first_moment b) a) (vadd (inertia b wd) (vcross w (inertia b w))).
Proof.
  induction b as [|[m r] b IH]; [unfold momentum_rate, ang_momentum_rate, total_mass, first_moment, inertia, shift; cbn [map fold_right]; vring|].
  unfold ang_momentum_rate, first_moment, inertia in *. cbn [fold_right fst snd] in *.
  rewrite IH. unfold accel_at. generalize (fold_right (fun p s => vadd (vscale (fst p) (snd p)) s) vzero b).
  generalize (fold_right (fun p s => vadd (vscale (fst p) (vadd (vscale (vdot (snd p) (snd p)) wd)
                                                 (vscale (- vdot (snd p) wd) (snd p)))) s) vzero b).
  generalize (fold_right (fun p s => vadd (vscale (fst p) (vadd (vscale (vdot (snd p) (snd p)) w)
                                                 (vscale (- vdot (snd p) w) (snd p)))) s) vzero b).
  intros. vring.
Qed.
Lemma parallel_axis c b u :
  inertia (shift c b) u =
  vadd (inertia b u)
    (vadd (vscale (-2 * vdot (first_moment b) c) u)
    (vadd (vscale (vdot (first_moment b) u) c) (vadd (vscale (vdot c u) (first_moment b))
    (vscale (total_mass b) (vadd (vscale (vdot c c) u) (vscale (- vdot c u) c)))))).
Proof.
  induction b as [|[m r] b IH]; [unfold momentum_rate, ang_momentum_rate, total_mass, first_moment, inertia, shift; cbn [map fold_right]; vring|].
  unfold shift, inertia, first_moment, total_mass in *. cbn [map fold_right fst snd] in *.
  rewrite IH. generalize (fold_right (fun p s => vadd (vscale (fst p) (snd p)) s) vzero b).
  generalize (fold_right (fun (p : particle) s => fst p + s) 0 b).
  generalize (fold_right (fun p s => vadd (vscale (fst p) (vadd (vscale (vdot (snd p) (snd p)) u)
                                                 (vscale (- vdot (snd p) u) (snd p)))) s) vzero b).
  intros. vring.
Qed.
Lemma total_torque_shift c fs ts :
  total_torque vzero fs ts = vadd (total_torque c fs ts) (vcross c (total_force fs)).
Proof.
  unfold total_torque, total_force. generalize (fold_right (fun (t : torque R) s => if to_on t then vadd (to_t t) s else s) vzero ts).
  intro X. induction fs as [|f fs IH]; cbn [fold_right]; [vring|].
  destruct (fo_on f); [|exact IH].
  revert IH.
  generalize (fold_right (fun (f : force R) s => if fo_on f then vadd (vcross (vadd (fo_at f) (vscale (-1) vzero)) (fo_f f)) s else s) vzero fs).
  generalize (fold_right (fun (f : force R) s => if fo_on f then vadd (vcross (vadd (fo_at f) (vscale (-1) c)) (fo_f f)) s else s) vzero fs).
  generalize (fold_right (fun (f : force R) s => if fo_on f then vadd (fo_f f) s else s) vzero fs).
  intros U Y Z IH.
  transitivity (vadd (vcross (vadd (fo_at f) (vscale (-1) vzero)) (fo_f f)) (vadd Z X)); [apply eq_sym, vadd_assoc|].
  rewrite IH. destruct (fo_at f), (fo_f f). vring.
Qed.

(** A body of particles moved by the accelerations that the link computes: the momentum
    always changes as the forces say, and the spin about the centre of mass has the extra
    torque [- c x (F - m w x (w x c))]. *)
Theorem C130_motion : forall solve p q w fs ts d a wd qd d' b,
  reachable d -> describes p b ->
  sd_update solve p q w fs ts d = Some (a, wd, qd, d') ->
  solves (sd_a d') (source_vector p w fs ts) (solve (sd_a d') (source_vector p w fs ts)) ->
  momentum_rate b a wd w = total_force fs /\
  vadd (ang_momentum_rate b a wd w)
       (vcross (mp_cm p) (vadd (total_force fs) (vscale (- mp_mass p) (vcross w (vcross w (mp_cm p))))))
  = total_torque vzero fs ts.
Proof.
  intros solve p q w fs ts d a wd qd d' b R (B1 & B2 & B3) U S.
  fold (net_force p w fs).
  destruct (C130_matrix _ _ _ _ _ _ _ _ _ _ _ R U) as (E0 & _ & E & _). rewrite E0 in S.
  pose proof (proj1 S) as L. apply solves_law in S; [|exact L].
  rewrite <- E in S. cbn [fst snd] in S. clear E L. apply law_split in S as [S1 S2].
  assert (P1 : momentum_rate b a wd w = total_force fs).
  { rewrite momentum_rate_eq, B1, B2.
    assert (F : total_force fs = vadd (net_force p w fs) (vscale (mp_mass p) (vcross w (vcross w (mp_cm p)))))
      by (unfold net_force; generalize (total_force fs), (mp_cm p); intros; vring).
    rewrite F, <- S1. generalize (mp_cm p). intros. vring. }
  split; [exact P1|].
  rewrite (total_torque_shift (mp_cm p)), ang_momentum_rate_eq, B2.
  assert (J : forall u, inertia b u = vadd (tensor p u)
                (vscale (mp_mass p) (vadd (vscale (vdot (mp_cm p) (mp_cm p)) u) (vscale (- vdot (mp_cm p) u) (mp_cm p))))).
  { intro u. rewrite <- B3. fold (shift (mp_cm p) b). rewrite parallel_axis, B1, B2.
    generalize (inertia b u), (mp_cm p). intros. vring. }
  rewrite !J, S2. unfold net_torque.
  assert (F : total_force fs = vadd (net_force p w fs) (vscale (mp_mass p) (vcross w (vcross w (mp_cm p)))))
    by (unfold net_force; generalize (total_force fs), (mp_cm p); intros; vring).
  rewrite F, <- S1. generalize (total_torque (mp_cm p) fs ts), (tensor p w), (mp_cm p). intros. vring.
Qed.
Print Assumptions C130_motion.
(** So without an offset of the centre of mass both laws hold, and the power of the torques
    is the rate of the rotational energy; with one, the second holds only when the net
    force has no arm. *)
Theorem C130_no_offset : forall solve p q w fs ts d a wd qd d' b,
  reachable d -> describes p b -> mp_cm p = vzero ->
  sd_update solve p q w fs ts d = Some (a, wd, qd, d') ->
  solves (sd_a d') (source_vector p w fs ts) (solve (sd_a d') (source_vector p w fs ts)) ->
  momentum_rate b a wd w = total_force fs /\
  ang_momentum_rate b a wd w = total_torque vzero fs ts /\
  vdot w (tensor p wd) = vdot w (total_torque vzero fs ts).
Proof.
  intros solve p q w fs ts d a wd qd d' b R B C U S.
  destruct (C130_motion _ _ _ _ _ _ _ _ _ _ _ _ R B U S) as [H1 H2].
  fold (net_force p w fs) in H2.
  assert (H3 : ang_momentum_rate b a wd w = total_torque vzero fs ts).
  { rewrite <- H2, C. generalize (ang_momentum_rate b a wd w), (net_force p w fs). intros. vring. }
  repeat split; [exact H1|exact H3|]. rewrite <- H3, ang_momentum_rate_eq.
  destruct B as (B1 & B2 & B3). rewrite B2, C.
  assert (J : forall u, inertia b u = tensor p u).
  { intro u. rewrite <- B3, C. fold (shift vzero b). rewrite parallel_axis, B2, C.
    generalize (inertia b u). intros. vring. }
  rewrite !J. generalize (tensor p wd), (tensor p w). intros. vring.
Qed.
Print Assumptions C130_no_offset.
Theorem C130_offset : forall solve p q w fs ts d a wd qd d' b,
  reachable d -> describes p b ->
  sd_update solve p q w fs ts d = Some (a, wd, qd, d') ->
  solves (sd_a d') (source_vector p w fs ts) (solve (sd_a d') (source_vector p w fs ts)) ->
  (ang_momentum_rate b a wd w = total_torque vzero fs ts <->
   vcross (mp_cm p) (vadd (total_force fs) (vscale (- mp_mass p) (vcross w (vcross w (mp_cm p))))) = vzero).
Proof.
  intros solve p q w fs ts d a wd qd d' b R B U S.
  fold (net_force p w fs).
  destruct (C130_motion _ _ _ _ _ _ _ _ _ _ _ _ R B U S) as [_ H].
  fold (net_force p w fs) in H. rewrite <- H.
  generalize (ang_momentum_rate b a wd w), (vcross (mp_cm p) (net_force p w fs)). clear.
  intros [x y z] [u v t]. dyn. split; intro E; injection E; intros; f_equal; lra.
Qed.
Print Assumptions C130_offset.

(** ** A force through the centre of mass turns the body *)
Definition octahedron (c : v3 R) : list particle :=
  map (fun r => (1, vadd c r)) [V3 1 0 0; V3 (-1) 0 0; V3 0 1 0; V3 0 (-1) 0; V3 0 0 1; V3 0 0 (-1)].
Definition octa_props (c : v3 R) : massprops R := mkmass 6 c 4 0 0 4 0 4.
Lemma octa_describes c : describes (octa_props c) (octahedron c).
Proof.
  unfold describes, octahedron, octa_props, total_mass, first_moment, inertia, tensor.
  cbn [map fold_right fst snd mp_mass mp_cm mp_xx mp_xy mp_xz mp_yy mp_yz mp_zz].
  split; [ring|]. split; [vring|]. intro u. vring.
Qed.
Lemma octa_valid c : mass_invalid (octa_props c) = false.
Proof.
  pose proof Reps_small. unfold mass_invalid, octa_props. cbn [mp_mass mp_xx mp_xy mp_xz mp_yy mp_yz mp_zz nlt neps n0 RNum].
  rewrite !Rltb_false by lra. reflexivity.
Qed.
Theorem C130_offset_refuted : exists solve p b q fs d a wd qd d',
  reachable d /\ describes p b /\ (forall x, In x b -> 0 < fst x) /\
  sd_update solve p q vzero fs [] d = Some (a, wd, qd, d') /\
  solves (sd_a d') (source_vector p vzero fs []) (solve (sd_a d') (source_vector p vzero fs [])) /\
  (forall f, In f fs -> fo_at f = mp_cm p) /\ wd <> vzero.
Proof.
  set (x := [0; 5/2; 0; 0; 0; -3/2]). set (c := V3 1 0 0).
  assert (U : exists d', sd_update (fun _ _ => x) (octa_props c) (Q4 1 0 0 0) vzero
      [mkforce true (V3 0 6 0) c] [] (sd_init sd_new) =
      Some (V3 0 (5/2) 0, V3 0 0 (-3/2), qdot (Q4 1 0 0 0) vzero, d')).
  { unfold sd_update. rewrite octa_valid. eexists. reflexivity. }
  destruct U as [d' U].
  exists (fun _ _ => x), (octa_props c), (octahedron c), (Q4 1 0 0 0), [mkforce true (V3 0 6 0) c], (sd_init sd_new).
  do 3 eexists. exists d'. split; [apply reach_init|]. split; [apply octa_describes|].
  split; [intros y Y; cbn in Y; intuition (subst; cbn; lra)|]. split; [exact U|].
  destruct (C130_matrix _ _ _ _ _ _ _ _ _ _ _ reach_init U) as (E & _). rewrite E.
  split; [|split; [intros f [<-|[]]; reflexivity|intro Z; injection Z; lra]].
  apply solves_law; [reflexivity|]. apply law_split. unfold net_torque, net_force, total_torque, total_force, tensor, parts, x, c, octa_props.
  cbn [nth fst snd fold_right fo_on fo_f fo_at mp_mass mp_cm mp_xx mp_xy mp_xz mp_yy mp_yz mp_zz].
  split; dyn; f_equal; field.
Qed.
Print Assumptions C130_offset_refuted.

(** ** The check of the mass properties *)
(** It lets through an inertia for which the equations have no solution. *)
Theorem C130_accepts_refuted : exists p ts,
  mass_invalid p = false /\ ~ exists x, solves (mass_matrix p) (source_vector p vzero [] ts) x.
Proof.
  exists (mkmass 1 vzero 1 (-1) 0 1 0 1), [mktorque true (V3 1 0 0)]. split.
  - pose proof Reps_small. unfold mass_invalid. cbn [mp_mass mp_xx mp_xy mp_xz mp_yy mp_yz mp_zz nlt neps n0 RNum].
    rewrite !Rltb_false by lra. reflexivity.
  - intros [x S]. pose proof (proj1 S) as L. apply solves_law in S; [|exact L]. apply law_split in S as [_ S].
    revert S. generalize (snd (parts x)). intro u.
    unfold net_torque, net_force, total_torque, total_force, tensor.
    cbn [fold_right to_on to_t mp_mass mp_cm mp_xx mp_xy mp_xz mp_yy mp_yz mp_zz].
    vdestruct. dyn. intro E. injection E. intros. lra.
Qed.
Print Assumptions C130_accepts_refuted.
(** It refuses a body made of particles. *)
Theorem C130_rejects_refuted : exists p b,
  describes p b /\ (forall x, In x b -> 0 < fst x) /\ 0 < inertia_det p /\ mass_invalid p = true.
Proof.
  exists (mkmass 4 vzero 4 2 0 4 0 4), [(1, V3 1 (-1) 0); (1, V3 (-1) 1 0); (1, V3 0 0 1); (1, V3 0 0 (-1))].
  split; [|split; [|split]].
  - unfold describes, total_mass, first_moment, inertia, tensor.
    cbn [map fold_right fst snd mp_mass mp_cm mp_xx mp_xy mp_xz mp_yy mp_yz mp_zz].
    split; [ring|]. split; [vring|]. intro u. vring.
  - intros y Y. cbn in Y. intuition (subst; cbn; lra).
  - unfold inertia_det. cbn. lra.
  - unfold mass_invalid. cbn [mp_mass mp_xx mp_xy mp_xz mp_yy mp_yz mp_zz nlt neps n0 RNum].
    rewrite (Rltb_true 0 2) by lra. rewrite !orb_true_r. reflexivity.
Qed.
Print Assumptions C130_rejects_refuted.

(** ** Initializing again *)
(** A link that is initialized again and has the same mass properties as before keeps the
    matrix of zeros, so the body has no mass. *)
Theorem C130_reinitialize_refuted : exists p d1 d2,
  (exists solve q w fs ts a wd qd, sd_update solve p q w fs ts (sd_init sd_new) = Some (a, wd, qd, d1)) /\
  (exists solve q w fs ts a wd qd, sd_update solve p q w fs ts (sd_init d1) = Some (a, wd, qd, d2)) /\
  sd_a d1 = mass_matrix p /\ sd_a d2 = repeat 0 36 /\ sd_a d2 <> mass_matrix p.
Proof.
  set (p := octa_props vzero).
  assert (B : forall d, exists a wd qd, sd_update (fun _ _ => []) p (Q4 1 0 0 0) vzero [] [] d = Some (a, wd, qd, build_admittance p d)).
  { intro d. unfold sd_update. unfold p. rewrite octa_valid. do 3 eexists. reflexivity. }
  exists p, (build_admittance p (sd_init sd_new)), (build_admittance p (sd_init (build_admittance p (sd_init sd_new)))).
  split; [exists (fun _ _ => []), (Q4 1 0 0 0), vzero, [], []; apply B|].
  split; [exists (fun _ _ => []), (Q4 1 0 0 0), vzero, [], []; apply B|].
  assert (E1 : build_admittance p (sd_init sd_new) = mksderiv (mass_matrix p) p true).
  { unfold build_admittance. destruct (mass_eq p (sd_last (sd_init sd_new))) eqn:Q; [|reflexivity].
    apply mass_eq_R in Q. unfold p, octa_props in Q. injection Q. intros. lra. }
  rewrite E1. unfold build_admittance. cbn [sd_init sd_last sd_a sd_upd].
  rewrite (proj2 (mass_eq_R p p) eq_refl). cbn [sd_a].
  split; [reflexivity|]. split; [reflexivity|]. intro Z. unfold mass_matrix, p, octa_props in Z.
  cbn [mp_cm mp_mass] in Z. rewrite (proj2 (nonzeroV_R vzero) eq_refl) in Z. cbn in Z. injection Z. intros. lra.
Qed.
Print Assumptions C130_reinitialize_refuted.

(** ** Examples *)
(** A torque about one axis of a body at rest, the centre of mass at the origin. *)
Example ex_spin : exists a wd qd d',
  sd_update (fun _ _ => [0; 0; 0; 0; 0; 1]) (octa_props vzero) (Q4 1 0 0 0) vzero [] [mktorque true (V3 0 0 4)] (sd_init sd_new)
  = Some (a, wd, qd, d') /\ wd = V3 0 0 1 /\
  solves (sd_a d') (source_vector (octa_props vzero) vzero [] [mktorque true (V3 0 0 4)]) [0; 0; 0; 0; 0; 1].
Proof.
  assert (U : exists d', sd_update (fun _ _ => [0; 0; 0; 0; 0; 1]) (octa_props vzero) (Q4 1 0 0 0) vzero [] [mktorque true (V3 0 0 4)]
     (sd_init sd_new) = Some (V3 0 0 0, V3 0 0 1, qdot (Q4 1 0 0 0) vzero, d')).
  { unfold sd_update. rewrite octa_valid. eexists. reflexivity. }
  destruct U as [d' U]. do 3 eexists. exists d'. split; [exact U|]. split; [reflexivity|].
  destruct (C130_matrix _ _ _ _ _ _ _ _ _ _ _ reach_init U) as (E & _). rewrite E.
  apply solves_law; [reflexivity|]. apply law_split. unfold net_torque, net_force, total_torque, total_force, tensor, parts, octa_props.
  cbn [nth fst snd fold_right to_on to_t mp_mass mp_cm mp_xx mp_xy mp_xz mp_yy mp_yz mp_zz].
  split; dyn; f_equal; field.
Qed.
