(** Properties C49, C83-C85 of SensorAnalog. *)
From Coq Require Import Floats Reals Lra Lia List Arith Bool ZArith.
From Flocq Require Import IEEE754.BinarySingleNaN.
From Verif Require Import Num Ord MathUtil Props_Math MsgQueue F32 Sensor Spec_Interp Props_Pid.
Import ListNotations.
Open Scope R_scope.

Lemma bindO_ret {A B} (x : outcome A) (f : A -> outcome B) b : bindO x f = Ret b ->
  exists a, x = Ret a /\ f a = Ret b.
Proof. destruct x; cbn; try discriminate. eauto. Qed.

(** ** C49, for every ordered float type: reals and binary32 *)
Section C49.
Context {F D : Type} {NF : Num F} {ND : Num D} {C : Casts F D} {OF : NumOrd F}.

Lemma valid_order (c : SensorConfig F D) : sensor_valid c = true ->
  (sc_min c <=~ sc_max c) = true /\ within (sc_min c) (sc_off c) (sc_max c).
Proof.
  unfold sensor_valid, is_in_range, within. intro H. apply andb_true_iff in H. destruct H as [_ H].
  apply andb_true_iff in H. destruct H. split; eauto using ord_le_trans.
Qed.

Lemma update_shape (c : SensorConfig F D) m truth dt draw s s' :
  sensor_update c m truth dt draw s = Ret s' ->
  exists x, ss_sensed s' = limit_range (sc_min c) x (sc_max c) /\
    ss_truth_out s' = sc_conv c truth /\ ss_degraded s' = degraded m.
Proof.
  unfold sensor_update. intro H. apply bindO_ret in H. destruct H as (ds & _ & H).
  exists (snd ds). injection H as <-. auto.
Qed.

(** After every update, with any malfunctions and from any state, the output is
    within the range or is NaN. *)
Theorem C49_range : forall (c : SensorConfig F D) m truth dt draw s s',
  sensor_valid c = true -> sensor_update c m truth dt draw s = Ret s' ->
  within (sc_min c) (ss_sensed s') (sc_max c) \/ nnan (ss_sensed s') = true.
Proof.
  intros c m truth dt draw s s' V H. destruct (valid_order c V) as [L _].
  destruct (update_shape _ _ _ _ _ _ _ H) as (x & -> & _). destruct (nnan x) eqn:X.
  - right. now rewrite C36_limit_range_nan.
  - left. now apply C36_limit_range_in_range.
Qed.

(** Without power, and not overridden, the sensor reads its off value. *)
Theorem C49_off : forall (c : SensorConfig F D) m truth dt draw s,
  sensor_valid c = true -> sm_perfect m = false ->
  (sm_power m = false /\ sm_ignore_power m = false \/ sm_fail_off m = true) ->
  exists s', sensor_update c m truth dt draw s = Ret s' /\ ss_sensed s' = sc_off c /\
    ss_drift s' = ss_drift s.
Proof.
  intros c m truth dt draw s V P Q. destruct (valid_order c V) as [L [W1 W2]].
  assert (E : powered m = false).
  { unfold powered. destruct Q as [[-> ->] | ->]; cbn; auto using andb_false_r. }
  unfold sensor_update. rewrite P, E. cbn [bindO fst snd]. eexists. split; [reflexivity|].
  cbn [ss_sensed ss_drift]. split; auto. now apply clamp_id.
Qed.

(** The perfect-sensor malfunction overrides power, every other malfunction, the
    nominal errors and the history: two perfect sensors with the same configured range
    and conversion read the same, and are not degraded. *)
Theorem C49_perfect : forall (c c' : SensorConfig F D) m m' truth dt dt' draw draw' s s0,
  sc_min c' = sc_min c -> sc_max c' = sc_max c -> sc_conv c' = sc_conv c ->
  sm_perfect m = true -> sm_perfect m' = true ->
  exists s1 s2, sensor_update c m truth dt draw s = Ret s1 /\
    sensor_update c' m' truth dt' draw' s0 = Ret s2 /\
    ss_sensed s1 = ss_sensed s2 /\ ss_truth_out s1 = ss_truth_out s2 /\
    ss_degraded s1 = false /\ ss_degraded s2 = false /\
    ss_sensed s1 = limit_range (sc_min c)
      (narrow (sc_conv c (widen (if nabs truth <~ flt_min then n0 else narrow truth)))) (sc_max c).
Proof.
  intros c c' m m' truth dt dt' draw draw' s s0 E1 E2 E3 P P'. unfold sensor_update, degraded.
  rewrite P, P'. cbn [bindO fst snd].
  eexists _, _. split; [reflexivity|]. split; [reflexivity|].
  cbn [ss_sensed ss_truth_out ss_degraded]. unfold process_input. rewrite E1, E2, E3, !andb_false_r.
  auto 10.
Qed.

(** A powered failed-to-value sensor reads the limited value; a stuck one holds a
    reading that is in range. *)
Theorem C49_fail_to : forall (c : SensorConfig F D) m truth dt draw s,
  sm_perfect m = false -> powered m = true -> sm_fail_to m = true ->
  exists s', sensor_update c m truth dt draw s = Ret s' /\
    ss_sensed s' = limit_range (sc_min c) (sm_fail_to_value m) (sc_max c).
Proof.
  intros c m truth dt draw s P Q H. unfold sensor_update. rewrite P, Q, H. cbn [bindO fst snd]. eauto.
Qed.
Theorem C49_stuck : forall (c : SensorConfig F D) m truth dt draw s,
  sm_perfect m = false -> powered m = true -> sm_fail_to m = false -> sm_stuck m = true ->
  within (sc_min c) (ss_sensed s) (sc_max c) \/ nnan (ss_sensed s) = true ->
  exists s', sensor_update c m truth dt draw s = Ret s' /\
    ss_sensed s' = ss_sensed s /\ ss_drift s' = ss_drift s.
Proof.
  intros c m truth dt draw s P Q H K W. unfold sensor_update. rewrite P, Q, H, K. cbn [bindO fst snd].
  eexists. split; [reflexivity|]. cbn [ss_sensed ss_drift]. split; auto.
  destruct W as [[W1 W2]|W]; [now apply clamp_id | now apply C36_limit_range_nan].
Qed.

(** An update is defined unless the resolution is applied. *)
Theorem C49_defined : forall (c : SensorConfig F D) m truth dt draw s,
  (flt_eps <~ nabs (if sm_res m then sm_res_value m else sc_resolution c)) = false ->
  exists s', sensor_update c m truth dt draw s = Ret s'.
Proof.
  intros c m truth dt draw s H. unfold sensor_update, apply_resolution. rewrite H.
  destruct (sm_perfect m), (powered m), (sm_fail_to m), (sm_stuck m); cbn [bindO]; eauto.
  destruct (apply_drift m dt (ss_drift s) (apply_bias c m (apply_scale c m (process_input c truth)))) as [d x].
  cbn [bindO]. eauto.
Qed.

(** ** C85: the degraded flag *)

(** The malfunction record with every malfunction cleared. *)
Definition cleared (power : bool) : SensorMalf F :=
  mkSensorMalf power false false false false false n0 false n0 false n0 false n0 false n0 n0 false n0.
(** A sensor that does not report itself degraded, and is not overridden to be
    perfect, behaves as a sensor without malfunctions. *)
Theorem C85_not_degraded : forall (c : SensorConfig F D) m truth dt draw s,
  sm_perfect m = false -> degraded m = false ->
  sensor_update c m truth dt draw s =
  sensor_update c (cleared (sm_power m || sm_ignore_power m)) truth dt draw s.
Proof.
  intros c m truth dt draw s P Q. unfold degraded in Q. rewrite P in Q. cbn [negb] in Q.
  rewrite andb_true_r in Q. repeat (apply orb_false_iff in Q; destruct Q as [Q ?]).
  unfold sensor_update, powered, cleared, degraded, apply_resolution, apply_noise, apply_drift,
    apply_bias, apply_scale.
  cbn [sm_power sm_fail_to sm_fail_off sm_stuck sm_ignore_power sm_perfect sm_fail_to_value sm_scale
       sm_scale_value sm_bias sm_bias_value sm_drift sm_drift_rate sm_noise sm_noise_scale
       sm_noise_mult sm_res sm_res_value].
  rewrite P, Q. repeat match goal with H : _ = false |- _ => rewrite H end.
  cbn [negb andb orb]. rewrite ?orb_false_r. reflexivity.
Qed.
(** The flag is set exactly when a malfunction other than ignore-power is active and
    the sensor is not perfect. *)
Theorem C85_flag : forall (c : SensorConfig F D) m truth dt draw s s',
  sensor_update c m truth dt draw s = Ret s' ->
  (ss_degraded s' = true <->
   sm_perfect m = false /\
   (sm_fail_to m = true \/ sm_fail_off m = true \/ sm_stuck m = true \/ sm_scale m = true \/
    sm_bias m = true \/ sm_drift m = true \/ sm_noise m = true \/ sm_res m = true)).
Proof.
  intros c m truth dt draw s s' H. destruct (update_shape _ _ _ _ _ _ _ H) as (x & _ & _ & ->).
  unfold degraded. rewrite andb_true_iff, !orb_true_iff, negb_true_iff. tauto.
Qed.
End C49.
Print Assumptions C49_range.
Print Assumptions C49_off.
Print Assumptions C49_perfect.
Print Assumptions C49_fail_to.
Print Assumptions C49_stuck.
Print Assumptions C49_defined.
Print Assumptions C85_not_degraded.
Print Assumptions C85_flag.

(** Over exact arithmetic, for every history: the output is in range after every use. *)
Theorem C49_real : forall (c : SensorConfig R R) us m truth drift draw s s',
  sensor_init c m truth drift draw = Ret (Some s) -> sensor_run c s us = Ret s' ->
  sc_min c <= ss_sensed s' <= sc_max c.
Proof.
  intros c us m truth drift draw s s' I.
  unfold sensor_init in I. destruct (sensor_valid c) eqn:V; [|discriminate I].
  apply bindO_ret in I. destruct I as (s1 & I & E). injection E as ->.
  assert (G : forall m truth dt draw a b, sensor_update c m truth dt draw a = Ret b ->
    sc_min c <= ss_sensed b <= sc_max c).
  { intros m0 t0 dt0 d0 a b H. destruct (C49_range c m0 t0 dt0 d0 a b V H) as [[A B]|A].
    - rnum. revert A B. rcases; intros; try discriminate; lra.
    - rewrite R_nan0 in A. discriminate A. }
  apply G in I. revert s I. induction us as [|u us IH]; intros s I R; cbn [sensor_run] in R.
  - injection R as <-. exact I.
  - apply bindO_ret in R. destruct R as (s2 & R1 & R2). apply (IH s2); auto. now apply G in R1.
Qed.
Print Assumptions C49_real.

(** binary32: a finite truth that is too large for float, with a scale of zero, gives
    NaN. *)
Local Notation float := Coq.Floats.PrimFloat.float.
Definition fl (x : float) : f32 := narrow32 x.
Definition f_cfg (scale res : float) : SensorConfig f32 float :=
  mkSensorConfig (fl 0) (fl 1e6) (fl 0) (fl 0) (fl scale) (fl 0) (fl 0) (fl res) false (fun x => x).
Definition f_state : SensorState f32 float := mkSensorState (fl 0) 0%float (fl 0) false.
Definition no_draw : nat -> float := fun _ => 0%float.
Definition sensed_nan (o : outcome (SensorState f32 float)) : bool :=
  match o with Ret s => nnan (ss_sensed s) | _ => false end.
Definition is_ub {A} (o : outcome A) : bool := match o with UB => true | _ => false end.
Theorem C49_nan_refuted : exists (c : SensorConfig f32 float) m truth dt draw s s',
  sensor_valid c = true /\ nnan truth = false /\
  sensor_update c m truth dt draw s = Ret s' /\ nnan (ss_sensed s') = true.
Proof.
  set (o := sensor_update (f_cfg 0 0) (cleared true) 1e39%float 0%float no_draw f_state).
  assert (E : sensed_nan o = true) by (vm_compute; reflexivity).
  destruct o as [s'| |] eqn:O; cbn [sensed_nan] in E; try discriminate E.
  exists (f_cfg 0 0), (cleared true), 1e39%float, 0%float, no_draw, f_state, s'.
  split; [vm_compute; reflexivity|]. split; [vm_compute; reflexivity|]. split; [exact O | exact E].
Qed.
Print Assumptions C49_nan_refuted.
(** A reading of half a million in a range of a million with a resolution of 1e-4
    overflows the int of MsMath::round: undefined behaviour. *)
Theorem C49_undefined_refuted : exists (c : SensorConfig f32 float) m truth dt draw s,
  sensor_valid c = true /\ degraded m = false /\ powered m = true /\
  is_in_range 0%float truth 1e6%float = true /\
  sensor_update c m truth dt draw s = UB.
Proof.
  exists (f_cfg 1 1e-4), (cleared true), 5e5%float, 0%float, no_draw, f_state.
  repeat (split; [vm_compute; reflexivity|]).
  assert (E : is_ub (sensor_update (f_cfg 1 1e-4) (cleared true) 5e5%float 0%float no_draw f_state) = true)
    by (vm_compute; reflexivity).
  destruct (sensor_update _ _ _ _ _ _); try discriminate E. reflexivity.
Qed.
Print Assumptions C49_undefined_refuted.
(** Non-vacuity in binary32: a nominal reading, and a limited one. *)
Example C49_float_examples :
  match sensor_update (f_cfg 1 0.5) (cleared true) 12.3%float 0.1%float no_draw f_state with
  | Ret s => (ss_sensed s ==~ fl 12.5) && negb (ss_degraded s) | _ => false end = true /\
  match sensor_update (f_cfg 1 0) (cleared true) 2e6%float 0.1%float no_draw f_state with
  | Ret s => ss_sensed s ==~ fl 1e6 | _ => false end = true /\
  match sensor_init (f_cfg 1 0) (cleared true) infinity (fl 0) no_draw with
  | Ret (Some s) => ss_sensed s ==~ fl 1e6 | _ => false end = true.
Proof. vm_compute. auto. Qed.
Example C49_real_nonvacuous : exists s s' : SensorState R R,
  let c := mkSensorConfig 0 10 5 0 1 0 0 0 false (fun x => x) in
  sensor_init c (cleared true) 20 0 (fun _ => 0) = Ret (Some s) /\
  sensor_run c s [mkSensorUse (cleared false) 3 1 (fun _ => 0)] = Ret s' /\ ss_sensed s' = 5.
Proof.
  set (c := mkSensorConfig (F := R) (D := R) 0 10 5 0 1 0 0 0 false (fun x => x)).
  assert (V : sensor_valid c = true).
  { unfold sensor_valid, is_in_range, c. cbn [sc_min sc_max sc_off]. rnum.
    rewrite Rleb_false, !Rleb_true by lra. reflexivity. }
  destruct (C49_defined c (cleared true) 20 n0 (fun _ => 0) (mkSensorState 0 n0 n0 (degraded (cleared (F := R) true)))) as [s E].
  { cbn [cleared sm_res c sc_resolution]. unfold flt_eps, RCasts. rnum. rewrite Rabs_R0.
    apply Rltb_false. apply Rlt_le, Rinv_0_lt_compat, (IZR_lt 0). reflexivity. }
  destruct (C49_off c (cleared false) 3 1 (fun _ => 0) s V eq_refl (or_introl (conj eq_refl eq_refl)))
    as (s' & E' & S & _).
  exists s, s'. cbv zeta. fold c. unfold sensor_init. rewrite V. rewrite E. cbn [bindO].
  split; [reflexivity|]. split; [|exact S].
  cbn [sensor_run u_malf u_truth u_dt u_draw]. rewrite E'. reflexivity.
Qed.

(** ** C83: drift *)

(** A use in which the sensor works: powered, and no malfunction that replaces the
    reading. *)
Definition working (m : SensorMalf R) : Prop :=
  sm_perfect m = false /\ powered m = true /\ sm_fail_to m = false /\ sm_stuck m = false.
Lemma working_drift (c : SensorConfig R R) m truth dt draw s s' :
  working m -> sensor_update c m truth dt draw s = Ret s' ->
  ss_drift s' = if sm_drift m then ss_drift s + sm_drift_rate m * dt else 0.
Proof.
  intros (P & Q & X & Y). unfold sensor_update. rewrite P, Q, X, Y.
  unfold apply_drift. destruct (sm_drift m); cbn [bindO]; intro H;
    apply bindO_ret in H; destruct H as (ds & H1 & H2); injection H2 as <-;
    apply bindO_ret in H1; destruct H1 as (z & _ & H1); injection H1 as <-; reflexivity.
Qed.
(** In every run of uses with the drift malfunction on the drift is the sum of rate
    times time. *)
Theorem C83_drift_sum : forall (c : SensorConfig R R) us s s',
  (forall u, In u us -> working (u_malf u) /\ sm_drift (u_malf u) = true) ->
  sensor_run c s us = Ret s' ->
  ss_drift s' = ss_drift s + total (fun u => sm_drift_rate (u_malf u) * u_dt u) us.
Proof.
  induction us as [|u us IH]; intros s s' W R; cbn [sensor_run total] in *.
  - injection R as <-. lra.
  - apply bindO_ret in R. destruct R as (s1 & R1 & R2).
    destruct (W u (or_introl eq_refl)) as [W1 W2].
    pose proof (working_drift _ _ _ _ _ _ _ W1 R1) as D. rewrite W2 in D.
    rewrite (IH s1 s'); auto; [lra|]. intros v I. apply W. now right.
Qed.
(** A working use without the malfunction forgets the drift. *)
Theorem C83_drift_cleared : forall (c : SensorConfig R R) m truth dt draw s s',
  working m -> sm_drift m = false -> sensor_update c m truth dt draw s = Ret s' -> ss_drift s' = 0.
Proof.
  intros c m truth dt draw s s' W D H. rewrite (working_drift _ _ _ _ _ _ _ W H), D. reflexivity.
Qed.
Print Assumptions C83_drift_sum.
Print Assumptions C83_drift_cleared.
(** Clearing the malfunction while the sensor is off does not: when it is set again
    the reading starts from the old drift. *)
Definition drifting (power on : bool) : SensorMalf f32 :=
  mkSensorMalf power false false false false false (fl 0) false (fl 0) false (fl 0) on (fl 1)
    false (fl 0) (fl 0) false (fl 0).
Definition d_use (power on : bool) : SensorUse f32 float :=
  mkSensorUse (drifting power on) 100%float 1%float no_draw.
Definition reading (us : list (SensorUse f32 float)) : option f32 :=
  match sensor_run (f_cfg 1 0) f_state us with Ret s => Some (ss_sensed s) | _ => None end.
Definition reads (us : list (SensorUse f32 float)) (x : float) : bool :=
  match reading us with Some y => y ==~ fl x | None => false end.
Theorem C83_refuted : exists (c : SensorConfig f32 float) s fresh drifted off on,
  sm_drift (u_malf off) = false /\ sensor_valid c = true /\
  sensor_run c s [on] = Ret fresh /\ sensor_run c s [on; off; on] = Ret drifted /\
  (ss_sensed fresh <~ ss_sensed drifted) = true.
Proof.
  pose (c := f_cfg 1 0). pose (on := d_use true true). pose (off := d_use false false).
  assert (E : match sensor_run c f_state [on], sensor_run c f_state [on; off; on] with
              | Ret a, Ret b => ss_sensed a <~ ss_sensed b | _, _ => false end = true)
    by (vm_compute; reflexivity).
  destruct (sensor_run c f_state [on]) as [a| |] eqn:A; try discriminate E.
  destruct (sensor_run c f_state [on; off; on]) as [b| |] eqn:B; try discriminate E.
  exists c, f_state, a, b, off, on.
  split; [reflexivity|]. split; [vm_compute; reflexivity|]. auto.
Qed.
Example C83_readings :
  reads [d_use true true] 101 = true /\
  reads [d_use true true; d_use true true; d_use true false; d_use true true] 101 = true /\
  reads [d_use true true; d_use true true; d_use false false; d_use true true] 103 = true.
Proof. vm_compute. auto. Qed.
Print Assumptions C83_refuted.

(** ** C84: accuracy of a sensor without malfunctions or noise, over exact reals *)
Theorem C84_accuracy : forall (c : SensorConfig R R) m truth dt draw s s',
  sm_perfect m = false -> degraded m = false -> powered m = true -> sc_noise c = false ->
  (truth = 0 \/ flt_min <= Rabs truth) ->
  sensor_update c m truth dt draw s = Ret s' ->
  Rabs (ss_sensed s' - clip (sc_min c) (sc_conv c truth * sc_scale c + sc_bias c) (sc_max c))
    <= Rabs (sc_resolution c) / 2.
Proof.
  intros c m truth dt draw s s' P Q W NO T. rewrite (C85_not_degraded c m truth dt draw s P Q).
  assert (PW : sm_power m || sm_ignore_power m = true).
  { unfold powered in W. apply andb_true_iff in W. tauto. }
  rewrite PW. unfold sensor_update.
  change (powered (cleared (F := R) true)) with true. change (sm_perfect (cleared (F := R) true)) with false.
  change (sm_fail_to (cleared (F := R) true)) with false. change (sm_stuck (cleared (F := R) true)) with false.
  cbv iota. unfold apply_drift. change (sm_drift (cleared (F := R) true)) with false. cbv iota.
  unfold apply_noise. rewrite NO.
  assert (I : apply_bias c (cleared true) (apply_scale c (cleared true) (process_input c truth))
              = sc_conv c truth * sc_scale c + sc_bias c).
  { unfold apply_bias, apply_scale. cbn [cleared sm_bias sm_scale]. rnum. f_equal. f_equal.
    unfold process_input, narrow, widen, RCasts. rnum. f_equal.
    destruct T as [->|T]; [destruct (Rltb _ _); reflexivity|].
    rewrite Rltb_false; [reflexivity | exact T]. }
  rewrite I. set (x := sc_conv c truth * sc_scale c + sc_bias c). intro H.
  apply bindO_ret in H. destruct H as (ds & H1 & H2). injection H2 as <-. cbn [ss_sensed].
  apply bindO_ret in H1. destruct H1 as (y & H1 & H2). injection H2 as <-. cbn [snd].
  assert (EL : forall lo x hi : R, limit_range lo x hi = clip lo x hi).
  { intros. unfold limit_range, clip, nmax, nmin, Rmax, Rmin. rnum.
    repeat destruct (Rle_dec _ _); rcases; try lra. }
  rewrite EL. eapply Rle_trans; [apply clip_lip|].
  unfold apply_resolution in H1. cbn [cleared sm_res] in H1. set (r := nabs (sc_resolution c)) in H1.
  change (Rabs (sc_resolution c)) with r.
  assert (R0 : 0 <= r) by (apply Rabs_pos).
  destruct (flt_eps <~ r) eqn:FE.
  - apply bindO_ret in H1. destruct H1 as (z & H1 & H2). injection H2 as <-.
    unfold round_int, dfloor, RCasts in H1. destruct (int_ok _); [|discriminate H1]. injection H1 as H1.
    assert (RP : 0 < r).
    { change (Rltb (/ IZR (2 ^ 23)) r = true) in FE.
      destruct (Rltb_spec (/ IZR (2 ^ 23)) r) as [FL|]; [|discriminate FE].
      eapply Rlt_trans; [|exact FL]. apply Rinv_0_lt_compat, (IZR_lt 0). reflexivity. }
    pose proof (floorR_spec (x / r + 5 / 10)) as K.
    change (floorR (x / r + 5 / 10) = z) in H1. rewrite H1 in K.
    change (ndec z 0) with (IZR z). change (r *~ IZR z) with (r * IZR z).
    assert (XE : x = r * (x / r)) by (field; lra). set (q := x / r) in *. clearbody q. rewrite XE.
    assert (M1 : r * IZR z <= r * (q + 5 / 10)) by (apply Rmult_le_compat_l; lra).
    assert (M2 : r * (q + 5 / 10) <= r * (IZR z + 1)) by (apply Rmult_le_compat_l; lra).
    apply Rabs_le. split; lra.
  - injection H1 as <-. unfold Rminus. rewrite Rplus_opp_r, Rabs_R0. lra.
Qed.
Print Assumptions C84_accuracy.
(** Without a resolution the reading is exact. *)
Corollary C84_exact : forall (c : SensorConfig R R) m truth dt draw s s',
  sm_perfect m = false -> degraded m = false -> powered m = true -> sc_noise c = false ->
  (truth = 0 \/ flt_min <= Rabs truth) -> sc_resolution c = 0 ->
  sensor_update c m truth dt draw s = Ret s' ->
  ss_sensed s' = clip (sc_min c) (sc_conv c truth * sc_scale c + sc_bias c) (sc_max c).
Proof.
  intros c m truth dt draw s s' P Q W NO T Z H.
  pose proof (C84_accuracy c m truth dt draw s s' P Q W NO T H) as A. rewrite Z, Rabs_R0 in A.
  revert A. unfold Rabs. destruct (Rcase_abs _); intros; lra.
Qed.
Print Assumptions C84_exact.
(** A range limit that is no multiple of the resolution is still read. *)
Definition m_cfg : SensorConfig f32 float :=
  mkSensorConfig (fl 0) (fl 10.25) (fl 0) (fl 0) (fl 1) (fl 0) (fl 0) (fl 0.5) false (fun x => x).
Theorem C84_multiple_refuted : exists (c : SensorConfig f32 float) m truth dt draw s s',
  sensor_valid c = true /\ degraded m = false /\ powered m = true /\
  sensor_update c m truth dt draw s = Ret s' /\
  (ss_sensed s' /~ sc_resolution c ==~ fl 20.5) = true.
Proof.
  assert (E : match sensor_update m_cfg (cleared true) 20%float 1%float no_draw f_state with
              | Ret s => ss_sensed s /~ sc_resolution m_cfg ==~ fl 20.5 | _ => false end = true)
    by (vm_compute; reflexivity).
  destruct (sensor_update m_cfg (cleared true) 20%float 1%float no_draw f_state) as [s'| |] eqn:A;
    try discriminate E.
  exists m_cfg, (cleared true), 20%float, 1%float, no_draw, f_state, s'.
  repeat (split; [vm_compute; reflexivity|]). auto.
Qed.
Print Assumptions C84_multiple_refuted.
