(** C205-C207: limit switches, fan speed sensors, end sensors of valves and smoke detectors. *)
From Coq Require Import Floats.
From Coq Require Import Reals Lra Lia List Arith Bool ZArith.
From Verif Require Import Num Ord MathUtil Props_Math MsgQueue F32 Sensor Props_Sensor Spec_Interp Props_Pid Spec_Valve Props_Valve Detector.
From Verif Require Valve.
Import ListNotations.
Local Open Scope R_scope.

Lemma ltI (a b : R) : (a <~ b) = true <-> a < b.
Proof. cbn. destruct (Rltb_spec a b); split; intros; try lra; try discriminate; reflexivity. Qed.
Lemma leI (a b : R) : (a <=~ b) = true <-> a <= b.
Proof. cbn. destruct (Rleb_spec a b); split; intros; try lra; try discriminate; reflexivity. Qed.
Lemma ltN (a b : R) : (a <~ b) = false <-> b <= a.
Proof. cbn. destruct (Rltb_spec a b); split; intros; try lra; try discriminate; reflexivity. Qed.
Lemma leN (a b : R) : (a <=~ b) = false <-> b < a.
Proof. cbn. destruct (Rleb_spec a b); split; intros; try lra; try discriminate; reflexivity. Qed.

(** ** C205 *)
(** A failure shows its value with or without power; without power the switch shows its off value. *)
Theorem C205_switch : forall fv ov real p f,
  (f = true -> limit_switch fv ov real p f = fv) /\
  (f = false -> p = false -> limit_switch fv ov real p f = ov) /\
  (f = false -> p = true -> limit_switch fv ov real p f = real).
Proof. intros fv ov real [] []; repeat split; intros; try discriminate; reflexivity. Qed.
Print Assumptions C205_switch.
(** A sound powered analog switch is on from its target less the tolerance and beyond, in the
    direction of the target's sign; around a target of zero on both sides. *)
Theorem C205_threshold : forall fv ov (target tol x : R), limit_valid tol = true ->
  (0 < target -> (limit_analog fv ov target tol x true false = true <-> target - tol < x)) /\
  (target < 0 -> (limit_analog fv ov target tol x true false = true <-> x < target + tol)) /\
  (target = 0 -> (limit_analog fv ov target tol x true false = true <-> - tol < x < tol)).
Proof.
  intros fv ov target tol x V. unfold limit_valid in V. apply negb_true_iff, ltN in V.
  assert (P : 0 < tol). { eapply Rlt_le_trans; [|exact V]. cbn. apply Rinv_0_lt_compat. apply IZR_lt. reflexivity. }
  unfold limit_analog, limit_switch, limit_in_range. cbn [negb].
  destruct (nabs (x -~ target) <~ tol) eqn:E; [apply ltI in E|apply ltN in E]; cbn in E.
  all: destruct (n0 <~ target) eqn:E1; [apply ltI in E1|apply ltN in E1]; cbn in E1.
  all: destruct (target <~ n0) eqn:E2; [apply ltI in E2|apply ltN in E2]; cbn in E2.
  all: destruct (target <~ x) eqn:E3; [apply ltI in E3|apply ltN in E3].
  all: destruct (x <~ target) eqn:E4; [apply ltI in E4|apply ltN in E4].
  all: cbn [andb]; unfold Rabs in E; destruct (Rcase_abs (x - target)) in E; repeat split; intros; try reflexivity; try discriminate; try lra.
Qed.
Print Assumptions C205_threshold.
(** A tolerance at or below zero is refused. *)
Theorem C205_tolerance : forall tol : R, tol <= 0 -> limit_valid tol = false.
Proof.
  intros tol H. unfold limit_valid. apply negb_false_iff, ltI. eapply Rle_lt_trans; [exact H|]. cbn. apply Rinv_0_lt_compat. apply IZR_lt. reflexivity.
Qed.
Print Assumptions C205_tolerance.
Example C205_threshold_example : limit_analog false false 1%float 0x1p-3%float 2%float true false = true /\
  limit_analog false false (-1)%float 0x1p-3%float (-0.9)%float true false = true /\
  limit_analog false false 1%float 0x1p-3%float 0.5%float true false = false.
Proof. vm_compute. repeat split; reflexivity. Qed.

(** The average of three speeds is between the sensors' range, and is the speed that three equal
    readings have. *)
Theorem C205_average : forall (c : SensorConfig R R) ma mb mc dt p v da db dc s a b c' avg, sensor_valid c = true ->
  fan_sense c ma mb mc dt p v da db dc s = Ret (a, b, c', avg) ->
  sc_min c <= avg <= sc_max c /\ avg = (ss_sensed a + ss_sensed b + ss_sensed c') / 3 /\
  (ss_sensed a = ss_sensed b -> ss_sensed b = ss_sensed c' -> avg = ss_sensed a).
Proof.
  intros c ma mb mc dt p v da db dc [[a0 b0] c0] a b c' avg V H. unfold fan_sense in H.
  apply bindO_ret in H. destruct H as (a1 & Ea & H). apply bindO_ret in H. destruct H as (b1 & Eb & H). apply bindO_ret in H. destruct H as (c1 & Ec & H).
  injection H as <- <- <- <-.
  assert (G : forall m t d dr s0 s1, sensor_update c m t d dr s0 = Ret s1 -> sc_min c <= ss_sensed s1 <= sc_max c).
  { intros m t d dr s0 s1 E. destruct (C49_range c m t d dr s0 s1 V E) as [[A B]|N]; [|rewrite R_nan0 in N; discriminate N].
    apply leI in A. apply leI in B. lra. }
  apply G in Ea. apply G in Eb. apply G in Ec.
  cbn -[Rdec]. replace (Rdec 3 0) with 3 by (unfold Rdec; cbn; lra). repeat split; intros; try lra.
Qed.
Print Assumptions C205_average.
(** Without power the average is the off value, whatever the sensors' malfunctions but the perfect
    one and the one that ignores power. *)
Theorem C205_average_off : forall (c : SensorConfig R R) ma mb mc dt v da db dc s, sensor_valid c = true ->
  sm_perfect ma = false -> sm_perfect mb = false -> sm_perfect mc = false ->
  sm_ignore_power ma = false -> sm_ignore_power mb = false -> sm_ignore_power mc = false ->
  exists a b c', fan_sense c ma mb mc dt false v da db dc s = Ret (a, b, c', sc_off c).
Proof.
  intros c ma mb mc dt v da db dc [[a0 b0] c0] V Pa Pb Pc Ia Ib Ic. unfold fan_sense.
  destruct (C49_off c (with_power false ma) v dt da a0 V Pa (or_introl (conj eq_refl Ia))) as (a & -> & Ra & _).
  destruct (C49_off c (with_power false mb) v dt db b0 V Pb (or_introl (conj eq_refl Ib))) as (b & -> & Rb & _).
  destruct (C49_off c (with_power false mc) v dt dc c0 V Pc (or_introl (conj eq_refl Ic))) as (c' & -> & Rc & _).
  exists a, b, c'. cbn [bindO]. rewrite Ra, Rb, Rc. repeat f_equal.
  cbn -[Rdec]. replace (Rdec 3 0) with 3 by (unfold Rdec; cbn; lra). lra.
Qed.
Print Assumptions C205_average_off.

(** The end sensors of a valve see the position the update has just reached, with or without supply
    to the valve. *)
Definition sound_sensor (s : Valve.bsense) : Prop :=
  Valve.b_failto s = false /\ Valve.b_failoff s = false /\ Valve.b_failstuck s = false.
Theorem C205_ends : forall (eps : R) (k : acfg R) s supply en opn cls un handle dt, sound_sensor (as_so s) -> sound_sensor (as_sc s) ->
  let s' := asm_update eps k s supply en opn cls un handle dt in
  let x := Valve.v_pos (Valve.p_v (as_p s')) in
  (as_open s' = true <-> Rabs (x - ac_topen k) <= ac_tolopen k) /\
  (as_closed s' = true <-> Rabs (x - ac_tclosed k) <= ac_tolclosed k) /\
  sound_sensor (as_so s') /\ sound_sensor (as_sc s').
Proof.
  intros eps k s supply en opn cls un handle dt (A1 & A2 & A3) (B1 & B2 & B3) s' x. unfold s', asm_update in *. cbn [as_open as_closed as_so as_sc as_p] in *.
  fold x. unfold end_sense, Valve.bool_sense, Valve.analog_truth, sound_sensor.
  cbn [Valve.b_out Valve.b_perfect Valve.b_power Valve.b_ignore Valve.b_failoff Valve.b_failto Valve.b_failstuck].
  rewrite A1, A2, A3, B1, B2, B3. cbn [orb negb andb]. destruct (Valve.b_perfect (as_so s)), (Valve.b_perfect (as_sc s)); rewrite !leI; cbn; repeat split; auto.
Qed.
Print Assumptions C205_ends.
(** Both ends are shown at once only if the tolerances reach over the distance of the targets. *)
Theorem C205_not_both : forall (eps : R) (k : acfg R) s supply en opn cls un handle dt, sound_sensor (as_so s) -> sound_sensor (as_sc s) ->
  ac_tolopen k + ac_tolclosed k < Rabs (ac_topen k - ac_tclosed k) ->
  let s' := asm_update eps k s supply en opn cls un handle dt in as_open s' && as_closed s' = false.
Proof.
  intros eps k s supply en opn cls un handle dt A B L s'. destruct (C205_ends eps k s supply en opn cls un handle dt A B) as (E1 & E2 & _). fold s' in E1, E2.
  destruct (as_open s'); [|reflexivity]. destruct (as_closed s'); [|reflexivity]. exfalso. apply proj1 in E1. apply proj1 in E2.
  specialize (E1 eq_refl). specialize (E2 eq_refl). cbn -[Rabs Valve.v_pos Valve.p_v] in E1, E2.
  revert E1 E2 L. unfold Rabs. destruct (Rcase_abs _), (Rcase_abs _), (Rcase_abs _); lra.
Qed.
Print Assumptions C205_not_both.
(** A valve that interrupts its command at its ends stops where its sensor first sees the end, and
    stays there however long it is commanded on: short of the end by up to the tolerance. *)
Lemma stop_step : forall (eps : R) (k : acfg R) s dt, sound_sensor (as_so s) -> sound_sensor (as_sc s) ->
  let v := Valve.p_v (as_p s) in
  Valve.p_eot (as_p s) = true -> Valve.p_mdstuck (as_p s) = false -> Valve.p_mdfail (as_p s) = false -> Valve.p_mpfail (as_p s) = false ->
  Valve.v_mstuck v = false -> Valve.v_mfail v = false -> Valve.v_man v = false -> Valve.v_min v <= Valve.v_pos v <= Valve.v_max v ->
  as_open s = true -> Rabs (Valve.v_pos v - ac_topen k) <= ac_tolopen k ->
  let s' := asm_update eps k s true true true false false 0 dt in
  let v' := Valve.p_v (as_p s') in
  sound_sensor (as_so s') /\ sound_sensor (as_sc s') /\
  Valve.p_eot (as_p s') = true /\ Valve.p_mdstuck (as_p s') = false /\ Valve.p_mdfail (as_p s') = false /\ Valve.p_mpfail (as_p s') = false /\
  Valve.v_mstuck v' = false /\ Valve.v_mfail v' = false /\ Valve.v_man v' = false /\
  Valve.v_min v' = Valve.v_min v /\ Valve.v_max v' = Valve.v_max v /\ Valve.v_pos v' = Valve.v_pos v /\ as_open s' = true.
Proof.
  intros eps k s dt A B v E M1 M2 M3 V1 V2 V3 RG OP TL s' v'.
  destruct (C205_ends eps k s true true true false false 0 dt A B) as (E1 & _ & S1 & S2). fold s' in E1, S1, S2.
  assert (X : Valve.v_pos v' = Valve.v_pos v /\ Valve.v_min v' = Valve.v_min v /\ Valve.v_max v' = Valve.v_max v /\
     Valve.v_mstuck v' = false /\ Valve.v_mfail v' = false /\ Valve.v_man v' = false).
  { unfold v', s', asm_update, Valve.open_close_update, Valve.powered_cmd, Valve.powered_update, Valve.update_position, Valve.drive.
    cbn [as_p Valve.p_v Valve.p_mdstuck Valve.p_mdfail Valve.p_supply Valve.p_mgood Valve.p_mpfail Valve.p_en Valve.p_cmd Valve.p_cs Valve.v_pos Valve.v_min Valve.v_max Valve.v_mstuck Valve.v_mfail Valve.v_man Valve.v_mman Valve.p_latch].
    fold v. rewrite E, M1, M2, M3, V1, V2, V3, OP. cbn [andb orb negb Valve.open_close_eot_cmd].
    split; [|auto 10]. unfold Valve.open_close_eot_cmd. cbn [andb negb]. rewrite limit_within by lra. unfold within. cbn.
    rewrite Rmult_0_l, Rmult_0_l, Rplus_0_r. rewrite Rmin_left by lra. apply Rmax_right. lra. }
  destruct X as (X1 & X2 & X3 & X4 & X5 & X6). assert (O' : as_open s' = true) by (apply E1; fold v'; now rewrite X1).
  repeat (split; [first [assumption|exact E|exact M1|exact M2|exact M3]|]). assumption.
Qed.
Theorem C205_stops_short : forall n (eps : R) (k : acfg R) s dt, sound_sensor (as_so s) -> sound_sensor (as_sc s) ->
  let v := Valve.p_v (as_p s) in
  Valve.p_eot (as_p s) = true -> Valve.p_mdstuck (as_p s) = false -> Valve.p_mdfail (as_p s) = false -> Valve.p_mpfail (as_p s) = false ->
  Valve.v_mstuck v = false -> Valve.v_mfail v = false -> Valve.v_man v = false -> Valve.v_min v <= Valve.v_pos v <= Valve.v_max v ->
  as_open s = true -> Rabs (Valve.v_pos v - ac_topen k) <= ac_tolopen k ->
  Valve.v_pos (Valve.p_v (as_p (Nat.iter n (fun s => asm_update eps k s true true true false false 0 dt) s))) = Valve.v_pos v.
Proof.
  intros n eps k s dt A B v E M1 M2 M3 V1 V2 V3 RG OP TL.
  set (f := fun s => asm_update eps k s true true true false false 0 dt).
  assert (G : let s' := Nat.iter n f s in let v' := Valve.p_v (as_p s') in
    sound_sensor (as_so s') /\ sound_sensor (as_sc s') /\
    Valve.p_eot (as_p s') = true /\ Valve.p_mdstuck (as_p s') = false /\ Valve.p_mdfail (as_p s') = false /\ Valve.p_mpfail (as_p s') = false /\
    Valve.v_mstuck v' = false /\ Valve.v_mfail v' = false /\ Valve.v_man v' = false /\
    Valve.v_min v' = Valve.v_min v /\ Valve.v_max v' = Valve.v_max v /\ Valve.v_pos v' = Valve.v_pos v /\ as_open s' = true).
  { induction n as [|n IH]; [cbv zeta; change (Nat.iter 0 f s) with s; fold v; auto 20|].
    cbv zeta in *. change (Nat.iter (S n) f s) with (f (Nat.iter n f s)). set (t := Nat.iter n f s) in *. clearbody t.
    destruct IH as (I1 & I2 & I3 & I4 & I5 & I6 & I7 & I8 & I9 & I10 & I11 & I12 & I13).
    assert (RG' : Valve.v_min (Valve.p_v (as_p t)) <= Valve.v_pos (Valve.p_v (as_p t)) <= Valve.v_max (Valve.p_v (as_p t))) by (rewrite I10, I11, I12; exact RG).
    assert (TL' : Rabs (Valve.v_pos (Valve.p_v (as_p t)) - ac_topen k) <= ac_tolopen k) by (rewrite I12; exact TL).
    pose proof (stop_step eps k t dt I1 I2 I3 I4 I5 I6 I7 I8 I9 RG' I13 TL') as K. cbv zeta in K. fold (f t) in K.
    destruct K as (K1 & K2 & K3 & K4 & K5 & K6 & K7 & K8 & K9 & K10 & K11 & K12 & K13).
    rewrite K10, K11, K12, I10, I11, I12. auto 20. }
  apply G.
Qed.
Print Assumptions C205_stops_short.
