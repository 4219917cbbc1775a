(** C215: the controller of a pump's motor. *)
From Coq Require Import Floats.
From Coq Require Import Reals Lra Lia List Arith Bool ZArith.
From Verif Require Import Num Ord MathUtil Props_Math FluidFlow FluidFan Spec_Valve Props_Valve Props_Detector Props_FluidFan Turbine Props_Turbine Motor Props_Motor Props_PwmMotor.
Import ListNotations.
Local Open Scope R_scope.

(** A step of the motor: the current is at the speed before it, heat at the speed after it. *)
Theorem C213_step : forall (c : dc_cfg R) f l volt lim dt w, let r := dc_step c f l volt lim dt w in
  o_current r = dc_current c f volt lim w /\ o_power r = o_current r * volt /\ o_resist r = dc_resistance (o_current r) volt /\
  o_drive r = d_k c * o_current r /\ o_load r = mot_load f l (d_k c * volt / dc_res c f) /\
  o_speed r = mot_speed f dt (o_drive r + o_load r - d_fric c * Rmax w (d_fmin c)) (d_inertia c) w /\
  o_waste r = mot_waste f (o_power r) (mot_useful (o_load r) (o_speed r)) /\ o_eff r = mot_eff (o_power r) (mot_useful (o_load r) (o_speed r)).
Proof.
  intros c f l volt lim dt w r. repeat split. unfold r, dc_step. cbn [o_speed o_drive o_load]. f_equal. unfold dc_friction. rewrite fan_max.
  cbn [nadd nmul nopp RNum]. ring.
Qed.

Section CONTROLLER.
Variables (fm : R -> R -> R) (sn : R -> R).
Notation update := (ct_update fm sn).
Notation run := (ct_run fm sn).

Theorem C215_accepts : forall (c : ct_cfg R) volt, ct_valid c volt = true <->
  0 <= c_force c <= 1 /\ 0 <= c_damp c <= 1 /\ 0 <= c_cut c <= 1 /\ 0 <= c_reset c < c_trip c /\ 0 <= c_vmin c < c_vmax c /\
  0 <= c_load c /\ 0 <= c_amp c /\ 0 <= c_freq c /\ 0 <= volt.
Proof.
  clear fm sn. intros c volt. unfold ct_valid. rewrite negb_true_iff, !orb_false_iff, !negb_false_iff, !in_range_iff, !ltN, !leN. cbn [n0 n1 RNum]. tauto.
Qed.
(** The voltage an input gives the controller. *)
Definition supply (u : ct_in R) : R := match i_over u with Some v => v | None => i_volt u end.
Definition powered (c : ct_cfg R) (u : ct_in R) : Prop := c_vmin c <= supply u <= c_vmax c /\ i_fail u = false.
Lemma ct_power_iff c u : ct_power c u = true <-> powered c u.
Proof. unfold ct_power, powered. rewrite andb_true_iff, in_range_iff, negb_true_iff. reflexivity. Qed.
(** Power: within the voltages and not failed; the motor's also needs the command and no trip. *)
Theorem C215_power : forall (c : ct_cfg R) dt u s,
  (x_cpow (update c dt u s) = true <-> powered c u) /\
  (x_mpow (update c dt u s) = true <-> powered c u /\ i_on u = true /\ x_trip (update c dt u s) = false).
Proof.
  intros c dt u s. assert (E : x_cpow (update c dt u s) = ct_power c u /\ x_mpow (update c dt u s) = ct_mpow c u (ct_trip c u (x_trip s)) /\ x_trip (update c dt u s) = ct_trip c u (x_trip s)).
  { unfold ct_update. destruct (_ && _); repeat split. }
  destruct E as (-> & -> & ->). split; [apply ct_power_iff|]. unfold ct_mpow. rewrite !andb_true_iff, negb_true_iff, ct_power_iff. tauto.
Qed.
(** Trips: too hot at some time, powered and not below the reset since. *)
Lemma x_trip_update c dt u s : x_trip (update c dt u s) = ct_trip c u (x_trip s).
Proof. unfold ct_update. now destruct (_ && _). Qed.
Lemma run_snoc c f l dt us u x : run c f l dt (us ++ [u]) x = ct_step fm sn c f l dt u (run c f l dt us x).
Proof. revert x; induction us as [|v us IH]; intro x; [reflexivity|]. cbn [app ct_run]. apply IH. Qed.
Lemma fst_step c f l dt u x : fst (ct_step fm sn c f l dt u x) = update c dt u (fst x).
Proof. reflexivity. Qed.
Theorem C215_trips : forall (c : ct_cfg R) f l dt volt us phase start w, ct_valid c volt = true ->
  (x_trip (fst (run c f l dt us (ct_init phase start, w))) = true <->
   exists pre u post, us = pre ++ u :: post /\ c_trip c < i_temp u /\ Forall (fun v => powered c v /\ c_reset c <= i_temp v) (u :: post)).
Proof.
  intros c f l dt volt us phase start w V. apply C215_accepts in V. destruct V as (_ & _ & _ & HT & _).
  induction us as [|u us IH] using rev_ind.
  - cbn [ct_run fst ct_init x_trip]. split; [discriminate|]. intros (p & u & q & E & _). now destruct p.
  - rewrite run_snoc. unfold ct_step at 1. cbn [fst]. rewrite x_trip_update.
    set (old := x_trip (fst (run c f l dt us (ct_init phase start, w)))) in *. unfold ct_trip. split.
    + destruct (ct_power c u) eqn:P; [|discriminate]. apply ct_power_iff in P. rewrite andb_true_iff, orb_true_iff, ltI, negb_true_iff, ltN.
      intros [[H|H] L].
      * exists us, u, []. split; [reflexivity|]. split; [exact H|]. constructor; [split; [exact P|exact L]|constructor].
      * apply IH in H. destruct H as (p & v & q & -> & H & F). exists p, v, (q ++ [u]). rewrite <- app_assoc. split; [reflexivity|]. split; [exact H|].
        change (v :: q ++ [u]) with ((v :: q) ++ [u]). apply Forall_app. split; [exact F|]. constructor; [split; [exact P|exact L]|constructor].
    + intros (p & v & q & E & H & F). destruct (exists_last (l := v :: q) ltac:(discriminate)) as (q' & z & Q). rewrite Q in E.
      rewrite app_assoc in E. apply app_inj_tail in E. destruct E as [E ->]. rewrite Q in F. apply Forall_app in F. destruct F as [F1 F2].
      inversion F2 as [|? ? [P L] _]; subst. rewrite (proj2 (ct_power_iff c z) P).
      rewrite andb_true_iff, orb_true_iff, ltI, negb_true_iff, ltN. split; [|exact L].
      destruct q' as [|v' q']; cbn [app] in Q; inversion Q; subst; [left; exact H|right].
      apply IH. exists p, v', q'. repeat split; [exact H|exact F1].
Qed.
(** Stopped: no pulse, no error, ready for a start. *)
Definition command (u : ct_in R) : R := match i_mcmd u with Some v => v | None => i_cmd u end.
Theorem C215_stopped : forall (c : ct_cfg R) dt u s, x_mpow (update c dt u s) = false \/ command u <= feps ->
  x_pulse (update c dt u s) = 0 /\ x_err (update c dt u s) = 0 /\ x_start (update c dt u s) = true /\ x_phase (update c dt u s) = x_phase s.
Proof.
  intros c dt u s H. unfold ct_update in *. fold (command u) in *.
  set (mp := ct_mpow c u (ct_trip c u (x_trip s))) in *.
  assert (E : (mp && (feps <~ command u)) = false).
  { destruct H as [H|H].
    - destruct (mp && (feps <~ command u)) eqn:E; [|reflexivity]. cbn [x_mpow] in H. rewrite H in E. discriminate.
    - assert (L : (feps <~ command u) = false) by (apply ltN; exact H). rewrite L. apply andb_false_r. }
  rewrite E. repeat split.
Qed.
(** The pulse is a fraction, always. *)
Theorem C215_pulse : forall (c : ct_cfg R) f l dt us phase start w,
  0 <= x_pulse (fst (run c f l dt us (ct_init phase start, w))) <= 1.
Proof.
  intros c f l dt us phase start w. induction us as [|u us _] using rev_ind; [change (0 <= 0 <= 1); lra|].
  rewrite run_snoc, fst_step. set (s := fst _).
  assert (W : forall x : R, 0 <= within 0 x 1 <= 1).
  { intro x. unfold within. split; [apply Rmax_l|apply Rmax_lub; [lra|apply Rmin_r]]. }
  assert (E : x_pulse (update c dt u s) = 0 \/ exists x, x_pulse (update c dt u s) = within 0 x 1).
  { unfold ct_update. destruct (_ && _); [right|now left]. cbn [x_pulse]. unfold ct_filter. cbv zeta. destruct (_ <~ _); cbn [fst]; rewrite within_limit; eexists; reflexivity. }
  destruct E as [->|[x ->]]; [lra|apply W].
Qed.
(** Running: the error is relative to the command with its noise; the pulse is forced by it and,
    outside the cutoff, damped by its change; the startup ends inside the cutoff. *)
Theorem C215_running : forall (c : ct_cfg R) dt u s, x_mpow (update c dt u s) = true -> feps < command u ->
  let s' := update c dt u s in
  let goal := command u + c_amp c * sn (x_phase s') in
  (feps < goal -> x_err s' * goal = goal - i_speed u) /\ (goal <= feps -> x_err s' = -1) /\
  x_pulse s' = within 0 (x_pulse s + c_force c * x_err s' +
     (if Rlt_dec (c_cut c) (Rabs (x_err s')) then c_damp c * ((x_err s' - x_err s) / Rmax (Rabs (x_err s')) (1/10000)) else 0)) 1 /\
  (x_start s' = true <-> x_start s = true /\ c_cut c < Rabs (x_err s')).
Proof.
  intros c dt u s M H. cbv zeta. unfold ct_update in *. fold (command u) in *.
  set (mp := ct_mpow c u (ct_trip c u (x_trip s))) in *.
  assert (L : (feps <~ command u) = true) by (apply ltI; exact H). rewrite L, andb_true_r in *.
  assert (MP : mp = true) by (destruct mp; [reflexivity|discriminate M]). rewrite MP in *. cbn [x_err x_phase x_pulse x_start].
  set (ph := ct_phase fm c dt (x_phase s)) in *. clearbody ph. cbn [nadd nmul RNum]. set (g := command u + c_amp c * sn ph). clearbody g.
  pose proof feps_pos as FP. split; [|split].
  - intro G. unfold ct_error. assert (LG : (feps <~ g) = true) by (apply ltI; exact G). rewrite LG. cbn [nsub ndiv RNum]. field. lra.
  - intro G. unfold ct_error. assert (LG : (feps <~ g) = false) by (apply ltN; exact G). rewrite LG. cbn [nopp n1 RNum]. lra.
  - set (e := ct_error g (i_speed u)). clearbody e. unfold ct_filter. change (nabs e) with (Rabs e).
    assert (K : (ndec 1 (-4) : R) = 1/10000) by (cbn [ndec RNum]; unfold Rdec; cbn [Z.leb Z.compare Z.opp]; change (10 ^ 4)%Z with 10000%Z; lra).
    destruct (Rlt_dec (c_cut c) (Rabs e)) as [G|G].
    + assert (LG : (c_cut c <~ Rabs e) = true) by (apply ltI; exact G). rewrite LG. cbn [fst snd]. rewrite within_limit, fan_max, K.
      cbn [nadd nsub nmul ndiv nopp n0 n1 RNum]. split; [f_equal; unfold Rdiv; ring|]. tauto.
    + assert (LG : (c_cut c <~ Rabs e) = false) by (apply ltN; lra). rewrite LG. cbn [fst snd]. rewrite within_limit.
      cbn [nadd nsub nmul ndiv nopp n0 n1 RNum]. split; [f_equal; ring|]. split; [discriminate|tauto].
Qed.
(** On speed without noise nothing changes. *)
Theorem C215_steady : forall (c : ct_cfg R) dt u s volt, ct_valid c volt = true -> x_mpow (update c dt u s) = true -> feps < command u ->
  c_amp c = 0 -> i_speed u = command u -> 0 <= x_pulse s <= 1 ->
  x_err (update c dt u s) = 0 /\ x_pulse (update c dt u s) = x_pulse s /\ x_start (update c dt u s) = false.
Proof.
  intros c dt u s volt V M H A E P. apply C215_accepts in V. destruct V as (_ & _ & CU & _).
  destruct (C215_running c dt u s M H) as (G1 & _ & G3 & G4). rewrite A, Rmult_0_l, Rplus_0_r in *. specialize (G1 H).
  pose proof feps_pos as FP.
  assert (Z0 : x_err (update c dt u s) = 0) by (apply (Rmult_eq_reg_r (command u)); [rewrite G1, E; ring|lra]).
  rewrite Z0, Rabs_R0 in *. split; [reflexivity|]. split.
  - rewrite G3. destruct (Rlt_dec (c_cut c) 0); [lra|]. unfold within. rewrite Rmult_0_r, !Rplus_0_r, Rmin_left, Rmax_right by lra. reflexivity.
  - destruct (x_start (update c dt u s)); [|reflexivity]. destruct (proj1 G4 eq_refl). lra.
Qed.
(** The noise's phase stays within a turn, for an fmod as in the C standard. *)
Definition fmod_ok : Prop := forall x y, 0 < y -> Rabs (fm x y) < y /\ exists k : Z, x = fm x y + IZR k * y.
Lemma two_pi_pos : 0 < (two_pi : R).
Proof. unfold two_pi. cbn [ndec RNum]. unfold Rdec. cbn [Z.leb Z.compare Z.opp]. apply Rdiv_lt_0_compat; apply IZR_lt; reflexivity. Qed.
Theorem C215_phase : fmod_ok -> forall (c : ct_cfg R) dt ph,
  0 <= ct_phase fm c dt ph < two_pi /\ exists k : Z, ct_phase fm c dt ph = ph + two_pi * c_freq c * dt + IZR k * two_pi.
Proof.
  intros FM c dt ph. unfold ct_phase. change (ph +~ two_pi *~ c_freq c *~ dt) with (ph + two_pi * c_freq c * dt). pose proof two_pi_pos as TP.
  set (x := ph + two_pi * c_freq c * dt). clearbody x. destruct (FM x two_pi TP) as [B [k K]]. set (t := (two_pi : R)) in *. clearbody t.
  set (p := fm x t) in *. clearbody p. apply Rabs_def2 in B. destruct (Rle_dec 0 p).
  - assert (L : (p <~ n0) = false) by (apply ltN; assumption). rewrite L. split; [lra|]. exists (- k)%Z. rewrite opp_IZR. lra.
  - assert (L : (p <~ n0) = true) by (apply ltI; cbn [n0 RNum]; lra). rewrite L. cbn [nadd RNum]. split; [lra|]. exists (1 - k)%Z. rewrite minus_IZR. lra.
Qed.
(** The startup limit holds for the current. *)
Theorem C215_startup : forall (c : ct_cfg R) f l dt w u s, x_start s = true -> 0 <= c_start c -> neps <= d_wind (c_motor c) ->
  0 <= o_current (ct_motor c f l dt w u s) <= c_start c.
Proof.
  intros c f l dt w u s S0 H W. unfold ct_motor. destruct (C213_step (c_motor c) f l (x_pulse s *~ ct_volt u) (ct_limit c s) dt w) as (-> & _).
  rewrite C213_current by exact W. unfold ct_limit. rewrite S0. split; [apply Rmax_l|apply Rmax_lub; [exact H|apply Rmin_r]].
Qed.
(** The supply's power is the controller's and the motor's; the heat likewise. *)
Theorem C215_total : forall (c : ct_cfg R) f l dt w u s, i_over u = None -> x_cpow s = true -> x_mpow s = true ->
  let m := ct_motor c f l dt w u s in
  0 < i_volt u -> neps <= i_volt u * i_volt u -> 0 < x_pulse s -> neps <= o_current m -> neps * o_current m <= x_pulse s * i_volt u ->
  neps <= c_load c / (i_volt u * i_volt u) + x_pulse s * x_pulse s / o_resist m ->
  ct_total c u s m = c_load c + o_power m /\ ct_heat c s m = c_load c + o_waste m.
Proof.
  intros c f l dt w u s OV CP MP. cbv zeta. unfold ct_motor.
  assert (VV : ct_volt u = i_volt u) by (unfold ct_volt; now rewrite OV).
  destruct (C213_step (c_motor c) f l (x_pulse s *~ ct_volt u) (ct_limit c s) dt w) as (_ & PW & RS & _).
  set (m := dc_step _ _ _ _ _ _ _) in *. clearbody m. intros V V2 P I RE G. pose proof neps_pos as EP.
  assert (R1 : o_resist m = x_pulse s * i_volt u / o_current m).
  { rewrite RS. unfold dc_resistance. rewrite fan_max, (Rmax_left (o_current m)) by exact I. rewrite VV. reflexivity. }
  assert (R2 : neps <= o_resist m).
  { rewrite R1. apply (Rmult_le_reg_r (o_current m)); [lra|]. replace (x_pulse s * i_volt u / o_current m * o_current m) with (x_pulse s * i_volt u) by (field; lra). exact RE. }
  split.
  - unfold ct_total, ct_current, ct_resist, ct_conduct, ct_use. rewrite CP, MP, VV. rewrite !fan_max. cbn [nadd nmul ndiv n0 n1 RNum].
    rewrite (Rmax_right neps (i_volt u * i_volt u)) by exact V2. rewrite (Rmax_right neps (o_resist m)) by exact R2. rewrite Rplus_0_l, Rmax_right by exact G.
    rewrite PW, VV. cbn [nmul RNum]. rewrite R1 in *. 
    set (g := c_load c / (i_volt u * i_volt u) + x_pulse s * x_pulse s / (x_pulse s * i_volt u / o_current m)) in *.
    replace (i_volt u * (i_volt u / (1 / g))) with (i_volt u * i_volt u * g) by (field; lra). unfold g. field. lra.
  - unfold ct_heat. rewrite CP, MP. cbn [nadd n0 RNum]. ring.
Qed.
(** Without power it is the largest resistance. *)
Theorem C215_unpowered : forall (c : ct_cfg R) f l dt w dt' u s, x_cpow (update c dt' u s) = false ->
  let s' := update c dt' u s in let m := ct_motor c f l dt w u s' in
  ct_resist c u s' m = 1 / neps /\ ct_heat c s' m = 0 /\ x_pulse s' = 0.
Proof.
  intros c f l dt w dt' u s H. cbv zeta. destruct (C215_power c dt' u s) as [P1 P2].
  assert (M : x_mpow (update c dt' u s) = false).
  { destruct (x_mpow (update c dt' u s)); [|reflexivity]. destruct (proj1 P2 eq_refl) as [P _]. apply P1 in P. congruence. }
  split; [|split].
  - unfold ct_resist, ct_conduct. rewrite H, M, fan_max. cbn [ndiv n0 n1 RNum]. pose proof neps_pos. now rewrite Rmax_left by lra.
  - unfold ct_heat. rewrite H, M. reflexivity.
  - apply (C215_stopped c dt' u s). now left.
Qed.
End CONTROLLER.

(** ** Examples and refutations *)
Definition ct1 (start : R) : ct_cfg R := mkct dc1 (1/2) (1/10) (1/100) 300 200 10 30 5 0 0 start.
Lemma ct1_ok start : ct_valid (ct1 start) 20 = true.
Proof. apply C215_accepts. cbn [c_force c_damp c_cut c_trip c_reset c_vmin c_vmax c_load c_amp c_freq ct1]. lra. Qed.
Definition cool (speed : R) : ct_in R := mkci 20 speed 250 100 true false None None.
(** Too hot, then cooler but not yet reset, then cold. *)
Definition hot (t : R) : ct_in R := mkci 20 0 t 100 true false None None.
Example ct1_trips : forall fm sn, let go us := x_trip (fst (ct_run fm sn (ct1 1) healthy no_load 1 us (ct_init 0 false, 0))) in
  go [hot 310; hot 250] = true /\ go [hot 310; hot 190] = false /\ go [hot 250] = false.
Proof.
  intros fm sn go. unfold go. assert (T : forall us, _) by (intro us; exact (C215_trips fm sn (ct1 1) healthy no_load 1 20 us 0 false 0 (ct1_ok 1))).
  assert (PW : forall t, powered (ct1 1) (hot t)) by (intro t; unfold powered, supply; cbn; split; [lra|reflexivity]).
  split; [|split].
  - apply T. exists [], (hot 310), [hot 250]. split; [reflexivity|]. cbn [i_temp hot c_trip ct1]. split; [lra|].
    apply Forall_cons; [split; [apply PW|cbn [i_temp hot c_reset ct1]; lra]|]. apply Forall_cons; [split; [apply PW|cbn [i_temp hot c_reset ct1]; lra]|apply Forall_nil].
  - apply not_true_is_false. intro H. apply T in H. destruct H as (p & u & q & E & H & F).
    assert (L : In (hot 190) (u :: q)).
    { destruct p as [|a [|b p]]; cbn [app] in E; inversion E; subst; [right; left; reflexivity|left; reflexivity|]. destruct p; discriminate. }
    rewrite Forall_forall in F. destruct (F _ L) as [_ F']. cbn [i_temp hot c_reset ct1] in F'. lra.
  - apply not_true_is_false. intro H. apply T in H. destruct H as (p & u & q & E & H & F).
    destruct p as [|a p]; cbn [app] in E; inversion E; subst; [cbn [i_temp hot c_trip ct1] in H; lra|]. destruct p; discriminate.
Qed.
(** At rest and full pulse: five watts and the motor's twenty amperes at twenty volts. *)
Example ct1_total : let s := mkcts false true true 0 0 1 false in
  ct_total (ct1 1) (cool 0) s (ct_motor (ct1 1) healthy no_load 1 0 (cool 0) s) = 405.
Proof.
  cbv zeta. set (s := mkcts false true true 0 0 1 false). pose proof neps_pos as NP. pose proof neps_small as NE. pose proof rpm_range as K.
  assert (LIM : (ndec 1 15 : R) = 1000000000000000) by (cbn [ndec RNum]; unfold Rdec; cbn [Z.leb Z.compare]; change (10 ^ 15)%Z with 1000000000000000%Z; lra).
  assert (I : o_current (ct_motor (ct1 1) healthy no_load 1 0 (cool 0) s) = 20).
  { unfold ct_motor. destruct (C213_step (c_motor (ct1 1)) healthy no_load (x_pulse s *~ ct_volt (cool 0)) (ct_limit (ct1 1) s) 1 0) as (-> & _).
    rewrite C213_current by (cbn [c_motor ct1 d_wind dc1]; lra). unfold ct_limit, winding, ct_volt. cbn [x_start s j_degrade healthy c_motor ct1 d_wind d_k dc1 x_pulse i_over i_volt cool nmul RNum].
    rewrite LIM. replace ((1 * 20 - 1 * 0 / rpm) / 1) with 20 by (field; lra). rewrite Rmin_left, Rmax_right by lra. reflexivity. }
  assert (RS : o_resist (ct_motor (ct1 1) healthy no_load 1 0 (cool 0) s) = 1).
  { unfold ct_motor in *. destruct (C213_step (c_motor (ct1 1)) healthy no_load (x_pulse s *~ ct_volt (cool 0)) (ct_limit (ct1 1) s) 1 0) as (_ & _ & -> & _). rewrite I.
    unfold dc_resistance, ct_volt. rewrite fan_max, Rmax_left by lra. cbn [x_pulse s i_over i_volt cool nmul ndiv RNum]. field. }
  assert (PW : o_power (ct_motor (ct1 1) healthy no_load 1 0 (cool 0) s) = 400).
  { unfold ct_motor in *. destruct (C213_step (c_motor (ct1 1)) healthy no_load (x_pulse s *~ ct_volt (cool 0)) (ct_limit (ct1 1) s) 1 0) as (_ & -> & _). rewrite I.
    unfold ct_volt. cbn [x_pulse s i_over i_volt cool nmul RNum]. lra. }
  destruct (C215_total (ct1 1) healthy no_load 1 0 (cool 0) s eq_refl eq_refl eq_refl) as [T _]; rewrite ?I, ?RS; cbn [x_pulse s i_volt cool c_load ct1]; try lra.
  rewrite T, PW. cbn [c_load ct1]. lra.
Qed.
(** An [fmod] exists: the remainder towards zero. *)
Definition fmodR (x y : R) : R := if Rle_dec 0 x then x - IZR (Int_part (x / y)) * y else - (- x - IZR (Int_part (- x / y)) * y).
Example fmodR_ok : fmod_ok fmodR.
Proof.
  intros x y Y.
  assert (P : forall z, 0 <= z -> 0 <= z - IZR (Int_part (z / y)) * y < y).
  { intros z Hz. destruct (base_Int_part (z / y)) as [A B]. set (k := IZR (Int_part (z / y))) in *. clearbody k.
    assert (E : z = z / y * y) by (field; lra). set (q := z / y) in *. clearbody q. split.
    - assert (0 <= (q - k) * y) by (apply Rmult_le_pos; lra). lra.
    - assert (0 < (1 - (q - k)) * y) by (apply Rmult_lt_0_compat; lra). lra. }
  unfold fmodR. destruct (Rle_dec 0 x) as [H|H].
  - specialize (P x H). split; [apply Rabs_def1; lra|]. exists (Int_part (x / y)). ring.
  - specialize (P (- x) ltac:(lra)). split; [apply Rabs_def1; lra|]. exists (- Int_part (- x / y))%Z. rewrite opp_IZR. ring.
Qed.
(** Refuted: a commanded and powered motor starts.  The startup limit is not checked; at zero, its
    default, the motor stays at rest for ever. *)
Theorem C215_starts_refuted : exists (c : ct_cfg R) volt, ct_valid c volt = true /\ dc_valid (c_motor c) volt 0 = true /\
  forall fm sn n, let x := ct_run fm sn c healthy no_load 1 (repeat (cool 0) n) (ct_init 0 true, 0) in
  snd x = 0 /\ ((1 <= n)%nat -> x_mpow (fst x) = true).
Proof.
  exists (ct1 0), 20. split; [apply ct1_ok|]. pose proof neps_small as NE. pose proof neps_pos as NP.
  split; [apply C213_accepts; cbn [c_motor ct1 d_wind d_k d_fric d_fmin d_inertia dc1]; lra|].
  intros fm sn n. cbv zeta.
  assert (PW : powered (ct1 0) (cool 0)) by (unfold powered, supply; cbn; split; [lra|reflexivity]).
  assert (G : forall n, let x := ct_run fm sn (ct1 0) healthy no_load 1 (repeat (cool 0) n) (ct_init 0 true, 0) in
     snd x = 0 /\ x_start (fst x) = true /\ x_trip (fst x) = false /\ ((1 <= n)%nat -> x_mpow (fst x) = true)).
  { clear n. induction n as [|n IH]; [cbv zeta; cbn [repeat ct_run snd fst ct_init x_start x_trip n0 RNum]; repeat split; lia|]. cbv zeta in *.
    change (repeat (cool 0) (S n)) with (cool 0 :: repeat (cool 0) n). rewrite repeat_cons, run_snoc. set (x := ct_run fm sn _ _ _ _ (repeat _ n) _) in *. clearbody x. destruct IH as (W & S0 & TR & _).
    unfold ct_step. cbn [fst snd]. set (s' := ct_update fm sn (ct1 0) 1 (cool 0) (fst x)).
    assert (T' : x_trip s' = false).
    { unfold s'. rewrite x_trip_update, TR. unfold ct_trip. rewrite (proj2 (ct_power_iff _ _) PW).
      assert (L : (c_trip (ct1 0) <~ i_temp (cool 0)) = false) by (apply ltN; cbn [c_trip ct1 i_temp cool]; lra). now rewrite L. }
    assert (M : x_mpow s' = true) by (apply (C215_power fm sn); repeat split; [apply PW|apply PW|exact T']).
    assert (CM : feps < command (cool 0)) by (pose proof fan_feps; unfold command; cbn [i_mcmd i_cmd cool]; lra).
    destruct (C215_running fm sn (ct1 0) 1 (cool 0) (fst x) M CM) as (E1 & _ & _ & E4). fold s' in E1, E4.
    cbn [c_amp ct1] in E1. rewrite Rmult_0_l, Rplus_0_r in E1. specialize (E1 CM). unfold command in E1. cbn [i_mcmd i_cmd i_speed cool] in E1.
    assert (EE : x_err s' = 1) by lra.
    assert (ST : x_start s' = true) by (apply E4; split; [exact S0|rewrite EE, Rabs_R1; cbn [c_cut ct1]; lra]).
    repeat split; [|exact ST|exact T'|intro; exact M].
    destruct (C215_startup (ct1 0) healthy no_load 1 (snd x) (cool 0) s' ST) as [I1 I2]; [cbn [c_start ct1]; lra|cbn [c_motor ct1 d_wind dc1]; lra|]. cbn [c_start ct1] in I2.
    unfold ct_motor in *. destruct (C213_step (c_motor (ct1 0)) healthy no_load (x_pulse s' *~ ct_volt (cool 0)) (ct_limit (ct1 0) s') 1 (snd x)) as (_ & _ & _ & DR & LD & SP & _).
    set (m := dc_step _ _ _ _ _ _ _) in *. clearbody m. rewrite SP, DR, LD, C213_load. cbn [j_jam healthy]. assert (I0 : o_current m = 0) by lra. rewrite I0, W.
    unfold mot_speed. cbn [j_speed healthy]. rewrite fan_max. cbn [c_motor ct1 d_k d_fric d_fmin d_inertia dc1 nadd nmul ndiv n0 RNum]. unfold torques, no_load.
    set (k := sec_2pi). clearbody k. replace (0 + (1 * 0 + (0 + 0 + 0 + 0) - 0 * Rmax 0 0) * 1 * k / 1) with 0 by field. apply Rmax_left. lra. }
  destruct (G n) as (A & _ & _ & B). split; [exact A|exact B].
Qed.
(** Refuted: the total power is at least the waste heat of a motor at rest.  With the voltage override
    it is the current of the overriding voltage at the real one. *)
Theorem C215_override_refuted : exists (c : ct_cfg R) u (s : ct R), ct_valid c (i_volt u) = true /\ powered c u /\ x_cpow s = true /\ x_mpow s = false /\
  let m := ct_motor c healthy no_load 1 0 u s in ct_total c u s m = 0 /\ ct_heat c s m = 5.
Proof.
  exists (ct1 1), (mkci 0 0 250 0 false false (Some 20) None), (mkcts false true false 0 0 0 true).
  split; [apply C215_accepts; cbn [c_force c_damp c_cut c_trip c_reset c_vmin c_vmax c_load c_amp c_freq ct1 i_volt]; lra|].
  split; [unfold powered, supply; cbn [i_over i_fail c_vmin c_vmax ct1]; split; [lra|reflexivity]|]. do 2 (split; [reflexivity|]). cbv zeta.
  set (m := ct_motor _ _ _ _ _ _ _). clearbody m. split.
  - unfold ct_total. cbn [i_volt nmul RNum]. apply Rmult_0_l.
  - unfold ct_heat. cbn [x_cpow x_mpow c_load ct1 nadd n0 RNum]. lra.
Qed.
Print Assumptions C213_step.
Print Assumptions C215_accepts.
Print Assumptions C215_power.
Print Assumptions C215_trips.
Print Assumptions C215_stopped.
Print Assumptions C215_pulse.
Print Assumptions C215_running.
Print Assumptions C215_steady.
Print Assumptions C215_phase.
Print Assumptions C215_startup.
Print Assumptions C215_total.
Print Assumptions C215_unpowered.
Print Assumptions C215_starts_refuted.
Print Assumptions C215_override_refuted.
