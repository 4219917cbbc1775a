(** C213, C214: electric motors. *)
From Coq Require Import Floats.
From Coq Require Import Reals Lra Lia List Arith Bool ZArith.
From Verif Require Import Num Ord MathUtil Props_Math FluidFlow FluidFan Spec_Valve Props_Valve Props_Detector Props_FluidFan Turbine Props_Turbine Motor.
Import ListNotations.
Local Open Scope R_scope.

Definition healthy : malf R := mkmalf None None None None.
Definition no_load : R * R * R * R := (0, 0, 0, 0).
(** Revolutions per minute over this is radians per second. *)
Definition rpm : R := sec_2pi.
Lemma rpm_range : 0 < rpm < 10. Proof. exact sec_range. Qed.
Definition torques (l : R * R * R * R) : R := let '(a, b, c, d) := l in a + b + c + d.

(** ** C213 *)
Theorem C213_accepts : forall (c : dc_cfg R) volt speed, dc_valid c volt speed = true <->
  neps <= d_wind c /\ neps <= d_k c /\ 0 <= d_fric c /\ 0 <= d_fmin c /\ neps <= d_inertia c /\ 0 <= volt /\ 0 <= speed.
Proof.
  intros c volt speed. unfold dc_valid. rewrite negb_true_iff, !orb_false_iff, !ltN. cbn [n0 RNum]. tauto.
Qed.

(** The winding's resistance, raised by the degradation. *)
Definition winding (c : dc_cfg R) (f : malf R) : R :=
  match j_degrade f with Some v => d_wind c / Rmax neps (1 - v) | None => d_wind c end.
Lemma dc_res_winding c f : neps <= d_wind c -> dc_res c f = winding c f.
Proof.
  intro H. unfold dc_res, winding. rewrite fan_max, Rmax_right by exact H. destruct (j_degrade f); [|reflexivity].
  now rewrite fan_max.
Qed.
Lemma winding_pos c f : neps <= d_wind c -> 0 < winding c f.
Proof.
  intro H. pose proof neps_pos as EP. unfold winding. destruct (j_degrade f) as [v|]; [|lra].
  apply Rdiv_lt_0_compat; [lra|]. eapply Rlt_le_trans; [exact EP|apply Rmax_l].
Qed.
(** Ohm's law on the voltage left by the back-EMF, never backwards nor over the limit. *)
Theorem C213_current : forall (c : dc_cfg R) f volt lim w, neps <= d_wind c ->
  dc_current c f volt lim w = Rmax 0 (Rmin ((volt - d_k c * w / rpm) / winding c f) lim).
Proof. intros c f volt lim w H. unfold dc_current. rewrite within_limit, dc_res_winding by exact H. reflexivity. Qed.
(** A degraded motor draws less. *)
Theorem C213_degraded : forall (c : dc_cfg R) v jam over heat volt lim w, neps <= d_wind c -> 0 <= v <= 1 -> d_k c * w / rpm <= volt ->
  dc_current c (mkmalf (Some v) jam over heat) volt lim w <= dc_current c (mkmalf None jam over heat) volt lim w.
Proof.
  intros c v jam over heat volt lim w H V B. rewrite !C213_current by exact H. unfold winding. cbn [j_degrade].
  pose proof neps_pos as EP. pose proof Reps_small as ES.
  assert (M : 0 < Rmax neps (1 - v) <= 1).
  { split; [eapply Rlt_le_trans; [exact EP|apply Rmax_l]|]. apply Rmax_lub; [change (neps : R) with Reps; lra|lra]. }
  apply Rle_max_compat_l, Rle_min_compat_r.
  set (m := Rmax neps (1 - v)) in *. clearbody m. set (r := d_wind c) in *. clearbody r. set (x := volt - d_k c * w / rpm).
  assert (X : 0 <= x) by (unfold x; lra). clearbody x.
  replace (x / (r / m)) with (x / r * m) by (field; lra). rewrite <- (Rmult_1_r (x / r)) at 2.
  apply Rmult_le_compat_l; [|lra]. apply Rmult_le_pos; [lra|]. left. apply Rinv_0_lt_compat. lra.
Qed.
(** Electrical power covers the winding's heat and the shaft's power; nothing else unless limited. *)
Theorem C213_energy : forall (c : dc_cfg R) f volt lim w, neps <= d_wind c ->
  let i := dc_current c f volt lim w in
  dc_drive c i * (w / rpm) + i * i * winding c f <= dc_power i volt /\
  (0 <= (volt - d_k c * w / rpm) / winding c f <= lim -> dc_drive c i * (w / rpm) + i * i * winding c f = dc_power i volt).
Proof.
  intros c f volt lim w H. cbv zeta. rewrite C213_current by exact H. pose proof (winding_pos c f H) as W. pose proof rpm_range as K.
  unfold dc_drive, dc_power. cbn [nmul RNum]. set (r := winding c f) in *. clearbody r.
  set (x := (volt - d_k c * w / rpm) / r).
  assert (X : x * r = volt - d_k c * w / rpm) by (unfold x; field; lra). clearbody x.
  set (i := Rmax 0 (Rmin x lim)).
  assert (E : i * volt - (d_k c * i * (w / rpm) + i * i * r) = i * r * (x - i)).
  { replace volt with (x * r + d_k c * w / rpm) by lra. field. lra. }
  split.
  - assert (0 <= i * r * (x - i)); [|lra]. unfold i in *. destruct (Rle_dec 0 (Rmin x lim)).
    + rewrite Rmax_right by lra. pose proof (Rmin_l x lim). repeat apply Rmult_le_pos; lra.
    + rewrite Rmax_left by lra. lra.
  - intros [A B]. assert (Hi : i = x) by (unfold i; rewrite Rmin_left by lra; apply Rmax_right; lra). rewrite Hi in *. lra.
Qed.
(** The load on the supply. *)
Theorem C213_resistance : forall (i volt : R), neps <= i -> 0 < volt ->
  dc_resistance i volt * i = volt /\ volt * volt / dc_resistance i volt = dc_power i volt.
Proof.
  intros i volt H V. unfold dc_resistance, dc_power. rewrite fan_max, Rmax_left by exact H. pose proof neps_pos. cbn [ndiv nmul RNum].
  split; field; lra.
Qed.
(** Torque: at rest the stall torque unless limited, and never more. *)
Theorem C213_torque : forall (c : dc_cfg R) f volt lim w, neps <= d_wind c -> neps <= d_k c -> 0 <= volt -> 0 <= w ->
  0 <= dc_drive c (dc_current c f volt lim w) <= dc_stall c f volt /\
  (volt / winding c f <= lim -> dc_drive c (dc_current c f volt lim 0) = dc_stall c f volt).
Proof.
  intros c f volt lim w H K V W. pose proof neps_pos as EP. pose proof rpm_range as RP. pose proof (winding_pos c f H) as P.
  unfold dc_stall. rewrite !C213_current, dc_res_winding by exact H. unfold dc_drive. cbn [nmul ndiv RNum].
  set (r := winding c f) in *. clearbody r. set (k := d_k c) in *. clearbody k.
  assert (Q : 0 < / r) by (apply Rinv_0_lt_compat; exact P).
  assert (B : 0 <= k * w / rpm). { repeat apply Rmult_le_pos; try lra. left. apply Rinv_0_lt_compat. lra. }
  assert (V0 : 0 <= volt / r) by (apply Rmult_le_pos; lra).
  replace (k * volt / r) with (k * (volt / r)) by (field; lra). split.
  - split; [apply Rmult_le_pos; [lra|apply Rmax_l]|]. apply Rmult_le_compat_l; [lra|]. apply Rmax_lub; [exact V0|].
    eapply Rle_trans; [apply Rmin_l|]. unfold Rdiv at 1. apply Rmult_le_compat_r; lra.
  - intro L. replace ((volt - k * 0 / rpm) / r) with (volt / r) by (field; lra).
    rewrite Rmin_left, Rmax_right by lra. reflexivity.
Qed.
(** Speed of both motors: the override, or momentum, never backwards. *)
Theorem C213_speed : forall (f : malf R) dt t j w, 0 < j ->
  (forall v, j_speed f = Some v -> mot_speed f dt t j w = v) /\
  (j_speed f = None -> 0 <= mot_speed f dt t j w /\
    (0 <= w + t * dt * rpm / j -> j * ((mot_speed f dt t j w - w) / rpm) = t * dt) /\
    (w + t * dt * rpm / j <= 0 -> mot_speed f dt t j w = 0)).
Proof.
  intros f dt t j w J. pose proof rpm_range as K. unfold mot_speed. split; [now intros v ->|intros ->].
  rewrite fan_max. change (w +~ t *~ dt *~ sec_2pi /~ j) with (w + t * dt * rpm / j). split; [apply Rmax_r|]. split; intro H.
  - rewrite Rmax_left by exact H. field. lra.
  - now rewrite Rmax_right.
Qed.
(** Loads of both motors: the sum of torques, less the jam's part of the stall torque. *)
Theorem C213_load : forall (f : malf R) l stall,
  mot_load f l stall = match j_jam f with Some v => torques l - v * stall | None => torques l end.
Proof. intros f [[[a b] d] e] stall. reflexivity. Qed.
(** Heat of both motors: what power is not useful, plus the bias. *)
Theorem C213_heat : forall (f : malf R) power load w, j_heat f = None ->
  let useful := - load * (w / rpm) in
  0 <= mot_waste f power (mot_useful load w) /\
  (useful <= power -> mot_waste f power (mot_useful load w) + useful = power) /\
  (power <= useful -> mot_waste f power (mot_useful load w) = 0) /\
  (0 < power -> mot_eff power (mot_useful load w) * power = useful) /\
  (power <= 0 -> mot_eff power (mot_useful load w) = 0).
Proof.
  intros f power load w H. cbv zeta. unfold mot_waste. rewrite H, fan_max. pose proof rpm_range as K.
  assert (E : mot_useful load w = - load * (w / rpm)) by (unfold mot_useful; cbn [nopp nmul ndiv RNum]; fold rpm; field; lra).
  rewrite E. cbn [nsub n0 RNum]. set (u := - load * (w / rpm)). clearbody u. unfold mot_eff.
  split; [apply Rmax_r|]. split; [intro; rewrite Rmax_left; lra|]. split; [intro; now rewrite Rmax_right by lra|].
  split; intro P.
  - assert (L : (n0 <~ power) = true) by (apply ltI; exact P). rewrite L. cbn [ndiv RNum]. field. lra.
  - assert (L : (n0 <~ power) = false) by (apply ltN; exact P). now rewrite L.
Qed.
Theorem C213_bias : forall d jam over b power u, mot_waste (mkmalf d jam over (Some b)) power u = mot_waste (mkmalf d jam over None) power u + b.
Proof. reflexivity. Qed.

(** Settling: under a constant load the distance of the speed from where drive, load and friction
    balance shrinks by the same factor each step. *)
Definition dc_slope (c : dc_cfg R) : R := d_k c * d_k c / (d_wind c * rpm) + d_fric c.
Definition dc_balance (c : dc_cfg R) (volt load : R) : R := (d_k c * volt / d_wind c + load) / dc_slope c.
Definition dc_speeds (c : dc_cfg R) (l : R * R * R * R) (volt lim dt w : R) (n : nat) : R :=
  Nat.iter n (fun w => o_speed (dc_step c healthy l volt lim dt w)) w.
Lemma dc_slope_pos c : neps <= d_wind c -> neps <= d_k c -> 0 <= d_fric c -> 0 < dc_slope c.
Proof.
  intros A B D. pose proof neps_pos. pose proof rpm_range. unfold dc_slope.
  assert (0 < d_k c * d_k c / (d_wind c * rpm)); [|lra]. apply Rdiv_lt_0_compat; apply Rmult_lt_0_compat; lra.
Qed.
Lemma dc_one c l volt lim dt w : neps <= d_wind c -> neps <= d_k c -> 0 <= d_fric c -> d_fmin c = 0 -> neps <= d_inertia c ->
  volt / d_wind c <= lim -> 0 <= w <= volt * rpm / d_k c -> 0 <= dc_balance c volt (torques l) -> 0 <= dc_slope c * dt * rpm / d_inertia c <= 1 ->
  o_speed (dc_step c healthy l volt lim dt w) - dc_balance c volt (torques l) = (1 - dc_slope c * dt * rpm / d_inertia c) * (w - dc_balance c volt (torques l)).
Proof.
  intros A B D F J L W BA K. pose proof neps_pos as EP. pose proof rpm_range as RP. pose proof (dc_slope_pos c A B D) as SP.
  unfold dc_step. cbn [o_speed]. unfold mot_speed, healthy at 1. cbn [j_speed]. rewrite fan_max, C213_load. cbn [j_jam healthy].
  assert (I : dc_current c healthy volt lim w = (volt - d_k c * w / rpm) / d_wind c).
  { rewrite C213_current by exact A. change (winding c healthy) with (d_wind c). 
    assert (X : 0 <= volt - d_k c * w / rpm).
    { destruct W as [_ W]. apply (Rmult_le_compat_l (d_k c / rpm)) in W; [|left; apply Rdiv_lt_0_compat; lra].
      replace (d_k c / rpm * (volt * rpm / d_k c)) with volt in W by (field; lra). replace (d_k c / rpm * w) with (d_k c * w / rpm) in W by (field; lra). lra. }
    assert (Q : 0 < / d_wind c) by (apply Rinv_0_lt_compat; lra).
    assert (Y : (volt - d_k c * w / rpm) / d_wind c <= volt / d_wind c).
    { apply Rmult_le_compat_r; [lra|]. assert (0 <= d_k c * w / rpm); [|lra]. apply Rmult_le_pos; [apply Rmult_le_pos; lra|]. left. apply Rinv_0_lt_compat. lra. }
    rewrite Rmin_left by lra. apply Rmax_right. apply Rmult_le_pos; lra. }
  rewrite I. unfold dc_drive, dc_friction. rewrite F, fan_max, (Rmax_left w 0) by lra. cbn [nadd nmul ndiv nopp n0 RNum].
  change (sec_2pi : R) with rpm. set (b := dc_balance c volt (torques l)) in *.
  assert (E : d_k c * ((volt - d_k c * w / rpm) / d_wind c) + torques l + - d_fric c * w = dc_slope c * (b - w)).
  { assert (BB : dc_slope c * b = d_k c * volt / d_wind c + torques l) by (unfold b, dc_balance; field; lra).
    rewrite Rmult_minus_distr_l, BB. unfold dc_slope. field. lra. }
  rewrite E.
  assert (G : w + dc_slope c * (b - w) * dt * rpm / d_inertia c = b + (1 - dc_slope c * dt * rpm / d_inertia c) * (w - b)) by (field; lra).
  rewrite G, Rmax_left; [ring|]. set (k := dc_slope c * dt * rpm / d_inertia c) in *.
  replace (b + (1 - k) * (w - b)) with (k * b + (1 - k) * w) by ring. apply Rplus_le_le_0_compat; apply Rmult_le_pos; lra.
Qed.
Theorem C213_settles : forall (c : dc_cfg R) l volt lim dt w n,
  dc_valid c volt w = true -> d_fmin c = 0 -> volt / d_wind c <= lim -> w <= volt * rpm / d_k c ->
  0 <= dc_balance c volt (torques l) <= volt * rpm / d_k c -> 0 <= dc_slope c * dt * rpm / d_inertia c <= 1 ->
  dc_speeds c l volt lim dt w n - dc_balance c volt (torques l) = (1 - dc_slope c * dt * rpm / d_inertia c) ^ n * (w - dc_balance c volt (torques l)).
Proof.
  intros c l volt lim dt w n V F L W B K. apply C213_accepts in V. destruct V as (A1 & A2 & A3 & A4 & A5 & A6 & A7).
  set (b := dc_balance c volt (torques l)) in *. set (k := dc_slope c * dt * rpm / d_inertia c) in *. set (top := volt * rpm / d_k c) in *.
  assert (G : forall n, dc_speeds c l volt lim dt w n - b = (1 - k) ^ n * (w - b) /\ 0 <= dc_speeds c l volt lim dt w n <= top).
  { clear n. induction n as [|n IH]; [cbn [dc_speeds Nat.iter pow]; unfold dc_speeds; cbn [Nat.iter nat_rect]; split; lra|].
    destruct IH as [E R1]. unfold dc_speeds in *. cbn [Nat.iter nat_rect]. 
    change (nat_rect _ _ _ n) with (Nat.iter n (fun w => o_speed (dc_step c healthy l volt lim dt w)) w).
    set (v := Nat.iter n _ w) in *. clearbody v.
    pose proof (dc_one c l volt lim dt v A1 A2 A3 F A5 L R1 (proj1 B) K) as O1. fold b k in O1. split.
    - rewrite O1, E. cbn [pow]. ring.
    - replace (o_speed _) with (k * b + (1 - k) * v) by lra. split.
      + apply Rplus_le_le_0_compat; apply Rmult_le_pos; lra.
      + assert (k * b <= k * top) by (apply Rmult_le_compat_l; lra). assert ((1 - k) * v <= (1 - k) * top) by (apply Rmult_le_compat_l; lra). lra. }
  exact (proj1 (G n)).
Qed.

Definition dc1 : dc_cfg R := mkdc 1 1 0 0 1.
Lemma neps_small : (neps : R) < 1/10. Proof. change (neps : R) with Reps. pose proof Reps_small. lra. Qed.
Example dc1_ok : dc_valid dc1 2 rpm = true.
Proof. pose proof neps_small. pose proof rpm_range. apply C213_accepts. cbn [d_wind d_k d_fric d_fmin d_inertia dc1]. lra. Qed.
(** From rest it gets to half of the no-load speed in a step of half of the time constant, then to three quarters. *)
Example dc1_settles : dc_speeds dc1 no_load 2 10 (1/2) 0 2 = 3/4 * (2 * rpm).
Proof.
  pose proof rpm_range as K.
  assert (SL : dc_slope dc1 = / rpm) by (unfold dc_slope, dc1; cbn [d_k d_wind d_fric]; field; lra).
  assert (B : dc_balance dc1 2 (torques no_load) = 2 * rpm) by (unfold dc_balance; rewrite SL; unfold dc1, torques, no_load; cbn [d_k d_wind]; field; lra).
  assert (H : dc_slope dc1 * (1/2) * rpm / d_inertia dc1 = 1/2) by (rewrite SL; cbn [d_inertia dc1]; field; lra).
  assert (V0 : dc_valid dc1 2 0 = true) by (pose proof neps_small; apply C213_accepts; cbn [d_wind d_k d_fric d_fmin d_inertia dc1]; lra).
  pose proof (C213_settles dc1 no_load 2 10 (1/2) 0 2 V0 eq_refl) as S1. rewrite B, H in S1. cbn [d_wind d_k dc1] in S1.
  assert (E : dc_speeds dc1 no_load 2 10 (1/2) 0 2 - 2 * rpm = (1 - 1/2) ^ 2 * (0 - 2 * rpm)) by (apply S1; lra). cbn [pow] in E. lra.
Qed.
(** Refuted: no motor turns faster than its no-load speed.  A long step overshoots it, and without
    friction the motor stays there for ever. *)
Theorem C213_overshoot_refuted : exists (c : dc_cfg R) volt lim dt, dc_valid c volt 0 = true /\ 0 < dt /\
  forall n, volt * rpm / d_k c < dc_speeds c no_load volt lim dt 0 (S n).
Proof.
  exists dc1, 2, 10, 2. pose proof rpm_range as K. pose proof neps_small as NE. pose proof neps_pos as NP.
  split; [apply C213_accepts; cbn [d_wind d_k d_fric d_fmin d_inertia dc1]; lra|]. split; [lra|].
  assert (ST : forall w, o_speed (dc_step dc1 healthy no_load 2 10 2 w) = Rmax (w + Rmax 0 (Rmin (2 - w / rpm) 10) * 2 * rpm) 0).
  { intro w. unfold dc_step. cbn [o_speed]. unfold mot_speed, healthy at 1. cbn [j_speed]. rewrite fan_max, C213_load. cbn [j_jam healthy].
    rewrite C213_current by (cbn [d_wind dc1]; lra). unfold dc_drive, dc_friction, winding, torques, no_load. cbn [j_degrade healthy d_wind d_k d_fric d_fmin d_inertia dc1 nadd nmul ndiv nopp n0 RNum].
    change (sec_2pi : R) with rpm. replace ((2 - 1 * w / rpm) / 1) with (2 - w / rpm) by (field; lra).
    set (i := Rmax 0 _). set (mm := nmax w 0). f_equal. field. }
  assert (G : forall n, dc_speeds dc1 no_load 2 10 2 0 (S n) = 4 * rpm).
  { induction n as [|n IH]; unfold dc_speeds in *.
    - cbn [Nat.iter nat_rect]. rewrite ST. replace (2 - 0 / rpm) with 2 by (field; lra). rewrite (Rmin_left 2 10), (Rmax_right 0 2) by lra.
      rewrite Rmax_left by lra. ring.
    - change (Nat.iter (S (S n)) ?g 0) with (g (Nat.iter (S n) g 0)). cbv beta. rewrite IH, ST. replace (2 - 4 * rpm / rpm) with (-2) by (field; lra).
      rewrite (Rmin_left (-2) 10), (Rmax_left 0 (-2)) by lra. rewrite Rmax_left; lra. }
  intro n. rewrite G. cbn [d_k dc1]. lra.
Qed.
(** Refuted: the efficiency is at most one (a loaded shaft gives its own momentum away), and all the
    power of a motor without a load is waste heat (a jam's is taken for useful). *)
Theorem C213_efficiency_refuted : exists (c : dc_cfg R) l volt lim dt w, dc_valid c volt w = true /\ 0 < dt /\
  1 < o_eff (dc_step c healthy l volt lim dt w).
Proof.
  exists dc1, (-3, 0, 0, 0), 2, 10, (1/10), rpm. split; [exact dc1_ok|]. split; [lra|]. pose proof rpm_range as K. pose proof neps_small as NE. pose proof neps_pos as NP.
  unfold dc_step. cbn [o_eff]. rewrite C213_load. cbn [j_jam healthy].
  rewrite C213_current by (cbn [d_wind dc1]; lra). unfold winding. cbn [j_degrade healthy d_wind d_k dc1].
  replace ((2 - 1 * rpm / rpm) / 1) with 1 by (field; lra). rewrite Rmin_left, Rmax_right by lra.
  unfold mot_speed. cbn [j_speed healthy]. rewrite fan_max. unfold dc_drive, dc_friction, torques, dc_power. cbn [d_fric d_fmin d_k d_inertia dc1 nadd nmul ndiv nopp n0 RNum].
  change (sec_2pi : R) with rpm. set (mm := nmax rpm 0).
  replace (rpm + (1 * 1 + (-3 + 0 + 0 + 0) + - 0 * mm) * (1/10) * rpm / 1) with (8/10 * rpm) by field.
  rewrite Rmax_left by lra. 
  destruct (C213_heat healthy (1 * 2) (-3 + 0 + 0 + 0) (8/10 * rpm) eq_refl) as (_ & _ & _ & E & _).
  assert (P : 0 < 1 * 2) by lra. specialize (E P). replace (- (-3 + 0 + 0 + 0) * (8 / 10 * rpm / rpm)) with (24/10) in E by (field; lra). lra.
Qed.
Theorem C213_jam_refuted : exists (c : dc_cfg R) jam volt lim dt w, dc_valid c volt w = true /\ 0 < dt /\ 0 < jam < 1 /\
  let r := dc_step c (mkmalf None (Some jam) None None) no_load volt lim dt w in
  o_speed r = w /\ o_waste r < o_power r.
Proof.
  exists dc1, (1/2), 2, 10, 1, rpm. split; [exact dc1_ok|]. do 2 (split; [lra|]). cbv zeta. pose proof rpm_range as K. pose proof neps_small as NE. pose proof neps_pos as NP.
  unfold dc_step. cbn [o_speed o_waste o_power]. rewrite C213_load. cbn [j_jam].
  rewrite C213_current by (cbn [d_wind dc1]; lra). unfold dc_stall. rewrite dc_res_winding by (cbn [d_wind dc1]; lra). unfold winding. cbn [j_degrade d_wind d_k dc1].
  replace ((2 - 1 * rpm / rpm) / 1) with 1 by (field; lra). rewrite Rmin_left, Rmax_right by lra.
  unfold mot_speed. cbn [j_speed]. rewrite fan_max. unfold dc_drive, dc_friction, torques, no_load, dc_power. cbn [d_fric d_fmin d_k d_inertia dc1 nadd nmul ndiv nopp n0 RNum].
  change (sec_2pi : R) with rpm. set (mm := nmax rpm 0).
  replace (rpm + (1 * 1 + (0 + 0 + 0 + 0 - 1/2 * (1 * 2 / 1)) + - 0 * mm) * 1 * rpm / 1) with rpm by field.
  rewrite Rmax_left by lra. split; [reflexivity|].
  set (ff := mkmalf None (Some (1/2)) None None).
  destruct (C213_heat ff (1 * 2) (0 + 0 + 0 + 0 - 1/2 * (1 * 2 / 1)) rpm eq_refl) as (_ & E & _).
  replace (- (0 + 0 + 0 + 0 - 1/2 * (1 * 2 / 1)) * (rpm / rpm)) with 1 in E by (field; lra).
  assert (P : 1 <= 1 * 2) by lra. specialize (E P). lra.
Qed.
Print Assumptions C213_accepts.
Print Assumptions C213_current.
Print Assumptions C213_degraded.
Print Assumptions C213_energy.
Print Assumptions C213_resistance.
Print Assumptions C213_torque.
Print Assumptions C213_speed.
Print Assumptions C213_load.
Print Assumptions C213_heat.
Print Assumptions C213_bias.
Print Assumptions C213_settles.
Print Assumptions C213_overshoot_refuted.
Print Assumptions C213_efficiency_refuted.
Print Assumptions C213_jam_refuted.
