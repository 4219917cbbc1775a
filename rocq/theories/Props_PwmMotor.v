(** C214: motors with pulse width modulation. *)
From Coq Require Import Floats.
From Coq Require Import Reals Lra Lia List Arith Bool ZArith.
From Verif Require Import Num Ord MathUtil Props_Math FluidFlow FluidFan Spec_Valve Props_Valve Props_Detector Props_FluidFan Turbine Props_Turbine Motor Props_Motor.
Import ListNotations.
Local Open Scope R_scope.

Lemma in_range_iff (a x b : R) : is_in_range a x b = true <-> a <= x <= b.
Proof. unfold is_in_range. rewrite andb_true_iff, !leI. tauto. Qed.
Theorem C214_accepts : forall (c : pw_cfg R) volt pulse speed, pw_valid c volt pulse speed = true <->
  0 <= w_waste c <= 1 /\ w_fric c <= 0 /\ neps <= w_res c /\ neps <= w_inertia c /\ neps <= w_ratio c /\ 0 <= volt /\ 0 <= pulse <= 1 /\ 0 <= speed.
Proof.
  intros c volt pulse speed. unfold pw_valid. rewrite negb_true_iff, !orb_false_iff, !negb_false_iff, !in_range_iff, !ltN. cbn [n0 n1 RNum]. tauto.
Qed.
(** Stall torque: a quadratic of the voltage, reduced by the degradation. *)
Theorem C214_stall : forall (c : pw_cfg R) f volt, pw_stall c f volt =
  (w_c1 c * volt + w_c2 c * (volt * volt)) * match j_degrade f with Some v => 1 - v | None => 1 end.
Proof. intros c f volt. unfold pw_stall. destruct (j_degrade f); cbn [nadd nmul nsub n1 RNum]; ring. Qed.
(** Torque: the pulse's part of a line from the stall torque at rest to none at the no-load speed. *)
Theorem C214_drive : forall (c : pw_cfg R) stall pulse w, neps <= w_ratio c ->
  (w <= stall * w_ratio c -> pw_drive c stall pulse w = pulse * (stall - w / w_ratio c)) /\
  (stall * w_ratio c <= w -> pw_drive c stall pulse w = 0) /\
  (0 <= pulse -> 0 <= pw_drive c stall pulse w) /\
  (0 <= pulse -> 0 <= w -> 0 <= stall -> pw_drive c stall pulse w <= pulse * stall).
Proof.
  intros c stall pulse w H. pose proof neps_pos as EP. unfold pw_drive. rewrite fan_max. cbn [nmul nsub ndiv n0 RNum].
  assert (Q : 0 < / w_ratio c) by (apply Rinv_0_lt_compat; lra).
  assert (E : stall - w / w_ratio c = (stall * w_ratio c - w) * / w_ratio c) by (field; lra). split; [|split; [|split]].
  - intro W. rewrite Rmax_left; [ring|]. rewrite E. apply Rmult_le_pos; lra.
  - intro W. rewrite Rmax_right; [ring|]. rewrite E. 
    assert (0 <= (w - stall * w_ratio c) * / w_ratio c) by (apply Rmult_le_pos; lra). lra.
  - intro P. apply Rmult_le_pos; [apply Rmax_r|exact P].
  - intros P W S0. rewrite Rmult_comm. apply Rmult_le_compat_l; [exact P|]. apply Rmax_lub; [|exact S0].
    assert (0 <= w / w_ratio c) by (apply Rmult_le_pos; lra). lra.
Qed.
(** Current: full on-time draws as the waste fraction says at the least, back-EMF reduces it, and it
    is never negative. *)
Theorem C214_current : forall (c : pw_cfg R) f volt pulse w, neps <= w_res c ->
  pw_current c f volt pulse w =
    Rmax 0 ((pulse + w_waste c * (1 - pulse)) * ((volt - w_bemf c * w) / w_res c) * match j_degrade f with Some v => 1 - v | None => 1 end).
Proof.
  intros c f volt pulse w H. pose proof neps_pos as EP. unfold pw_current, pw_back. rewrite fan_max, Rmax_comm. cbn [n0 RNum]. f_equal.
  destruct (j_degrade f); cbn [nadd nmul nsub ndiv n1 RNum]; field; lra.
Qed.
Lemma pw_factor (c : pw_cfg R) pulse : 0 <= w_waste c <= 1 -> 0 <= pulse <= 1 -> 0 <= pulse + w_waste c * (1 - pulse) <= 1.
Proof.
  intros A B. assert (0 <= w_waste c * (1 - pulse)) by (apply Rmult_le_pos; lra).
  assert (0 <= (1 - w_waste c) * (1 - pulse)) by (apply Rmult_le_pos; lra). lra.
Qed.
Theorem C214_range : forall (c : pw_cfg R) f volt pulse w, pw_valid c volt pulse w = true -> 0 <= w_bemf c ->
  (forall v, j_degrade f = Some v -> 0 <= v <= 1) -> 0 <= pw_current c f volt pulse w <= volt / w_res c.
Proof.
  intros c f volt pulse w V B D. apply C214_accepts in V. destruct V as (A1 & A2 & A3 & A4 & A5 & A6 & A7 & A8).
  pose proof neps_pos as EP. rewrite C214_current by exact A3. pose proof (pw_factor c pulse A1 A7) as F.
  set (g := pulse + w_waste c * (1 - pulse)) in *. clearbody g.
  set (d := match j_degrade f with Some v => 1 - v | None => 1 end).
  assert (DD : 0 <= d <= 1) by (unfold d; destruct (j_degrade f) as [v|]; [specialize (D v eq_refl)|]; lra). clearbody d.
  assert (Q : 0 < / w_res c) by (apply Rinv_0_lt_compat; lra).
  assert (BW : 0 <= w_bemf c * w) by (apply Rmult_le_pos; lra).
  split; [apply Rmax_l|]. apply Rmax_lub; [apply Rmult_le_pos; lra|].
  set (x := (volt - w_bemf c * w) / w_res c). assert (X : x <= volt / w_res c) by (apply Rmult_le_compat_r; lra).
  assert (Y : 0 <= volt / w_res c) by (apply Rmult_le_pos; lra). set (y := volt / w_res c) in *. clearbody x y.
  assert (GD : 0 <= g * d <= 1).
  { split; [apply Rmult_le_pos; lra|]. assert (g * d <= 1 * 1) by (apply Rmult_le_compat; lra). lra. }
  replace (g * x * d) with (g * d * x) by ring. set (h := g * d) in *. clearbody h.
  apply Rle_trans with (h * y); [apply Rmult_le_compat_l; lra|]. assert (h * y <= 1 * y) by (apply Rmult_le_compat_r; lra). lra.
Qed.
(** Faster motors draw less, wider pulses more. *)
Theorem C214_monotone : forall (c : pw_cfg R) f volt p q w z, neps <= w_res c -> 0 <= w_waste c <= 1 -> 0 <= p <= q -> q <= 1 -> 0 <= w_bemf c ->
  (forall v, j_degrade f = Some v -> 0 <= v <= 1) ->
  (w <= z -> pw_current c f volt p z <= pw_current c f volt p w) /\
  pw_current c f volt p w <= pw_current c f volt q w.
Proof.
  intros c f volt p q w z A W P Q1 B D. pose proof neps_pos as EP. rewrite !C214_current by exact A.
  pose proof (pw_factor c p W ltac:(lra)) as F.
  set (d := match j_degrade f with Some v => 1 - v | None => 1 end).
  assert (DD : 0 <= d <= 1) by (unfold d; destruct (j_degrade f) as [v|]; [specialize (D v eq_refl)|]; lra). clearbody d.
  assert (Q : 0 < / w_res c) by (apply Rinv_0_lt_compat; lra). split.
  - intro H. apply Rle_max_compat_l. apply Rmult_le_compat_r; [lra|]. apply Rmult_le_compat_l; [lra|]. apply Rmult_le_compat_r; [lra|].
    assert (w_bemf c * w <= w_bemf c * z) by (apply Rmult_le_compat_l; lra). lra.
  - assert (G : p + w_waste c * (1 - p) <= q + w_waste c * (1 - q)).
    { assert (0 <= (1 - w_waste c) * (q - p)) by (apply Rmult_le_pos; lra). lra. }
    set (x := (volt - w_bemf c * w) / w_res c). clearbody x. set (a := p + _) in *. set (b := q + _) in *. clearbody a b.
    destruct (Rle_dec 0 x).
    + apply Rle_max_compat_l. apply Rmult_le_compat_r; [lra|]. apply Rmult_le_compat_r; lra.
    + rewrite Rmax_left; [apply Rmax_l|]. assert (0 <= a * (- x) * d) by (repeat apply Rmult_le_pos; lra). lra.
Qed.
Theorem C214_resistance : forall (volt i : R), 0 <= i ->
  (neps < i -> pw_resistance volt i * i = volt) /\ (i <= neps -> pw_resistance volt i * neps = 1).
Proof.
  intros volt i I. pose proof neps_pos as EP. unfold pw_resistance. split; intro H.
  - assert (L : (neps <~ i) = true) by (apply ltI; exact H). rewrite L. cbn [ndiv RNum]. field. lra.
  - assert (L : (neps <~ i) = false) by (apply ltN; exact H). rewrite L. cbn [ndiv n1 RNum]. field. lra.
Qed.
(** Generated: the back-EMF's current over what is drawn. *)
Theorem C214_generated : forall (c : pw_cfg R) w i, neps <= w_res c ->
  0 <= pw_generated c w i /\ (i <= w_bemf c * w / w_res c -> pw_generated c w i + i = w_bemf c * w / w_res c) /\
  (w_bemf c * w / w_res c <= i -> pw_generated c w i = 0).
Proof.
  intros c w i H. unfold pw_generated, pw_back. rewrite fan_max. cbn [nmul ndiv nsub n0 RNum]. set (x := w_bemf c * w / w_res c). clearbody x.
  split; [apply Rmax_r|]. split; intro; [rewrite Rmax_left; lra|now rewrite Rmax_right by lra].
Qed.
(** A step. *)
Theorem C214_step : forall (c : pw_cfg R) f l volt pulse dt w, let r := pw_step c f l volt pulse dt w in
  o_speed r = mot_speed f dt (o_drive r + o_load r + w_fric c) (w_inertia c) w /\
  o_drive r = pw_drive c (pw_stall c f volt) pulse w /\ o_load r = mot_load f l (pw_stall c f volt) /\
  o_current r = pw_current c f volt pulse (o_speed r) /\ o_power r = o_current r * volt /\
  o_resist r = pw_resistance volt (o_current r) /\
  o_waste r = mot_waste f (o_power r) (mot_useful (o_load r) (o_speed r)) /\ o_eff r = mot_eff (o_power r) (mot_useful (o_load r) (o_speed r)).
Proof. intros. repeat split. Qed.

Definition pw_speeds (c : pw_cfg R) (l : R * R * R * R) (volt pulse dt w : R) (n : nat) : R :=
  Nat.iter n (fun w => o_speed (pw_step c healthy l volt pulse dt w)) w.
(** Where drive, load and friction balance. *)
Definition pw_balance (c : pw_cfg R) (l : R * R * R * R) (volt pulse : R) : R :=
  (pw_stall c healthy volt + (torques l + w_fric c) / pulse) * w_ratio c.
Definition pw_rate (c : pw_cfg R) (pulse dt : R) : R := pulse * dt * rpm / (w_ratio c * w_inertia c).
Theorem C214_settles : forall (c : pw_cfg R) l volt pulse dt w n,
  pw_valid c volt pulse w = true -> 0 < pulse -> w <= pw_stall c healthy volt * w_ratio c ->
  0 <= pw_balance c l volt pulse <= pw_stall c healthy volt * w_ratio c -> 0 <= pw_rate c pulse dt <= 1 ->
  pw_speeds c l volt pulse dt w n - pw_balance c l volt pulse = (1 - pw_rate c pulse dt) ^ n * (w - pw_balance c l volt pulse).
Proof.
  intros c l volt pulse dt w n V P W B K. apply C214_accepts in V. destruct V as (A1 & A2 & A3 & A4 & A5 & A6 & A7 & A8).
  pose proof neps_pos as EP. pose proof rpm_range as RP.
  set (top := pw_stall c healthy volt * w_ratio c) in *.
  assert (O1 : forall v, 0 <= v <= top -> o_speed (pw_step c healthy l volt pulse dt v) - pw_balance c l volt pulse = (1 - pw_rate c pulse dt) * (v - pw_balance c l volt pulse)).
  { intros v H. destruct (C214_step c healthy l volt pulse dt v) as (S1 & S2 & S3 & _). rewrite S1, S2, S3, C213_load. cbn [j_jam healthy].
    destruct (C214_drive c (pw_stall c healthy volt) pulse v A5) as (D1 & _). rewrite D1 by (apply H).
    destruct (C213_speed healthy dt (pulse * (pw_stall c healthy volt - v / w_ratio c) + torques l + w_fric c) (w_inertia c) v ltac:(lra)) as (_ & SP).
    destruct (SP eq_refl) as (_ & _ & _). unfold mot_speed. cbn [j_speed healthy]. rewrite fan_max. cbn [nadd nmul ndiv n0 RNum]. change (sec_2pi : R) with rpm.
    set (b := pw_balance c l volt pulse) in *. set (k := pw_rate c pulse dt) in *.
    assert (G : v + (pulse * (pw_stall c healthy volt - v / w_ratio c) + torques l + w_fric c) * dt * rpm / w_inertia c = k * b + (1 - k) * v).
    { unfold k, b, pw_rate, pw_balance. field. lra. }
    rewrite G, Rmax_left; [ring|]. apply Rplus_le_le_0_compat; apply Rmult_le_pos; lra. }
  set (b := pw_balance c l volt pulse) in *. set (k := pw_rate c pulse dt) in *.
  assert (G : forall n, pw_speeds c l volt pulse dt w n - b = (1 - k) ^ n * (w - b) /\ 0 <= pw_speeds c l volt pulse dt w n <= top).
  { clear n. induction n as [|n IH]; [unfold pw_speeds; cbn [Nat.iter nat_rect pow]; split; lra|].
    destruct IH as [E R1]. unfold pw_speeds in *.
    change (Nat.iter (S n) ?g w) with (g (Nat.iter n g w)). cbv beta. set (v := Nat.iter n _ w) in *. clearbody v. specialize (O1 v R1). split.
    - rewrite O1, E. cbn [pow]. ring.
    - replace (o_speed _) with (k * b + (1 - k) * v) by lra. split.
      + apply Rplus_le_le_0_compat; apply Rmult_le_pos; lra.
      + assert (k * b <= k * top) by (apply Rmult_le_compat_l; lra). assert ((1 - k) * v <= (1 - k) * top) by (apply Rmult_le_compat_l; lra). lra. }
  exact (proj1 (G n)).
Qed.
Definition pw1 : pw_cfg R := mkpw (1/10) 1 0 0 (1/10) 1 1 10.
Lemma pw1_ok : pw_valid pw1 2 1 10 = true.
Proof. pose proof neps_small. apply C214_accepts. cbn [w_waste w_fric w_res w_inertia w_ratio pw1]. lra. Qed.
Lemma pw1_stall : pw_stall pw1 healthy 2 = 2.
Proof. rewrite C214_stall. cbn [w_c1 w_c2 pw1 j_degrade healthy]. lra. Qed.
(** Unloaded it settles at its no-load speed. *)
Example pw1_settles : forall n, pw_speeds pw1 no_load 2 1 (10 / rpm / 2) 10 n = 20 - 10 * (1/2) ^ n.
Proof.
  intro n. pose proof rpm_range as K.
  assert (B : pw_balance pw1 no_load 2 1 = 20) by (unfold pw_balance; rewrite pw1_stall; cbn [w_fric w_ratio pw1]; unfold torques, no_load; lra).
  assert (Rt : pw_rate pw1 1 (10 / rpm / 2) = 1/2) by (unfold pw_rate; cbn [w_ratio w_inertia pw1]; field; lra).
  pose proof (C214_settles pw1 no_load 2 1 (10 / rpm / 2) 10 n pw1_ok) as S1. rewrite B, Rt, pw1_stall in S1. cbn [w_ratio pw1] in S1.
  assert (E : pw_speeds pw1 no_load 2 1 (10 / rpm / 2) 10 n - 20 = (1 - 1/2) ^ n * (10 - 20)) by (apply S1; lra).
  replace (1 - 1/2) with (1/2) in E by lra. lra.
Qed.
(** Refuted: the shaft never gets more power than the motor draws (torque and current have separate
    constants), and a motor does not draw and generate at once. *)
Theorem C214_energy_refuted : exists (c : pw_cfg R) volt pulse w, pw_valid c volt pulse w = true /\ 0 < w_c1 c /\ 0 < w_bemf c /\
  pw_current c healthy volt pulse w * volt < pw_drive c (pw_stall c healthy volt) pulse w * (w / rpm).
Proof.
  exists (mkpw 0 100 0 0 1 1 1 1), 1, 1, (9/10). pose proof neps_small as NE. pose proof rpm_range as K.
  assert (V : pw_valid (mkpw 0 100 0 0 1 1 1 1) 1 1 (9/10) = true) by (apply C214_accepts; cbn [w_waste w_fric w_res w_inertia w_ratio]; lra).
  split; [exact V|]. cbn [w_c1 w_bemf]. do 2 (split; [lra|]).
  rewrite C214_current by (cbn [w_res]; lra). rewrite C214_stall. cbn [w_c1 w_c2 w_waste w_bemf w_res j_degrade healthy].
  replace ((100 * 1 + 0 * (1 * 1)) * 1) with 100 by ring.
  destruct (C214_drive (mkpw 0 100 0 0 1 1 1 1) 100 1 (9/10)) as (D & _); [cbn [w_ratio]; lra|]. rewrite D by (cbn [w_ratio]; lra). cbn [w_ratio].
  replace ((1 + 0 * (1 - 1)) * ((1 - 1 * (9 / 10)) / 1) * 1) with (1/10) by field. rewrite Rmax_right by lra.
  assert (Q : / 10 < / rpm) by (apply Rinv_lt_contravar; [apply Rmult_lt_0_compat; lra|lra]).
  replace (1 * (100 - 9/10 / 1) * (9/10 / rpm)) with (991/10 * (9/10) * / rpm) by (field; lra). lra.
Qed.
Theorem C214_generating_refuted : exists (c : pw_cfg R) volt pulse w, pw_valid c volt pulse w = true /\
  let i := pw_current c healthy volt pulse w in 0 < i /\ 0 < pw_generated c w i.
Proof.
  exists (mkpw 0 1 0 0 1 1 1 1), 1, 1, (9/10). pose proof neps_small as NE.
  split; [apply C214_accepts; cbn [w_waste w_fric w_res w_inertia w_ratio]; lra|]. cbv zeta.
  rewrite C214_current by (cbn [w_res]; lra). cbn [w_waste w_bemf w_res j_degrade healthy].
  replace ((1 + 0 * (1 - 1)) * ((1 - 1 * (9 / 10)) / 1) * 1) with (1/10) by field. rewrite Rmax_right by lra. split; [lra|].
  destruct (C214_generated (mkpw 0 1 0 0 1 1 1 1) (9/10) (1/10)) as (_ & G & _); [cbn [w_res]; lra|]. cbn [w_bemf w_res] in G.
  assert (H : 1/10 <= 1 * (9/10) / 1) by lra. specialize (G H). lra.
Qed.
Print Assumptions C214_accepts.
Print Assumptions C214_stall.
Print Assumptions C214_drive.
Print Assumptions C214_current.
Print Assumptions C214_range.
Print Assumptions C214_monotone.
Print Assumptions C214_resistance.
Print Assumptions C214_generated.
Print Assumptions C214_step.
Print Assumptions C214_settles.
Print Assumptions C214_energy_refuted.
Print Assumptions C214_generating_refuted.
