(** C217: valves with choked flow, and the leak through them. *)
From Coq Require Import Floats.
From Coq Require Import Reals Lra Lia List Arith Bool ZArith.
From Verif Require Import Num Ord MathUtil Props_Math FluidFlow Props_FluidFlow Spec_Valve Props_Valve Props_Detector FluidFan Props_FluidFan Props_Head Motor Props_Motor Props_PwmMotor HiFi Props_HiFi.
Import ListNotations.
Local Open Scope R_scope.
Notation hflux := (hv_flux sqrt powR).
Notation hupdate := (hv_update sqrt powR).
Notation hrun := (hv_run sqrt powR).

Theorem C217_accepts : forall pos leak : R, hv_valid pos leak = true <-> 0 <= pos <= 1 /\ 0 <= leak.
Proof.
  intros pos leak. unfold hv_valid. rewrite negb_true_iff, orb_false_iff, negb_false_iff, in_range_iff, ltN. cbn [n0 n1 RNum]. tauto.
Qed.
(** The area: the position's part of the orifice, or the leak's if that is more. *)
Theorem C217_area : forall (diam pos : R) block leak s,
  hv_effective diam block pos None s = pos * of_effective diam block /\
  (pos * of_effective diam block <= h_area s -> hv_effective diam block pos (Some leak) s = h_area s) /\
  (h_area s <= pos * of_effective diam block -> hv_effective diam block pos (Some leak) s = pos * of_effective diam block).
Proof.
  intros diam pos block leak s. unfold hv_effective. cbn [nmul RNum]. rewrite fan_max. set (x := pos * of_effective diam block). clearbody x.
  split; [reflexivity|]. split; intro H; [now apply Rmax_right|now apply Rmax_left].
Qed.
Lemma eqb_false (a b : R) : (a ==~ b) = false <-> a <> b.
Proof. cbn [neqb RNum]. destruct (Reqb_spec a b); split; congruence. Qed.
Lemma eqb_true (a b : R) : (a ==~ b) = true <-> a = b.
Proof. cbn [neqb RNum]. destruct (Reqb_spec a b); split; congruence. Qed.
(** The leak area is never more than the throat, whatever happened. *)
Theorem C217_range : forall (diam tuning : R) us, neps <= diam -> 0 <= h_area (hrun diam tuning us) <= throat diam.
Proof.
  intros diam tuning us D. pose proof (throat_pos diam D) as TP. unfold hv_run.
  assert (G : forall s, 0 <= h_area s <= throat diam -> 0 <= h_area (fold_left (fun s u => hupdate diam tuning u s) us s) <= throat diam).
  { induction us as [|u us IH]; intros s H; [exact H|]. cbn [fold_left]. apply IH. unfold hv_update.
    destruct (g_leak u) as [v|]; [|cbn [h_area n0 RNum]; lra]. destruct (negb _); [|exact H]. cbv zeta. cbn [h_area]. destruct (neps <~ _); [|exact H].
    rewrite within_limit, of_area_R. unfold within. cbn [n0 RNum]. split; [apply Rmax_l|]. apply Rmax_lub; [lra|apply Rmin_r]. }
  apply G. cbn [h_area n0 RNum]. lra.
Qed.
(** With full position or blockage in range no valve is wider than its throat. *)
Theorem C217_within : forall (diam tuning pos : R) block leak us, neps <= diam -> 0 <= pos <= 1 ->
  (forall v, block = Some v -> 0 <= v <= 1) -> 0 <= hv_effective diam block pos leak (hrun diam tuning us) <= throat diam.
Proof.
  intros diam tuning pos block leak us D P B. pose proof (C217_range diam tuning us D) as L. pose proof (throat_pos diam D) as TP.
  set (s := hrun diam tuning us) in *. clearbody s.
  assert (A : 0 <= pos * of_effective diam block <= throat diam).
  { rewrite C216_area. set (m := match block with Some v => 1 - v | None => 1 end).
    assert (M : 0 <= m <= 1) by (unfold m; destruct block as [v|]; [specialize (B v eq_refl)|]; lra). clearbody m.
    assert (PM : 0 <= pos * m <= 1). { split; [apply Rmult_le_pos; lra|]. assert (pos * m <= 1 * 1) by (apply Rmult_le_compat; lra). lra. }
    replace (pos * (throat diam * m)) with (pos * m * throat diam) by ring. set (q := pos * m) in *. clearbody q. split; [apply Rmult_le_pos; lra|].
    assert (q * throat diam <= 1 * throat diam) by (apply Rmult_le_compat_r; lra). lra. }
  unfold hv_effective. cbn [nmul RNum]. destruct leak as [v|]; [|exact A]. rewrite fan_max. split; [eapply Rle_trans; [|apply Rmax_l]; lra|apply Rmax_lub; lra].
Qed.
(** A new rate: the area passes just this rate at the flux of the moment, or is the throat. *)
Theorem C217_leak : forall (diam tuning : R) u s v, neps <= diam -> 0 <= v -> g_leak u = Some v -> h_last s <> v -> neps < hflux tuning u ->
  (v <= hflux tuning u * throat diam -> h_area (hupdate diam tuning u s) * hflux tuning u = v) /\
  (hflux tuning u * throat diam <= v -> h_area (hupdate diam tuning u s) = throat diam).
Proof.
  intros diam tuning u s v D V L NE F. pose proof neps_pos as EP. pose proof (throat_pos diam D) as TP. unfold hv_update. rewrite L.
  rewrite (proj2 (eqb_false _ _) NE). cbn [negb]. cbv zeta. cbn [h_area]. set (x := hflux tuning u) in *. clearbody x.
  assert (LT : (neps <~ x) = true) by (apply ltI; exact F). rewrite LT, within_limit, of_area_R. unfold within. cbn [n0 ndiv RNum].
  assert (Q : 0 <= v / x) by (apply Rmult_le_pos; [exact V|left; apply Rinv_0_lt_compat; lra]). split; intro H.
  - assert (v / x <= throat diam). { apply (Rmult_le_reg_r x); [lra|]. replace (v / x * x) with v by (field; lra). lra. }
    rewrite Rmin_left, Rmax_right by lra. field. lra.
  - assert (throat diam <= v / x). { apply (Rmult_le_reg_r x); [lra|]. replace (v / x * x) with v by (field; lra). lra. }
    rewrite Rmin_right, Rmax_right by lra. reflexivity.
Qed.
(** An unchanged rate keeps the area; clearing the malfunction closes it. *)
Theorem C217_kept : forall (diam tuning : R) us v s, h_last s = v -> Forall (fun u => g_leak u = Some v) us ->
  fold_left (fun s u => hupdate diam tuning u s) us s = s.
Proof.
  intros diam tuning us v s H F. induction us as [|u us IH]; [reflexivity|]. inversion F as [|? ? L FF]; subst. cbn [fold_left].
  assert (E : hupdate diam tuning u s = s). { unfold hv_update. rewrite L. now rewrite (proj2 (eqb_true _ _) eq_refl). }
  rewrite E. apply IH; assumption.
Qed.
Theorem C217_cleared : forall (diam tuning : R) u s, g_leak u = None -> hupdate diam tuning u s = mkhv 0 0.
Proof. intros diam tuning u s H. unfold hv_update. now rewrite H. Qed.
(** What the flux of the moment is, for equal phases: choked, subsonic or a liquid's from the port of
    higher pressure. *)
Theorem C217_flux : forall (tuning : R) u, let one := if Rlt_dec (g_p0 u) (g_p1 u) then true else false in
  let fin := if one then g_f1 u else g_f0 u in
  let hi := 1000 * Rmax (g_p0 u) (g_p1 u) in let lo := 1000 * Rmin (g_p0 u) (g_p1 u) in
  (d_gas (g_f0 u) = true -> g_ratio u < 1 -> hflux tuning u = tuning * (g_cd u * crit (d_gamma fin) hi (d_rho fin))) /\
  (d_gas (g_f0 u) = true -> 1 <= g_ratio u -> hflux tuning u = tuning * (g_cd u * sub (d_gamma fin) hi (d_rho fin) lo)) /\
  (d_gas (g_f0 u) = false -> hflux tuning u = tuning * (g_cd u * sqrt ((d_rho (g_f0 u) + d_rho (g_f1 u)) * (1000 * Rabs (g_p0 u - g_p1 u))))).
Proof.
  intros tuning u. cbv zeta. unfold hv_flux. cbv zeta.
  assert (E : (g_p0 u <~ g_p1 u) = if Rlt_dec (g_p0 u) (g_p1 u) then true else false).
  { destruct (Rlt_dec (g_p0 u) (g_p1 u)); [now apply ltI|apply ltN; lra]. }
  rewrite E, kpa_R. cbn [nmul RNum].
  destruct (Rlt_dec (g_p0 u) (g_p1 u)) as [L|L].
  - rewrite Rmax_right, Rmin_left, Rabs_left1 by lra. repeat split; intros ->.
    + intro R1. assert (X : (g_ratio u <~ n1) = true) by (apply ltI; exact R1). rewrite X. ring.
    + intro R1. assert (X : (g_ratio u <~ n1) = false) by (apply ltN; exact R1). rewrite X. ring.
    + unfold bernoulli_flux. rewrite two_R, halfR. cbn [nadd nsub nmul RNum].
      replace (2 * (1 / 2 * (d_rho (g_f1 u) + d_rho (g_f0 u))) * (1000 * g_p1 u - 1000 * g_p0 u)) with ((d_rho (g_f0 u) + d_rho (g_f1 u)) * (1000 * - (g_p0 u - g_p1 u))) by field. ring.
  - rewrite Rmax_left, Rmin_right, Rabs_right by lra. repeat split; intros ->.
    + intro R1. assert (X : (g_ratio u <~ n1) = true) by (apply ltI; exact R1). rewrite X. ring.
    + intro R1. assert (X : (g_ratio u <~ n1) = false) by (apply ltN; exact R1). rewrite X. ring.
    + unfold bernoulli_flux. rewrite two_R, halfR. cbn [nadd nsub nmul RNum].
      replace (2 * (1 / 2 * (d_rho (g_f0 u) + d_rho (g_f1 u))) * (1000 * g_p0 u - 1000 * g_p1 u)) with ((d_rho (g_f0 u) + d_rho (g_f1 u)) * (1000 * (g_p0 u - g_p1 u))) by field. ring.
Qed.
(** A liquid under one kilopascal. *)
Definition water (p : R) : @fl R := mkfl p 300 1 18 false 1 1 1.
Definition leaking (v p0 p1 : R) : hv_in R := mkhi (Some v) (water p0) (water p1) p0 p1 0 1.
Example leaks : 0 < h_area (hrun 1 1 [leaking (1/1000) 2 1]) /\ h_area (hrun 1 1 [leaking (1/1000) 2 1]) * sqrt 2000 = 1/1000.
Proof.
  destruct (C217_flux 1 (leaking (1/1000) 2 1)) as (_ & _ & F). cbn [leaking g_f0 g_f1 g_p0 g_p1 g_cd water d_gas d_rho] in F. specialize (F eq_refl).
  replace (Rabs (2 - 1)) with 1 in F by (rewrite Rabs_right; lra). replace ((1 + 1) * (1000 * 1)) with 2000 in F by ring. rewrite !Rmult_1_l in F.
  assert (Q : 1 <= sqrt 2000) by (rewrite <- sqrt_1 at 1; apply sqrt_le_1_alt; lra). pose proof neps_small as NE. pose proof quarter_pi_pos as QP.
  assert (TH : 1/10 <= throat 1).
  { unfold throat, quarter_pi, pi_over_4. cbn [ndec RNum]. unfold Rdec. cbn [Z.leb Z.compare Z.opp]. change (10 ^ 17)%Z with 100000000000000000%Z. lra. }
  destruct (C217_leak 1 1 (leaking (1/1000) 2 1) (mkhv 0 0) (1/1000)) as (L & _); [lra|lra|reflexivity|cbn [h_last]; lra|rewrite F; lra|].
  rewrite F in L. unfold hv_run. cbn [fold_left]. 
  assert (E : h_area (hupdate 1 1 (leaking (1 / 1000) 2 1) (mkhv 0 0)) * sqrt 2000 = 1 / 1000).
  { apply L. assert (1 * throat 1 <= sqrt 2000 * throat 1) by (apply Rmult_le_compat_r; lra). lra. }
  split; [|exact E]. set (x := h_area _) in *. change (h_area (hupdate 1 1 (leaking (1 / 1000) 2 1) (mkhv n0 n0))) with x. 
  destruct (Rlt_dec 0 x); [assumption|]. assert (0 <= (- x) * sqrt 2000) by (apply Rmult_le_pos; lra). lra.
Qed.
(** Refuted: a leak malfunction leaks once there is a pressure difference.  If it is set while there is
    none, the area stays zero until the rate is changed. *)
Theorem C217_late_refuted : exists diam tuning v : R, of_valid diam 1 0 0 tuning = true /\ hv_valid 0 v = true /\ 0 < v /\
  forall us, Forall (fun u => g_leak u = Some v) us -> h_area (hrun diam tuning (leaking v 1 1 :: us)) = 0.
Proof.
  exists 1, 1, (1/1000). pose proof neps_small as NE. pose proof neps_pos as EP. split; [apply C216_accepts; lra|]. split; [apply C217_accepts; lra|]. split; [lra|].
  intros us F. unfold hv_run. cbn [fold_left].
  assert (E : hupdate 1 1 (leaking (1/1000) 1 1) (mkhv n0 n0) = mkhv (1/1000) 0).
  { unfold hv_update. cbn [leaking g_leak]. assert (X : (h_last (mkhv n0 n0) ==~ (1/1000)) = false) by (apply eqb_false; cbn [h_last n0 RNum]; lra). rewrite X. cbn [negb]. cbv zeta.
    destruct (C217_flux 1 (leaking (1/1000) 1 1)) as (_ & _ & FL). cbn [leaking g_f0 g_f1 g_p0 g_p1 g_cd water d_gas d_rho] in FL. specialize (FL eq_refl).
    replace (Rabs (1 - 1)) with 0 in FL by (rewrite Rminus_diag_eq, Rabs_R0; reflexivity). rewrite !Rmult_0_r, sqrt_0, !Rmult_0_r in FL. fold (water 1) in FL. fold (leaking (1/1000) 1 1) in FL.
    change (mkhi (Some (1 / 1000)) (water 1) (water 1) 1 1 0 1) with (leaking (1/1000) 1 1). rewrite FL.
    assert (Y : (neps <~ 0) = false) by (apply ltN; lra). rewrite Y. reflexivity. }
  rewrite E. now rewrite (C217_kept 1 1 us (1/1000)).
Qed.
(** Refuted: the leak starts at the rate asked for.  Whether the fluid is a gas is asked of port 0,
    even when the flow is from port 1. *)
Theorem C217_phase_refuted : exists (diam tuning v : R) u, of_valid diam 1 0 0 tuning = true /\ 0 < v /\ g_leak u = Some v /\
  g_p0 u < g_p1 u /\ d_gas (g_f1 u) = true /\ 1 < d_gamma (g_f1 u) /\ g_ratio u < 1 /\
  h_area (hrun diam tuning [u]) * (g_cd u * crit (d_gamma (g_f1 u)) (1000 * g_p1 u) (d_rho (g_f1 u))) < v.
Proof.
  exists 1, 1, (1/1000), (mkhi (Some (1/1000)) (mkfl 0 300 1 18 false 1 1 1) (mkfl 1 300 1 18 true 2 1 1) 0 1 0 1).
  set (u := mkhi _ _ _ _ _ _ _). pose proof neps_small as NE. pose proof neps_pos as EP.
  split; [apply C216_accepts; lra|]. split; [lra|]. split; [reflexivity|]. split; [cbn [g_p0 g_p1 u]; lra|]. split; [reflexivity|].
  split; [cbn [d_gamma g_f1 u]; lra|]. split; [cbn [g_ratio u]; lra|].
  destruct (C217_flux 1 u) as (_ & _ & F). cbn [g_f0 g_f1 g_p0 g_p1 g_cd u d_gas d_rho] in F. fold u in F. specialize (F eq_refl).
  replace (Rabs (0 - 1)) with 1 in F by (rewrite Rabs_left; lra). replace ((1 + 1) * (1000 * 1)) with 2000 in F by ring. rewrite !Rmult_1_l in F.
  assert (Q : 1 <= sqrt 2000) by (rewrite <- sqrt_1 at 1; apply sqrt_le_1_alt; lra).
  assert (TH : 1/10 <= throat 1).
  { unfold throat, quarter_pi, pi_over_4. cbn [ndec RNum]. unfold Rdec. cbn [Z.leb Z.compare Z.opp]. change (10 ^ 17)%Z with 100000000000000000%Z. lra. }
  destruct (C217_leak 1 1 u (mkhv 0 0) (1/1000)) as (L & _); [lra|lra|reflexivity|cbn [h_last]; lra|rewrite F; lra|]. rewrite F in L.
  assert (E : h_area (hupdate 1 1 u (mkhv 0 0)) * sqrt 2000 = 1 / 1000).
  { apply L. assert (1 * throat 1 <= sqrt 2000 * throat 1) by (apply Rmult_le_compat_r; lra). lra. }
  unfold hv_run. cbn [fold_left]. change (hupdate 1 1 u (mkhv n0 n0)) with (hupdate 1 1 u (mkhv 0 0)). set (x := h_area _) in *. clearbody x.
  cbn [g_f1 g_p1 g_cd u d_gamma d_rho]. rewrite Rmult_1_l, crit_R by lra.
  assert (C0 : sqrt (2 * (1000 * 1) * 1 * Rpower (2 / (2 + 1)) ((2 + 1) / (2 - 1))) < sqrt 2000).
  { apply sqrt_lt_1_alt. replace ((2 + 1) / (2 - 1)) with (INR 3) by (cbn [INR]; field). rewrite Rpower_pow by lra. cbn [pow]. lra. }
  set (c := sqrt (2 * _ * _ * _)) in *. clearbody c.
  assert (X : 0 < x). { destruct (Rlt_dec 0 x); [assumption|]. assert (0 <= (- x) * sqrt 2000) by (apply Rmult_le_pos; lra). lra. }
  rewrite <- E. apply Rmult_lt_compat_l; assumption.
Qed.
(** The Reynolds number is that of the mass flow, whatever its direction. *)
Theorem C216_reynolds : forall (flow area diam visc : R) (a : @fl R), d_rho a <> 0 -> area <> 0 -> visc <> 0 ->
  of_reynolds flow area diam visc a * (area * visc) = Rabs flow * diam.
Proof. intros flow area diam visc a D A V. unfold of_reynolds. cbn [nmul ndiv nabs RNum]. field. tauto. Qed.
Print Assumptions C216_reynolds.
Print Assumptions C217_accepts.
Print Assumptions C217_area.
Print Assumptions C217_range.
Print Assumptions C217_within.
Print Assumptions C217_leak.
Print Assumptions C217_kept.
Print Assumptions C217_cleared.
Print Assumptions C217_flux.
Print Assumptions C217_late_refuted.
Print Assumptions C217_phase_refuted.
