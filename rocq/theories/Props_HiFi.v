(** C216, C217: orifices and valves with choked flow. *)
From Coq Require Import Floats.
From Coq Require Import Reals Lra Lia List Arith Bool ZArith.
From Verif Require Import Num Ord MathUtil Props_Math FluidFlow Props_FluidFlow Spec_Valve Props_Valve Props_Detector FluidFan Props_FluidFan Props_Head Motor Props_Motor Props_PwmMotor HiFi.
Import ListNotations.
Local Open Scope R_scope.
Notation crit := (critical_flux sqrt powR).
Notation sub := (sub_flux sqrt powR).
Notation bern := (bernoulli_flux sqrt).
Notation gas := (of_gas sqrt powR).

Lemma two_R : (ndec 2 0 : R) = 2. Proof. rnum. unfold Rdec. cbn. lra. Qed.
Lemma kpa_R : (pa_per_kpa : R) = 1000. Proof. unfold pa_per_kpa. rnum. unfold Rdec. cbn. lra. Qed.
Definition quarter_pi : R := pi_over_4.
Lemma quarter_pi_pos : 0 < quarter_pi.
Proof. unfold quarter_pi, pi_over_4. cbn [ndec RNum]. unfold Rdec. cbn [Z.leb Z.compare Z.opp]. apply Rdiv_lt_0_compat; apply IZR_lt; reflexivity. Qed.
Definition throat (diam : R) : R := quarter_pi * (diam * diam).
Lemma of_area_R diam : of_area diam = throat diam.
Proof. unfold of_area, throat. cbn [nmul RNum]. unfold quarter_pi. ring. Qed.
Lemma throat_pos diam : neps <= diam -> 0 < throat diam.
Proof. intro H. pose proof neps_pos. pose proof quarter_pi_pos. unfold throat. repeat apply Rmult_lt_0_compat; lra. Qed.

(** ** C216 *)
Theorem C216_accepts : forall diam cd rec expand tuning : R, of_valid diam cd rec expand tuning = true <->
  neps <= diam /\ neps <= cd <= 1 /\ 0 <= rec /\ 0 <= expand <= 1 /\ 0 <= tuning.
Proof.
  intros diam cd rec expand tuning. unfold of_valid. rewrite negb_true_iff, !orb_false_iff, !negb_false_iff, !in_range_iff, !ltN. cbn [n0 n1 RNum]. tauto.
Qed.
(** All three coefficients describe the same orifice. *)
Theorem C216_coefficients : forall v diam : R, neps <= diam ->
  of_default Discharge v diam = v /\
  of_default FlowFactor v diam * throat diam * (509117 / 10) = v /\
  of_default FlowCoeff v diam = of_default FlowFactor (865 / 1000 * v) diam.
Proof.
  intros v diam H. pose proof (throat_pos diam H) as P. unfold of_default. rewrite of_area_R.
  assert (K : (kv_to_cd : R) = 509117 / 10) by (unfold kv_to_cd; rnum; unfold Rdec; cbn [Z.leb Z.compare Z.opp]; change (10 ^ 1)%Z with 10%Z; lra).
  assert (L : (ndec 865 (-3) : R) = 865 / 1000) by (rnum; unfold Rdec; cbn [Z.leb Z.compare Z.opp]; change (10 ^ 3)%Z with 1000%Z; lra).
  rewrite K, L. cbn [nmul ndiv RNum]. split; [reflexivity|]. split; field; lra.
Qed.
(** The discharge coefficient: its default in turbulent flow and at rest, less in laminar flow. *)
Theorem C216_discharge : forall cd rec re : R, neps <= cd -> 0 <= rec -> 0 <= re ->
  neps <= of_cd sqrt cd rec re <= cd /\ of_cd sqrt cd rec 0 = cd /\ of_cd sqrt cd 0 re = cd /\
  (neps <= rec -> rec <= re -> of_cd sqrt cd rec re = cd) /\
  (neps <= rec -> re <= rec -> neps <= cd * sqrt (re / rec) -> of_cd sqrt cd rec re = cd * sqrt (re / rec)).
Proof.
  intros cd rec re C0 H E. pose proof neps_pos as EP. unfold of_cd. cbv zeta. rewrite !head_min, !fan_max. cbn [nmul ndiv RNum].
  assert (M : 0 < Rmax rec neps) by (eapply Rlt_le_trans; [exact EP|apply Rmax_r]).
  assert (S1 : 0 <= sqrt (Rmin rec re / Rmax rec neps) <= 1).
  { split; [apply sqrt_pos|]. apply Rle_trans with (sqrt 1); [|rewrite sqrt_1; lra]. apply sqrt_le_1_alt. apply (Rmult_le_reg_r (Rmax rec neps)); [exact M|].
    replace (Rmin rec re / Rmax rec neps * Rmax rec neps) with (Rmin rec re) by (field; lra). rewrite Rmult_1_l.
    eapply Rle_trans; [apply Rmin_l|apply Rmax_l]. }
  assert (Z0 : (0 <~ neps) = true) by (apply ltI; exact EP).
  split; [|split; [|split; [|split]]].
  - set (q := sqrt _) in *. destruct (Rle_dec neps (cd * q)) as [G|G].
    + assert (L : (cd * q <~ neps) = false) by (apply ltN; exact G). rewrite L. split; [exact G|].
      assert (cd * q <= cd * 1) by (apply Rmult_le_compat_l; lra). lra.
    + assert (L : (cd * q <~ neps) = true) by (apply ltI; lra). rewrite L. lra.
  - rewrite Rmin_right by lra. replace (0 / Rmax rec neps) with 0 by (field; lra). rewrite sqrt_0, Rmult_0_r. now rewrite Z0.
  - rewrite Rmin_left, Rmax_right by lra. replace (0 / neps) with 0 by (field; lra). rewrite sqrt_0, Rmult_0_r. now rewrite Z0.
  - intros K G. rewrite Rmin_left by exact G. rewrite Rmax_left by exact K. replace (rec / rec) with 1 by (field; lra). rewrite sqrt_1, !Rmult_1_r. destruct (cd <~ neps); reflexivity.
  - intros K G Q. rewrite Rmin_right, Rmax_left by lra. assert (L : (cd * sqrt (re / rec) <~ neps) = false) by (apply ltN; exact Q). now rewrite L.
Qed.

(** *** Choked flow *)
Lemma powR_R x y : 0 < x -> powR x y = Rpower x y.
Proof. intro H. unfold powR. destruct (Rlt_dec 0 x); [reflexivity|lra]. Qed.
Lemma rpow_concave u b : 0 < u -> 0 <= b <= 1 -> Rpower u b <= 1 - b + b * u.
Proof.
  intros U B. unfold Rpower. set (L := ln u). assert (E : u = exp L) by (unfold L; now rewrite exp_ln). rewrite E.
  assert (A1 : forall x, exp (b * L) * (1 + (x - b * L)) <= exp x).
  { intro x. replace (exp x) with (exp (b * L) * exp (x - b * L)) by (rewrite <- exp_plus; f_equal; ring).
    apply Rmult_le_compat_l; [left; apply exp_pos|]. destruct (Req_dec (x - b * L) 0) as [Z0|NZ]; [rewrite Z0, exp_0; lra|left; now apply exp_ineq1]. }
  pose proof (A1 0) as P0. pose proof (A1 L) as P1. rewrite exp_0 in P0.
  apply (Rmult_le_compat_l (1 - b)) in P0; [|lra]. apply (Rmult_le_compat_l b) in P1; [|lra].
  replace (1 - b) with ((1 - b) * 1) by ring. eapply Rle_trans; [|apply Rplus_le_compat; [exact P0|exact P1]]. right. ring.
Qed.
(** The critical ratio of pressures. *)
Definition critical_ratio (g : R) : R := Rpower (2 / (g + 1)) (g / (g - 1)).
Section CHOKE.
Variable g : R.
Hypothesis G : 1 < g.
Let a := 2 / (g + 1).
Let t0 := Rpower a (2 / (g - 1)).
Lemma ch_a : 0 < a < 1.
Proof.
  clear t0. unfold a. split; [apply Rdiv_lt_0_compat; lra|]. apply (Rmult_lt_reg_r (g + 1)); [lra|]. replace (2 / (g + 1) * (g + 1)) with 2 by (field; lra). lra.
Qed.
Lemma ch_top : Rpower a ((g + 1) / (g - 1)) = a * t0.
Proof.
  unfold t0. rewrite <- (Rpower_1 a) at 2 by (apply ch_a). rewrite <- Rpower_plus. f_equal. field. lra.
Qed.
Lemma ch_t (x : R) : 0 < x -> Rpower x ((g + 1) / g) = Rpower (Rpower x (2 / g)) ((g + 1) / 2).
Proof. intro X. rewrite Rpower_mult. f_equal. field. lra. Qed.
Lemma ch_bound (x : R) : 0 < x -> Rpower x (2 / g) - Rpower x ((g + 1) / g) <= t0 * (1 - a).
Proof.
  intro X. rewrite ch_t by exact X. set (t := Rpower x (2 / g)). assert (T : 0 < t) by apply exp_pos. clearbody t. pose proof ch_a as A.
  assert (T0 : 0 < t0) by apply exp_pos. set (al := (g + 1) / 2).
  assert (AL : 1 < al) by (unfold al; lra). assert (AA : a * al = 1) by (unfold a, al; field; lra).
  assert (Q : 0 < t / t0) by (apply Rdiv_lt_0_compat; lra).
  set (u := Rpower (t / t0) al). assert (U : 0 < u) by apply exp_pos.
  assert (E1 : Rpower u (/ al) = t / t0). { unfold u. rewrite Rpower_mult. rewrite Rinv_r by lra. now apply Rpower_1. }
  assert (B : 0 <= / al <= 1). { split; [left; apply Rinv_0_lt_compat; lra|]. rewrite <- Rinv_1. apply Rinv_le_contravar; lra. }
  pose proof (rpow_concave u (/ al) U B) as C0. rewrite E1 in C0.
  assert (UB : al * (t / t0 - 1) + 1 <= u).
  { apply (Rmult_le_compat_l al) in C0; [|lra]. replace (al * (1 - / al + / al * u)) with (al - 1 + u) in C0 by (field; lra). lra. }
  assert (T0A : Rpower t0 al = a * t0). { unfold t0 at 1. rewrite Rpower_mult. unfold al. replace (2 / (g - 1) * ((g + 1) / 2)) with ((g + 1) / (g - 1)) by (field; lra). apply ch_top. }
  assert (TA : Rpower t al = a * t0 * u).
  { unfold u. rewrite <- T0A, Rpower_mult_distr by assumption. f_equal. field. lra. }
  rewrite TA. apply (Rmult_le_compat_l (a * t0)) in UB; [|left; apply Rmult_lt_0_compat; lra].
  replace (a * t0 * (al * (t / t0 - 1) + 1)) with (a * al * t - a * al * t0 + a * t0) in UB by (field; lra). rewrite AA in UB. lra.
Qed.
Lemma ch_equal : Rpower (critical_ratio g) (2 / g) - Rpower (critical_ratio g) ((g + 1) / g) = t0 * (1 - a).
Proof.
  unfold critical_ratio. fold a. rewrite !Rpower_mult. replace (g / (g - 1) * (2 / g)) with (2 / (g - 1)) by (field; lra).
  replace (g / (g - 1) * ((g + 1) / g)) with ((g + 1) / (g - 1)) by (field; lra). rewrite ch_top. fold t0. ring.
Qed.
Lemma ch_factor : 2 / (g - 1) * (t0 * (1 - a)) = Rpower a ((g + 1) / (g - 1)).
Proof. rewrite ch_top. generalize t0. intro q. unfold a. field. lra. Qed.
Lemma ch_ratio : 0 < critical_ratio g < 1.
Proof.
  unfold critical_ratio. fold a. pose proof ch_a as A. split; [apply exp_pos|]. unfold Rpower. apply Rlt_le_trans with (exp 0); [|rewrite exp_0; lra]. apply exp_increasing.
  assert (ln a < 0) by (rewrite <- ln_1; apply ln_increasing; lra). assert (0 < g / (g - 1)) by (apply Rdiv_lt_0_compat; lra).
  set (q := g / (g - 1)) in *. set (w := ln a) in *. clearbody q w.
  assert (0 < q * (- w)) by (apply Rmult_lt_0_compat; lra). lra.
Qed.
End CHOKE.
Lemma crit_R g p0 rho : 1 < g -> crit g p0 rho = sqrt (g * p0 * rho * Rpower (2 / (g + 1)) ((g + 1) / (g - 1))).
Proof.
  intro G. unfold critical_flux. rewrite two_R, powR_R; [reflexivity|]. cbn [nadd ndiv n1 RNum]. apply Rdiv_lt_0_compat; lra.
Qed.
Lemma sub_R g p0 rho p1 : 0 < p1 / p0 -> sub g p0 rho p1 = sqrt (2 * p0 * rho * g / (g - 1) * (Rpower (p1 / p0) (2 / g) - Rpower (p1 / p0) ((g + 1) / g))).
Proof. intro G. unfold sub_flux. rewrite two_R. cbn [ndiv RNum]. rewrite !powR_R by exact G. reflexivity. Qed.
(** The choked flux is the most that the subsonic formula gives, and both meet at the critical ratio. *)
Theorem C216_choked_most : forall g p0 rho p1 : R, 1 < g -> 0 < p0 -> 0 <= rho -> 0 < p1 -> sub g p0 rho p1 <= crit g p0 rho.
Proof.
  intros g p0 rho p1 G P RH P1. assert (X : 0 < p1 / p0) by (apply Rdiv_lt_0_compat; lra). rewrite sub_R, crit_R by assumption.
  apply sqrt_le_1_alt. rewrite <- (ch_factor g G). pose proof (ch_bound g G _ X) as B. set (h := Rpower (p1 / p0) _ - _) in *. set (m := Rpower (2 / (g + 1)) (2 / (g - 1)) * (1 - 2 / (g + 1))) in *.
  replace (2 * p0 * rho * g / (g - 1) * h) with (2 * (p0 * rho * (g / (g - 1))) * h) by (field; lra).
  replace (g * p0 * rho * (2 / (g - 1) * m)) with (2 * (p0 * rho * (g / (g - 1))) * m) by (field; lra).
  apply Rmult_le_compat_l; [|exact B]. assert (0 < g / (g - 1)) by (apply Rdiv_lt_0_compat; lra).
  apply Rmult_le_pos; [lra|]. apply Rmult_le_pos; [apply Rmult_le_pos; lra|lra].
Qed.
Theorem C216_continuous : forall g p0 rho : R, 1 < g -> 0 < p0 -> sub g p0 rho (p0 * critical_ratio g) = crit g p0 rho.
Proof.
  intros g p0 rho G P. pose proof (ch_ratio g G) as CR. assert (E : p0 * critical_ratio g / p0 = critical_ratio g) by (field; lra).
  rewrite sub_R by (rewrite E; lra). rewrite crit_R, E, (ch_equal g G) by exact G. rewrite <- (ch_factor g G). f_equal. field. lra.
Qed.
(** No pressure difference, no flux. *)
Theorem C216_still : forall g p0 rho : R, 0 < p0 -> sub g p0 rho p0 = 0.
Proof.
  intros g p0 rho P. assert (E : p0 / p0 = 1) by (field; lra). rewrite sub_R by lra. rewrite E. unfold Rpower. rewrite ln_1, !Rmult_0_r. replace (exp 0 - exp 0) with 0 by ring. rewrite Rmult_0_r. apply sqrt_0.
Qed.
(** A gas: its pressure ratio tells the regime; the conductivity carries the flux at the pressures as
    held apart; an adiabatic index of one or less throws. *)
Theorem C216_gas : forall (cd minp : R) (a b : @fl R), 0 < minp ->
  (gas cd minp a b = None <-> d_gamma a <= 1) /\
  forall ratio k, gas cd minp a b = Some (ratio, k) ->
  let p1 := 1000 * Rmax (d_p b) 0 in
  let p0 := 1000 * Rmax (d_p a) (Rmax (d_p b) 0 + minp) in
  ratio * (p0 * critical_ratio (d_gamma a)) = p1 /\
  (p1 < p0 * critical_ratio (d_gamma a) -> k * ((p0 - p1) / 1000) = cd * crit (d_gamma a) p0 (d_rho a)) /\
  (p0 * critical_ratio (d_gamma a) <= p1 -> k * ((p0 - p1) / 1000) = cd * sub (d_gamma a) p0 (d_rho a) p1).
Proof.
  intros cd minp a b M. unfold of_gas. cbv zeta. split.
  - rewrite <- leI. cbn [n1 RNum]. destruct (_ <=~ _); [tauto|split; discriminate].
  - intros ratio k. destruct (d_gamma a <=~ n1) eqn:E; [discriminate|]. apply leN in E. cbn [n1 RNum] in E. intro H.
    apply (f_equal (fun o => match o with Some p => p | None => (0, 0) end)) in H. apply (f_equal fst) in H as H1. apply (f_equal snd) in H as H2. clear H. cbn [fst snd] in H1, H2.
    rewrite !fan_max, kpa_R in H1, H2. rewrite two_R, powR_R in H1, H2 by (cbn [nadd ndiv n1 RNum]; apply Rdiv_lt_0_compat; lra).
    cbn [nadd nsub nmul ndiv n0 n1 RNum] in H1, H2. set (g := d_gamma a) in *. fold (critical_ratio g) in H1, H2.
    pose proof (Rmax_r (d_p b) 0) as B0. set (q1 := Rmax (d_p b) 0) in *. pose proof (Rmax_r (d_p a) (q1 + minp)) as A0. set (q0 := Rmax (d_p a) (q1 + minp)) in *.
    rewrite (Rmult_comm q1 1000), (Rmult_comm q0 1000) in H1, H2. set (p1 := 1000 * q1) in *. set (p0 := 1000 * q0) in *.
    assert (PP : 0 <= p1 < p0) by (unfold p1, p0; lra). clearbody p1 p0. pose proof (ch_ratio g E) as CR.
    assert (PS : 0 < p0 * critical_ratio g) by (apply Rmult_lt_0_compat; lra). set (ps := p0 * critical_ratio g) in *. clearbody ps.
    assert (R1 : ratio * ps = p1) by (rewrite <- H1; field; lra). split; [exact R1|]. split; intro L.
    + assert (LL : (p1 / ps <~ 1) = true). { apply ltI. apply (Rmult_lt_reg_r ps); [exact PS|]. replace (p1 / ps * ps) with p1 by (field; lra). lra. }
      rewrite LL in H2. rewrite <- H2. field. lra.
    + assert (LL : (p1 / ps <~ 1) = false). { apply ltN. apply (Rmult_le_reg_r ps); [exact PS|]. replace (p1 / ps * ps) with p1 by (field; lra). lra. }
      rewrite LL in H2. rewrite <- H2. field. lra.
Qed.
(** A liquid: Bernoulli's flux at the mean density. *)
Theorem C216_liquid : forall (cd minp : R) (a b : @fl R), 0 < minp ->
  let dp := Rmax (d_p a - d_p b) minp in
  of_liquid sqrt cd minp a b * dp = cd * sqrt (2 * ((d_rho a + d_rho b) / 2) * (1000 * dp)).
Proof.
  intros cd minp a b M. cbv zeta. unfold of_liquid, bernoulli_flux, mean_density. rewrite two_R, kpa_R, halfR, fan_max. cbn [nadd nsub nmul ndiv RNum].
  pose proof (Rmax_r (d_p a - d_p b) minp) as B. set (dp := Rmax _ minp) in *. clearbody dp.
  replace (2 * (1 / 2 * (d_rho a + d_rho b)) * (1000 * dp)) with (2 * ((d_rho a + d_rho b) / 2) * (1000 * dp)) by field. field. lra.
Qed.
(** The molar conductance: within its limits, and exactly that of the tuned conductivity and area. *)
Theorem C216_conductance : forall (tuning k area : R) (a b : @fl R),
  0 <= of_conductance tuning k area a b <= 1000000000000000 /\
  (neps < use_mw a b -> 0 <= tuning * k * area <= 1000000000000000 * use_mw a b ->
   of_conductance tuning k area a b * use_mw a b = tuning * k * area) /\
  (use_mw a b <= neps -> of_conductance tuning k area a b = 0).
Proof.
  intros tuning k area a b. unfold of_conductance. pose proof neps_pos as EP.
  assert (LIM : (ndec 1 15 : R) = 1000000000000000) by (cbn [ndec RNum]; unfold Rdec; cbn [Z.leb Z.compare]; change (10 ^ 15)%Z with 1000000000000000%Z; lra).
  rewrite LIM, within_limit. cbn [nmul ndiv n0 RNum]. set (w := use_mw a b). clearbody w. split; [|split].
  - destruct (neps <~ w); [|lra]. unfold within. split; [apply Rmax_l|apply Rmax_lub; [lra|apply Rmin_r]].
  - intros W [L H]. assert (E : (neps <~ w) = true) by (apply ltI; exact W). rewrite E. assert (Q : 0 < / w) by (apply Rinv_0_lt_compat; lra).
    unfold within. rewrite Rmin_left, Rmax_right; [field; lra| |].
    + apply Rmult_le_pos; lra.
    + apply (Rmult_le_reg_r w); [lra|]. replace (tuning * k * area / w * w) with (tuning * k * area) by (field; lra). exact H.
  - intro W. assert (E : (neps <~ w) = false) by (apply ltN; exact W). now rewrite E.
Qed.
Theorem C216_area : forall (diam : R) block, of_effective diam block = throat diam * match block with Some v => 1 - v | None => 1 end.
Proof. intros diam [v|]; unfold of_effective; rewrite of_area_R; [reflexivity|ring]. Qed.
(** The flux goes down the pressure, in proportion to the drop unless that is lost in rounding. *)
Theorem C216_flux : forall p0 p1 admit : R,
  (Rmax p0 p1 * (100 * neps) <= Rabs (p0 - p1) -> of_flux p0 p1 admit = (p0 - p1) * admit) /\
  (Rabs (p0 - p1) < Rmax p0 p1 * (100 * neps) -> of_flux p0 p1 admit = 0) /\
  (0 <= admit -> 0 <= of_flux p0 p1 admit * (p0 - p1)).
Proof.
  intros p0 p1 admit. unfold of_flux. cbv zeta. rewrite fan_max. assert (H : (ndec 100 0 : R) = 100) by (rnum; unfold Rdec; cbn; lra). rewrite H.
  cbn [nabs nsub nmul n0 RNum]. set (lim := Rmax p0 p1 * (100 * neps)). split; [|split].
  - intro L. assert (E : (Rabs (p0 - p1) <~ lim) = false) by (apply ltN; exact L). now rewrite E.
  - intro L. assert (E : (Rabs (p0 - p1) <~ lim) = true) by (apply ltI; exact L). now rewrite E.
  - intro A. destruct (_ <~ _); [lra|]. replace ((p0 - p1) * admit * (p0 - p1)) with (admit * ((p0 - p1) * (p0 - p1))) by ring.
    apply Rmult_le_pos; [exact A|]. change ((p0 - p1) * (p0 - p1)) with (Rsqr (p0 - p1)). apply Rle_0_sqr.
Qed.
(** The inlet: the port of higher pressure, never one on the ground. *)
Theorem C216_inlet : forall ground (p0 p1 : R),
  (of_inlet ground p0 p1 = Some true <-> snd ground = false /\ (fst ground = true \/ p0 < p1)) /\
  (of_inlet ground p0 p1 = Some false <-> fst ground = false /\ p1 <= p0).
Proof.
  intros [a b] p0 p1. unfold of_inlet. cbn [fst snd]. rewrite <- ltI, <- ltN. destruct a, b, (p0 <~ p1); cbn; split; split; intro H; try discriminate; try tauto; try (destruct H as [? H]; try discriminate; destruct H; discriminate).
Qed.
(** Refuted: the mass flow is that of the orifice.  The mean of both molecular weights divides, but
    the source's multiplies. *)
Theorem C216_mass_refuted : exists (a b : @fl R) (cd minp : R), 0 < minp /\ 0 < cd <= 1 /\ minp < d_p a - d_p b /\ d_gas a = false /\
  let k := of_liquid sqrt cd minp a b in let admit := of_conductance 1 k 1 a b in
  0 < k * (d_p a - d_p b) /\ of_flux (d_p a) (d_p b) admit * d_mw a < k * (d_p a - d_p b).
Proof.
  exists (mkfl 2 300 1 2 false 1 1 1), (mkfl 1 300 1 4 false 1 1 1), 1, (1/2). cbn [d_p d_gas d_mw]. do 4 (split; [lra || reflexivity|]). cbv zeta.
  set (a := mkfl 2 300 1 2 false 1 1 1). set (b := mkfl 1 300 1 4 false 1 1 1).
  pose proof (C216_liquid 1 (1/2) a b ltac:(lra)) as L. cbv zeta in L. cbn [d_p d_rho a b] in L. rewrite Rmax_left in L by lra.
  replace (2 * ((1 + 1) / 2) * (1000 * (2 - 1))) with 2000 in L by field. replace (2 - 1) with 1 in * by lra. rewrite Rmult_1_r, Rmult_1_l in L. rewrite Rmult_1_r. fold a b in L. rewrite L.
  pose proof neps_small as NE. pose proof neps_pos as EP.
  assert (Q : 1 <= sqrt 2000 <= 2000).
  { split; [rewrite <- sqrt_1 at 1; apply sqrt_le_1_alt; lra|]. rewrite <- (sqrt_square 2000) at 2 by lra. apply sqrt_le_1_alt. lra. }
  set (q := sqrt 2000) in *. clearbody q. split; [lra|].
  assert (MW : use_mw a b = 3).
  { unfold use_mw. cbn [d_mw a b]. assert (E1 : (2 <~ neps) = false) by (apply ltN; lra). assert (E2 : (4 <~ neps) = false) by (apply ltN; lra). rewrite E1, E2, halfR. cbn [nadd nmul RNum]. lra. }
  destruct (C216_conductance 1 q 1 a b) as (_ & C1 & _). rewrite MW in C1. specialize (C1 ltac:(lra) ltac:(lra)).
  set (adm := of_conductance 1 q 1 a b) in *. clearbody adm.
  destruct (C216_flux 2 1 adm) as (F & _). rewrite F; [lra|]. replace (2 - 1) with 1 by lra. rewrite Rabs_R1, Rmax_left by lra.
  change (neps : R) with Reps. pose proof Reps_small. lra.
Qed.
Print Assumptions C216_accepts.
Print Assumptions C216_coefficients.
Print Assumptions C216_discharge.
Print Assumptions C216_choked_most.
Print Assumptions C216_continuous.
Print Assumptions C216_still.
Print Assumptions C216_gas.
Print Assumptions C216_liquid.
Print Assumptions C216_conductance.
Print Assumptions C216_area.
Print Assumptions C216_flux.
Print Assumptions C216_inlet.
Print Assumptions C216_mass_refuted.
