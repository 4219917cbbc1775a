(** C221: the nozzle of a rocket engine. *)
From Coq Require Import Floats.
From Coq Require Import Reals Lra Lia List Arith Bool ZArith.
From Verif Require Import Num Ord MathUtil Props_Math FluidFlow Props_FluidFlow Spec_Valve Props_Valve Props_Detector FluidFan Props_FluidFan Rocket.
Import ListNotations.
Local Open Scope R_scope.
Notation areaR := (area_of powR).
Notation machR := (exit_mach powR).
Notation loopR := (mach_loop powR).
Notation nozzleR := (rk_nozzle sqrt powR).

Lemma pow_pos x y : 0 < x -> powR x y = Rpower x y.
Proof. intro H. unfold powR. destruct (Rlt_dec 0 x); [reflexivity|lra]. Qed.
Lemma r2_R : (r2 : R) = 2. Proof. unfold r2. cbn [ndec RNum]. unfold Rdec. cbn. lra. Qed.
Lemma tol_R : (mach_tol : R) = 1 / 10000.
Proof. unfold mach_tol. cbn [ndec RNum]. unfold Rdec. cbn [Z.leb Z.compare Z.opp]. change (10 ^ 4)%Z with 10000%Z. lra. Qed.

(** ** The area of an isentropic nozzle over that of its throat *)
Definition area_ratio (g m : R) : R := / m * Rpower ((2 + (g - 1) * m * m) / (g + 1)) ((g + 1) / (2 * (g - 1))).
Definition core (g m : R) : R := (2 + (g - 1) * m * m) / (g + 1).
Lemma core_pos g m : 1 < g -> 0 < core g m.
Proof. intro G. unfold core. apply Rdiv_lt_0_compat; [|lra]. assert (0 <= m * m) by (apply Rle_0_sqr). assert (0 <= (g - 1) * (m * m)) by (apply Rmult_le_pos; lra). nra. Qed.
Lemma area_R g m : 1 < g -> m <> 0 -> areaR g m = area_ratio g m.
Proof.
  intros G M. unfold area_of, area_ratio. rewrite r2_R. cbn [nadd nsub nmul ndiv n1 RNum].
  assert (E : 2 / (g + 1) + m * m / ((g + 1) / (g - 1)) = core g m) by (unfold core; field; lra).
  rewrite E, pow_pos by (now apply core_pos). unfold core at 1. replace ((g + 1) / (g - 1) / 2) with ((g + 1) / (2 * (g - 1))) by (field; lra).
  unfold Rdiv at 1. rewrite Rmult_1_l. reflexivity.
Qed.
Definition larea (g m : R) : R := (g + 1) / (2 * (g - 1)) * ln (core g m) - ln m.
Lemma area_exp g m : 1 < g -> 0 < m -> area_ratio g m = exp (larea g m).
Proof.
  intros G M. unfold area_ratio, larea, Rpower. fold (core g m). unfold Rminus. rewrite exp_plus, exp_Ropp, exp_ln by exact M. ring.
Qed.
Lemma larea_deriv g m : 1 < g -> 0 < m ->
  derivable_pt_lim (larea g) m (2 * (m * m - 1) / (m * (2 + (g - 1) * m * m))).
Proof.
  intros G M. pose proof (core_pos g m G) as K.
  assert (D1 : derivable_pt_lim (core g) m (2 * (g - 1) * m / (g + 1))).
  { apply (derivable_pt_lim_ext (fun x => 2 / (g + 1) + (g - 1) / (g + 1) * (x * x))). { intro x. unfold core. field. lra. }
    replace (2 * (g - 1) * m / (g + 1)) with (0 + (g - 1) / (g + 1) * (1 * m + m * 1)) by (field; lra).
    apply (derivable_pt_lim_plus (fun _ => _) (fun x => _ * (x * x))). apply derivable_pt_lim_const.
    apply (derivable_pt_lim_scal (fun x => x * x)). apply (derivable_pt_lim_mult id id); apply derivable_pt_lim_id. }
  assert (D2 : derivable_pt_lim (fun x => ln (core g x)) m (/ core g m * (2 * (g - 1) * m / (g + 1)))).
  { apply (derivable_pt_lim_comp (core g) ln); [exact D1|]. now apply derivable_pt_lim_ln. }
  assert (P : 0 < 2 + (g - 1) * m * m). { assert (0 < (g - 1) * m * m) by (repeat apply Rmult_lt_0_compat; lra). lra. }
  replace (2 * (m * m - 1) / (m * (2 + (g - 1) * m * m))) with ((g + 1) / (2 * (g - 1)) * (/ core g m * (2 * (g - 1) * m / (g + 1))) - / m).
  2: { unfold core. field. repeat split; lra. }
  apply (derivable_pt_lim_minus (fun x => (g + 1) / (2 * (g - 1)) * ln (core g x)) ln); [|now apply derivable_pt_lim_ln].
  apply (derivable_pt_lim_scal (fun x => ln (core g x))). exact D2.
Qed.
Theorem C221_supersonic : forall g a b, 1 < g -> 1 <= a < b -> area_ratio g a < area_ratio g b.
Proof.
  intros g a b G H. rewrite !area_exp by lra. apply exp_increasing.
  destruct (MVT_cor2 (larea g) (fun m => 2 * (m * m - 1) / (m * (2 + (g - 1) * m * m))) a b) as (c & E & K); [lra| |].
  { intros c K. apply larea_deriv; lra. }
  assert (0 < 2 * (c * c - 1) / (c * (2 + (g - 1) * c * c))).
  { assert (0 < (g - 1) * c * c) by (repeat apply Rmult_lt_0_compat; lra). apply Rdiv_lt_0_compat; [nra|]. apply Rmult_lt_0_compat; lra. }
  assert (0 < larea g b - larea g a); [|lra]. rewrite E. apply Rmult_lt_0_compat; lra.
Qed.
Theorem C221_subsonic : forall g a b, 1 < g -> 0 < a -> a < b <= 1 -> area_ratio g b < area_ratio g a.
Proof.
  intros g a b G A H. rewrite !area_exp by lra. apply exp_increasing.
  destruct (MVT_cor2 (larea g) (fun m => 2 * (m * m - 1) / (m * (2 + (g - 1) * m * m))) a b) as (c & E & K); [lra| |].
  { intros c K. apply larea_deriv; lra. }
  assert (0 < 2 * (1 - c * c) / (c * (2 + (g - 1) * c * c))).
  { assert (0 < (g - 1) * c * c) by (repeat apply Rmult_lt_0_compat; lra). apply Rdiv_lt_0_compat; [nra|]. apply Rmult_lt_0_compat; lra. }
  assert (Q : 0 < 2 * (1 - c * c) / (c * (2 + (g - 1) * c * c)) * (b - a)) by (apply Rmult_lt_0_compat; lra).
  replace (2 * (1 - c * c) / (c * (2 + (g - 1) * c * c))) with (- (2 * (c * c - 1) / (c * (2 + (g - 1) * c * c)))) in Q.
  2: { field. assert (0 < (g - 1) * c * c) by (repeat apply Rmult_lt_0_compat; lra). split; lra. }
  lra.
Qed.
Lemma area_one g : 1 < g -> area_ratio g 1 = 1.
Proof. intro G. unfold area_ratio. replace ((2 + (g - 1) * 1 * 1) / (g + 1)) with 1 by (field; lra). unfold Rpower. rewrite ln_1, Rmult_0_r, exp_0. lra. Qed.
Print Assumptions C221_supersonic.
Print Assumptions C221_subsonic.

(** ** The Mach number at the exit *)
Lemma loop_step f g A prev m : 1 < g -> 0 < m -> loopR (S f) g A prev m =
  if Rlt_dec (Rabs (m - prev)) (2 / 10000) then m
  else loopR f g A m (if Rlt_dec A (area_ratio g m) then m - Rabs (m - prev) / 2 else m + Rabs (m - prev) / 2).
Proof.
  intros G M. cbn [mach_loop]. rewrite area_R by lra. rewrite halfR, tol_R. cbn [nmul nsub nadd nabs RNum].
  destruct (Rlt_dec (Rabs (m - prev)) (2 / 10000)) as [L|L].
  - assert (X : (1 / 2 * Rabs (m - prev) <~ 1 / 10000) = true) by (apply ltI; lra). rewrite X. reflexivity.
  - assert (X : (1 / 2 * Rabs (m - prev) <~ 1 / 10000) = false) by (apply ltN; lra). rewrite X.
    destruct (Rlt_dec A (area_ratio g m)) as [Y|Y].
    + assert (X2 : (A <~ area_ratio g m) = true) by (now apply ltI). rewrite X2. f_equal. lra.
    + assert (X2 : (A <~ area_ratio g m) = false) by (apply ltN; lra). rewrite X2. f_equal. lra.
Qed.
Definition bracket (x prev m : R) : Prop :=
  Rabs (m - x) <= Rabs (m - prev) /\ 5 / 4 <= m /\
  (5 / 4 <= m - Rabs (m - prev) \/
   Rabs (m - prev) = m /\ (m = 10 \/ m = 5 \/ m = 5 / 2 \/ m = 5 / 4)).
Lemma abs_of a b : 0 <= b -> (a = b \/ a = - b) -> Rabs a = b.
Proof. intros H [-> | ->]; [now apply Rabs_right, Rle_ge|]. rewrite Rabs_Ropp. now apply Rabs_right, Rle_ge. Qed.
Lemma loop_bracket g x : 1 < g -> 5 / 4 <= x -> forall f prev m, bracket x prev m -> Rabs (m - prev) < 2 / 10000 * 2 ^ f ->
  Rabs (loopR f g (area_ratio g x) prev m - x) < 2 / 10000.
Proof.
  intros G X. induction f as [|f IH]; intros prev m (B & M & L) W.
  - cbn [mach_loop]. cbn in W. lra.
  - rewrite loop_step by lra. destruct (Rlt_dec (Rabs (m - prev)) (2 / 10000)) as [K|K]; [lra|].
    set (w := Rabs (m - prev)) in *. assert (P : 0 <= w) by (unfold w; apply Rabs_pos). clearbody w. cbn [pow] in W.
    destruct (Rlt_dec (area_ratio g x) (area_ratio g m)) as [Y|Y].
    + assert (Q : x < m). { destruct (Rlt_dec x m) as [?|Q]; [assumption|]. destruct (Req_dec x m) as [Q2|Q2]; [subst x; lra|]. pose proof (C221_supersonic g m x G ltac:(lra)). lra. }
      assert (E : Rabs (m - w / 2 - m) = w / 2) by (apply abs_of; lra).
      apply IH; [unfold bracket|]; rewrite E; [|lra].
      rewrite Rabs_right in B by lra. split; [apply Rabs_le; lra|].
      destruct L as [L|[L1 L2]]; [split; [|left]; lra|]. subst w.
      destruct L2 as [L2|[L2|[L2|L2]]]; subst m; (split; [|right; split]); try lra.
    + assert (Q : m <= x). { destruct (Rle_dec m x) as [?|Q]; [assumption|]. pose proof (C221_supersonic g x m G ltac:(lra)). lra. }
      assert (E : Rabs (m + w / 2 - m) = w / 2) by (apply abs_of; lra).
      apply IH; [unfold bracket|]; rewrite E; [|lra].
      rewrite Rabs_left1 in B by lra. split; [apply Rabs_le; lra|]. split; [lra|left; lra].
Qed.
(** From Mach 1.25 to 20 the exit's Mach number is that of the area ratio. *)
Theorem C221_mach : forall g ratio m, 1 < g -> 5 / 4 <= m <= 20 -> area_ratio g m = ratio -> Rabs (machR g ratio - m) < 2 / 10000.
Proof.
  intros g ratio m G M <-. unfold exit_mach.
  replace (ndec 20 0 : R) with 20 by (cbn [ndec RNum]; unfold Rdec; cbn; lra). replace (ndec 10 0 : R) with 10 by (cbn [ndec RNum]; unfold Rdec; cbn; lra).
  assert (E : Rabs (10 - 20) = 10) by (apply abs_of; lra).
  apply loop_bracket; [exact G|lra| |].
  - unfold bracket. rewrite E. split; [apply Rabs_le; lra|]. split; [lra|]. right. split; [reflexivity|now left].
  - rewrite E. assert (Q : 2 ^ 30 = 1073741824) by (rewrite pow_IZR; apply f_equal; reflexivity). rewrite Q. lra.
Qed.
Print Assumptions C221_mach.
Example C221_mach_ex : Rabs (machR (7 / 5) (area_ratio (7 / 5) 4) - 4) < 2 / 10000.
Proof. apply C221_mach; try lra; reflexivity. Qed.

Lemma loop_down g A : 1 < g -> (forall m, 0 < m <= 5 / 8 -> A < area_ratio g m) -> forall f m, 0 < m <= 5 / 8 -> m < 2 / 10000 * 2 ^ f ->
  0 < loopR f g A (2 * m) m < 2 / 10000.
Proof.
  intros G K. induction f as [|f IH]; intros m M W.
  - cbn [mach_loop]. cbn in W. lra.
  - rewrite loop_step by lra. assert (E : Rabs (m - 2 * m) = m) by (apply abs_of; lra). rewrite E.
    destruct (Rlt_dec m (2 / 10000)); [lra|]. destruct (Rlt_dec A (area_ratio g m)) as [Y|Y]; [|pose proof (K m M); lra].
    assert (D : loopR f g A m (m - m / 2) = loopR f g A (2 * (m - m / 2)) (m - m / 2)) by (f_equal; lra). rewrite D. apply IH; [lra|]. cbn [pow] in W. lra.
Qed.
(** Refuted: the exit of a nozzle of little expansion is at its supersonic Mach number.  It comes out as
    next to rest. *)
Theorem C221_low_refuted : forall g ratio, 1 < g -> ratio < area_ratio g (5 / 4) -> ratio < area_ratio g (5 / 8) ->
  0 < machR g ratio < 2 / 10000.
Proof.
  intros g ratio G A B. unfold exit_mach.
  replace (ndec 20 0 : R) with 20 by (cbn [ndec RNum]; unfold Rdec; cbn; lra). replace (ndec 10 0 : R) with 10 by (cbn [ndec RNum]; unfold Rdec; cbn; lra).
  change 30%nat with (S (S (S (S 26)))).
  assert (U : forall m, 5 / 4 < m -> area_ratio g (5 / 4) < area_ratio g m) by (intros m M; apply C221_supersonic; lra).
  rewrite loop_step by lra. replace (Rabs (10 - 20)) with 10 by (symmetry; apply abs_of; lra). destruct (Rlt_dec 10 (2 / 10000)); [lra|].
  destruct (Rlt_dec ratio (area_ratio g 10)) as [_|Q]; [|pose proof (U 10 ltac:(lra)); lra]. replace (10 - 10 / 2) with 5 by lra.
  rewrite loop_step by lra. replace (Rabs (5 - 10)) with 5 by (symmetry; apply abs_of; lra). destruct (Rlt_dec 5 (2 / 10000)); [lra|].
  destruct (Rlt_dec ratio (area_ratio g 5)) as [_|Q]; [|pose proof (U 5 ltac:(lra)); lra]. replace (5 - 5 / 2) with (5 / 2) by lra.
  rewrite loop_step by lra. replace (Rabs (5 / 2 - 5)) with (5 / 2) by (symmetry; apply abs_of; lra). destruct (Rlt_dec (5 / 2) (2 / 10000)); [lra|].
  destruct (Rlt_dec ratio (area_ratio g (5 / 2))) as [_|Q]; [|pose proof (U (5 / 2) ltac:(lra)); lra]. replace (5 / 2 - 5 / 2 / 2) with (5 / 4) by lra.
  rewrite loop_step by lra. replace (Rabs (5 / 4 - 5 / 2)) with (5 / 4) by (symmetry; apply abs_of; lra). destruct (Rlt_dec (5 / 4) (2 / 10000)); [lra|].
  destruct (Rlt_dec ratio (area_ratio g (5 / 4))) as [_|Q]; [|lra]. replace (5 / 4 - 5 / 4 / 2) with (5 / 8) by lra. replace (5 / 4) with (2 * (5 / 8)) by lra.
  apply loop_down; [exact G| |lra|].
  - intros m M. destruct (Req_dec m (5 / 8)) as [-> |Q]; [exact B|]. pose proof (C221_subsonic g m (5 / 8) G). lra.
  - assert (Q : 2 ^ 26 = 67108864) by (rewrite pow_IZR; apply f_equal; reflexivity). rewrite Q. lra.
Qed.
Print Assumptions C221_low_refuted.
(** It is so for an area ratio of 1, which is accepted, at any gamma. *)
Example C221_low_ex : forall g, 1 < g -> area_ratio g 1 = 1 /\ 0 < machR g 1 < 2 / 10000.
Proof.
  intros g G. pose proof (area_one g G) as E. split; [exact E|]. apply C221_low_refuted; [exact G| |]; rewrite <- E at 1.
  - apply C221_supersonic; lra.
  - apply C221_subsonic; lra.
Qed.

(** ** The state at the exit and the mass flow *)
Definition stagnation (g m : R) : R := 1 + (g - 1) / 2 * m ^ 2.
Lemma stag_pos g m : 1 < g -> 1 <= stagnation g m.
Proof. intro G. unfold stagnation. assert (0 <= m ^ 2) by (apply pow2_ge_0). assert (0 <= (g - 1) / 2 * m ^ 2) by (apply Rmult_le_pos; lra). lra. Qed.
Lemma gas_const_R : (gas_const : R) = 8314472 / 1000000.
Proof. unfold gas_const. cbn [ndec RNum]. unfold Rdec. cbn [Z.leb Z.compare Z.opp]. change (10 ^ 6)%Z with 1000000%Z. lra. Qed.
Lemma gravity_R : (gravity : R) = 980665 / 100000.
Proof. unfold gravity. cbn [ndec RNum]. unfold Rdec. cbn [Z.leb Z.compare Z.opp]. change (10 ^ 5)%Z with 100000%Z. lra. Qed.
Definition Rgas : R := 8314472 / 1000000.
(** Without recombination the exit is isentropic: pressure, temperature, and the velocity that is the Mach
    number times the velocity of sound there. *)
Theorem C221_exit : forall (k : rkc R) comb pc m t mw g, 1 < g -> 0 < t -> 0 < mw -> 0 <= m ->
  let z := nozzleR k comb pc m (mkgas t mw g) None in
  z_p z * Rpower (stagnation g m) (g / (g - 1)) = pc /\ x_t (z_gas z) * stagnation g m = t /\
  x_mw (z_gas z) = mw /\ x_g (z_gas z) = g /\
  z_ue z = m * sqrt (g * (1000 * Rgas / mw) * x_t (z_gas z)) /\
  z_isp z * (980665 / 100000) = (if comb then z_ue z else 0).
Proof.
  intros k comb pc m t mw g G Ht Hm M. pose proof (stag_pos g m G) as Q. unfold rk_nozzle.
  rewrite halfR, r2_R, kpaR, gas_const_R, gravity_R. cbn [nadd nsub nmul ndiv nopp n1 n0 RNum x_g x_t x_mw z_p z_ue z_gas z_isp]. fold Rgas. cbv zeta.
  assert (E : 1 + 1 / 2 * (g - 1) * m * m = stagnation g m) by (unfold stagnation; field). rewrite E.
  cbn [x_t x_mw x_g z_p z_ue z_gas z_isp].
  assert (P : powR (stagnation g m) (- g / (g - 1)) = / Rpower (stagnation g m) (g / (g - 1))).
  { rewrite pow_pos by lra. rewrite <- Rpower_Ropp. f_equal. field. lra. }
  rewrite P. assert (PP : 0 < Rpower (stagnation g m) (g / (g - 1))) by apply exp_pos.
  split; [field; lra|]. split; [field; lra|]. split; [reflexivity|]. split; [reflexivity|]. split.
  - replace ((1 - 1 / stagnation g m) * 2 * g * t * 1000 * Rgas / (g - 1) / mw) with (m * m * (g * (1000 * Rgas / mw) * (t / stagnation g m))).
    + assert (0 < g * (1000 * Rgas / mw) * (t / stagnation g m)).
      { unfold Rgas. repeat apply Rmult_lt_0_compat; try lra; apply Rinv_0_lt_compat; lra. }
      rewrite sqrt_mult by (nra || lra). rewrite sqrt_square by exact M. reflexivity.
    + unfold stagnation in *. field. repeat split; lra.
  - destruct comb; field.
Qed.
Print Assumptions C221_exit.
(** At the Mach number of its area ratio the nozzle passes what its throat passes when choked. *)
Theorem C221_choked : forall (k : rkc R) comb pc m t mw g, 1 < g -> 0 < t -> 0 < mw -> 0 < m -> area_ratio g m = k_ratio k ->
  z_flow (nozzleR k comb pc m (mkgas t mw g) None) =
  k_throat k * pc * Rpower (2 / (g + 1)) ((g + 1) / (2 * (g - 1))) * sqrt (1000 * g * mw / (Rgas * t)).
Proof.
  intros k comb pc m t mw g G Ht Hm M A. pose proof (stag_pos g m G) as Q.
  destruct (C221_exit k comb pc m t mw g G Ht Hm ltac:(lra)) as (P & E & E2 & _ & U & _).
  assert (F : z_flow (nozzleR k comb pc m (mkgas t mw g) None) =
    let z := nozzleR k comb pc m (mkgas t mw g) None in k_throat k * k_ratio k * z_ue z * z_p z * x_mw (z_gas z) / Rgas / x_t (z_gas z)).
  { unfold rk_nozzle. rewrite gas_const_R. reflexivity. }
  rewrite F. cbv zeta. clear F. rewrite U, E2.
  set (z := nozzleR k comb pc m (mkgas t mw g) None) in *. set (s := stagnation g m) in *. set (e := (g + 1) / (2 * (g - 1))) in *.
  assert (PP : 0 < Rpower s (g / (g - 1))) by apply exp_pos.
  replace (z_p z) with (pc / Rpower s (g / (g - 1))) by (rewrite <- P; field; lra).
  replace (x_t (z_gas z)) with (t / s) by (rewrite <- E; field; lra).
  assert (RG : 0 < Rgas) by (unfold Rgas; lra).
  assert (SQ : sqrt (g * (1000 * Rgas / mw) * (t / s)) = sqrt (1000 * g * mw / (Rgas * t)) * (Rgas * t / mw) * / Rpower s (1 / 2)).
  { rewrite <- (sqrt_square (Rgas * t / mw)) by (apply Rlt_le; apply Rdiv_lt_0_compat; [apply Rmult_lt_0_compat|]; lra).
    replace (1 / 2) with (/ 2) by lra. rewrite Rpower_sqrt by lra. rewrite <- sqrt_mult.
    - rewrite <- sqrt_inv by lra. rewrite <- sqrt_mult.
      + f_equal. field. repeat split; lra.
      + apply Rmult_le_pos; [|apply Rle_0_sqr]. apply Rlt_le, Rdiv_lt_0_compat; repeat apply Rmult_lt_0_compat; lra.
      + apply Rlt_le, Rinv_0_lt_compat; lra.
    - apply Rlt_le, Rdiv_lt_0_compat; repeat apply Rmult_lt_0_compat; lra.
    - apply Rle_0_sqr. }
  rewrite SQ.
  assert (AM : k_ratio k * m = Rpower (2 / (g + 1)) e * Rpower s e).
  { rewrite <- A. unfold area_ratio. fold e. replace ((2 + (g - 1) * m * m) / (g + 1)) with (2 / (g + 1) * s) by (unfold s, stagnation; field; lra).
    rewrite Rpower_mult_distr; [|apply Rdiv_lt_0_compat; lra|lra]. field. lra. }
  assert (PW : Rpower s e * s = Rpower s (1 / 2) * Rpower s (g / (g - 1))).
  { rewrite <- (Rpower_1 s) at 2 by lra. rewrite <- !Rpower_plus. f_equal. unfold e. field. lra. }
  assert (P5 : 0 < Rpower s (1 / 2)) by apply exp_pos.
  set (q := sqrt (1000 * g * mw / (Rgas * t))) in *. set (c := Rpower (2 / (g + 1)) e) in *. set (a := Rpower s e) in *. set (b := Rpower s (1 / 2)) in *. set (d := Rpower s (g / (g - 1))) in *.
  replace (k_throat k * k_ratio k * (m * (q * (Rgas * t / mw) * / b)) * (pc / d) * mw / Rgas / (t / s)) with (k_throat k * pc * (k_ratio k * m) * q * s / (b * d)) by (field; repeat split; lra).
  rewrite AM. replace (k_throat k * pc * (c * a) * q * s / (b * d)) with (k_throat k * pc * c * q * (a * s) / (b * d)) by (field; lra).
  rewrite PW. field. lra.
Qed.
Print Assumptions C221_choked.
(** With the configured combustion gas that is the pressure and throat area over the characteristic
    velocity: what the conductance of the first frame passes to a vacuum. *)
Theorem C221_characteristic : forall (k : rkc R) comb pc m, rk_valid k = true -> 0 < m -> area_ratio (k_gamma k) m = k_ratio k ->
  z_flow (nozzleR k comb pc m (s_gas (rk_init powR k comb)) None) = 1000 * pc * k_throat k / k_cstar k /\
  rk_default k * pc = 1000 * pc * k_throat k / k_cstar k.
Proof.
  intros k comb pc m V M A. pose proof neps_pos as NP. unfold rk_valid in V.
  rewrite negb_true_iff, !orb_false_iff, !ltN in V. destruct V as ((((((V1 & V2) & V3) & V4) & V5) & V6) & _). cbn [nadd n1 RNum] in V5.
  set (eps := neps : R) in *. clearbody eps.
  split. 2: { unfold rk_default. rewrite kpaR. cbn [nmul ndiv RNum]. field. lra. }
  unfold rk_init. cbn [s_gas]. set (g := k_gamma k) in *. assert (G : 1 < g) by lra. set (e := (g + 1) / (2 * (g - 1))).
  set (p := Rpower ((g + 1) / 2) e). assert (PP : 0 < p) by apply exp_pos.
  assert (W : rk_mw powR k = Rgas * k_temp k / (1000 * g) * ((1000 * p / k_cstar k) * (1000 * p / k_cstar k))).
  { unfold rk_mw. fold g. rewrite kpaR, r2_R, gas_const_R. cbn [nadd nsub nmul ndiv n1 RNum]. fold Rgas. rewrite pow_pos by lra.
    replace ((g + 1) / (g - 1)) with (e + e) by (unfold e; field; lra). rewrite Rpower_plus. fold p. field. lra. }
  assert (RG : 0 < Rgas) by (unfold Rgas; lra).
  assert (Y : 0 < 1000 * p / k_cstar k) by (apply Rdiv_lt_0_compat; lra).
  rewrite C221_choked; [|exact G|lra| |exact M|exact A].
  2: { rewrite W. apply Rmult_lt_0_compat; [apply Rdiv_lt_0_compat; [apply Rmult_lt_0_compat|]; lra|]. apply Rmult_lt_0_compat; exact Y. }
  fold e. rewrite W.
  replace (1000 * g * (Rgas * k_temp k / (1000 * g) * (1000 * p / k_cstar k * (1000 * p / k_cstar k))) / (Rgas * k_temp k)) with ((1000 * p / k_cstar k) * (1000 * p / k_cstar k)) by (field; repeat split; lra).
  rewrite sqrt_square by lra.
  assert (I : Rpower (2 / (g + 1)) e * p = 1).
  { unfold p. rewrite Rpower_mult_distr; [|apply Rdiv_lt_0_compat; lra|lra]. replace (2 / (g + 1) * ((g + 1) / 2)) with 1 by (field; lra). unfold Rpower. now rewrite ln_1, Rmult_0_r, exp_0. }
  replace (k_throat k * pc * Rpower (2 / (g + 1)) e * (1000 * p / k_cstar k)) with (k_throat k * pc * (Rpower (2 / (g + 1)) e * p) * 1000 / k_cstar k) by (field; lra).
  rewrite I. field. lra.
Qed.
Print Assumptions C221_characteristic.
(** Recombination moves the exit towards the recombined state, by the tuning. *)
Theorem C221_recombined : forall (k : rkc R) pc m c dh r, 0 <= k_rtf k <= 1 ->
  let z := nozzleR k true pc m c (Some (dh, r)) in let z0 := nozzleR k true pc m c None in
  (feps < k_rtf k -> 0 < dh ->
    z_ue z = z_ue z0 + k_rtf k * (sqrt (2 * dh) - z_ue z0) /\ x_t (z_gas z) = x_t (z_gas z0) + k_rtf k * (x_t r - x_t (z_gas z0)) /\
    x_mw (z_gas z) = x_mw c + k_rtf k * (x_mw r - x_mw c) /\ x_g (z_gas z) = x_g c + k_rtf k * (x_g r - x_g c) /\
    z_isp z * gravity = z_ue z /\ z_p z = z_p z0) /\
  (k_rtf k <= feps \/ dh <= 0 -> z = z0) /\ nozzleR k false pc m c (Some (dh, r)) = nozzleR k false pc m c None.
Proof.
  intros k pc m c dh r F. cbv zeta. split; [|split].
  - intros H D. unfold rk_nozzle. rewrite within_limit. cbn [n0 n1 RNum].
    assert (E : within 0 (k_rtf k) 1 = k_rtf k) by (unfold within; rewrite Rmin_left, Rmax_right; lra). rewrite E.
    assert (X1 : (feps <~ k_rtf k) = true) by (now apply ltI). assert (X2 : (0 <~ dh) = true) by (now apply ltI). rewrite X1, X2. cbn [andb].
    cbn [z_ue z_gas z_isp z_p x_t x_mw x_g]. rewrite gravity_R, r2_R. cbn [nadd nsub nmul ndiv nopp RNum].
    set (u := sqrt (2 * dh)). set (v := sqrt _). clearbody u v. repeat split; try lra.
  - intro H. unfold rk_nozzle. rewrite within_limit. cbn [n0 n1 RNum].
    assert (E : within 0 (k_rtf k) 1 = k_rtf k) by (unfold within; rewrite Rmin_left, Rmax_right; lra). rewrite E.
    assert (X : true && (feps <~ k_rtf k) && (0 <~ dh) = false).
    { cbn [andb]. destruct H as [H|H]; [|rewrite andb_comm]; apply andb_false_iff; left; now apply ltN. }
    rewrite X. reflexivity.
  - unfold rk_nozzle. cbn [andb]. reflexivity.
Qed.
Print Assumptions C221_recombined.
Example C221_characteristic_ex : exists (k : rkc R) m, rk_valid k = true /\ 0 < m /\ area_ratio (k_gamma k) m = k_ratio k.
Proof.
  pose proof neps_pos as P. assert (Q : neps < 1 / 10). { change (neps : R) with Reps. pose proof Reps_small. lra. }
  exists (mkrk 1 (area_ratio 2 3) 1000 3000 2 1 1 true), 3. split; [|split; [lra|reflexivity]].
  unfold rk_valid. rewrite negb_true_iff, !orb_false_iff, negb_false_iff, !ltN.
  cbn [k_throat k_ratio k_cstar k_temp k_gamma k_thrust k_rtf nadd n0 n1 RNum]. set (eps := neps : R) in *. clearbody eps.
  assert (1 <= area_ratio 2 3). { rewrite <- (area_one 2) at 1 by lra. apply Rlt_le, C221_supersonic; lra. }
  repeat split; try lra. unfold is_in_range. cbn. repeat match goal with |- context [Rleb ?a ?b] => destruct (Rleb_spec a b); try lra end; reflexivity.
Qed.
