(** C172-C176: pressure sources and flow controllers, external connections, flow integrators and
    island analyzers of fluid networks. *)
From Coq Require Import Floats.
From Coq Require Import Reals Lra Lia List Arith Bool ZArith.
From Verif Require Import Num Ord MathUtil Props_Math Spec_Valve Props_Valve Props_Thermal Props_FluidMix FluidFlow Props_FluidFlow FluidCore.
Import ListNotations.
Local Open Scope R_scope.

(** ** C172: pressure sources and flow controllers *)
(** A pressure source adds its pressure to its first port's. *)
Theorem C172_potential : forall ps a p0 p1 : R,
  fst (pot_vector ps a) + snd (pot_vector ps a) = 0 /\ pot_flux a (fst (pot_vector ps a)) p0 p1 = a * (p0 + ps - p1).
Proof. intros. unfold pot_vector, pot_flux. cbn [fst snd]. rnum. split; ring. Qed.
Print Assumptions C172_potential.

Lemma predict_nonneg m minp (a b : @fl R) : 0 <= predR m minp a b half.
Proof.
  destruct (Rlt_dec Reps (Rabs (d_p a - d_p b))) as [A|A]; [destruct (Rlt_dec Reps (flow_rho a b)) as [B|B]|].
  - rewrite predict_eq by assumption. apply Rmult_le_pos; [apply Rabs_pos|]. left. apply Rinv_0_lt_compat. apply powR_pos.
    pose proof Reps_pos as E0. assert (L : Reps < lin_drop minp a b) by (unfold lin_drop; pose proof (Rmax_r minp (Rabs (d_p a - d_p b))); lra).
    apply Rmult_lt_0_compat; lra.
  - unfold predict_cond. rewrite rhoR. change (neps <~ flow_rho a b) with (Rltb Reps (flow_rho a b)).
    rewrite (Rltb_false Reps (flow_rho a b)) by lra. rewrite andb_false_r. apply Rle_refl.
  - unfold predict_cond. change (neps <~ nabs (d_p a -~ d_p b)) with (Rltb Reps (Rabs (d_p a - d_p b))).
    rewrite (Rltb_false Reps (Rabs (d_p a - d_p b))) by lra. apply Rle_refl.
Qed.
Notation targetR := (ctl_target sqrt powR).
Notation stateR := (ctl_state sqrt powR).
Lemma target_range malf mv cmd mx minp (a b : @fl R) p0 p1 rev : 0 <= mx -> 0 <= targetR malf mv cmd mx minp a b p0 p1 rev <= mx.
Proof.
  intro M. unfold ctl_target. destruct ((p0 <~ p1) && negb rev); [change (@n0 R _) with 0; lra|]. rewrite nminR.
  pose proof (predict_nonneg (if malf then mv else cmd) minp a b) as Q. unfold Rmin. destruct (Rle_dec mx _); lra.
Qed.
Lemma filterR g target last : 0 <= g <= 1 ->
  ctl_filter g target last = if Rlt_dec (last + g * (target - last)) Reps then 0 else last + g * (target - last).
Proof.
  intro G. unfold ctl_filter. change (@n0 R _) with 0 in *. change (@n1 R _) with 1 in *. rewrite limit_within by lra.
  assert (W : within 0 g 1 = g) by (unfold within; rewrite Rmin_left, Rmax_right by lra; reflexivity). rewrite W.
  change (last +~ g *~ (target -~ last) <~ neps) with (Rltb (last + g * (target - last)) Reps).
  destruct (Rltb_spec (last + g * (target - last)) Reps) as [A|A]; destruct (Rlt_dec (last + g * (target - last)) Reps); try lra; reflexivity.
Qed.
(** Whatever the command, the conductivity stays from none to the maximum. *)
Theorem C172_range : forall gain malf mv cmd minp (a b : @fl R) p0 p1 rev last mx, 0 <= gain <= 1 -> 0 <= last <= mx ->
  0 <= stateR gain malf mv cmd minp a b p0 p1 rev last mx <= mx.
Proof.
  intros gain malf mv cmd minp a b p0 p1 rev last mx G L. unfold ctl_state. rewrite filterR by exact G.
  pose proof (target_range malf mv cmd mx minp a b p0 p1 rev ltac:(lra)) as Q. set (t := targetR malf mv cmd mx minp a b p0 p1 rev) in *. clearbody t.
  destruct (Rlt_dec _ Reps); [lra|]. split; nra.
Qed.
Print Assumptions C172_range.
(** The command's sign does not matter, a malfunction's value replaces the command, and a reversed
    pressure drop closes a controller that is not to control it. *)
Theorem C172_command : forall gain mv cmd minp (a b : @fl R) p0 p1 last mx,
  stateR gain true mv cmd minp a b p0 p1 true last mx = stateR gain false cmd mv minp a b p0 p1 true last mx /\
  stateR gain false mv (- cmd) minp a b p0 p1 true last mx = stateR gain false mv cmd minp a b p0 p1 true last mx /\
  (p0 < p1 -> forall malf, stateR 1 malf mv cmd minp a b p0 p1 false last mx = 0) /\
  (p1 <= p0 -> forall malf, stateR gain malf mv cmd minp a b p0 p1 false last mx = stateR gain malf mv cmd minp a b p0 p1 true last mx).
Proof.
  intros gain mv cmd minp a b p0 p1 last mx. unfold ctl_state, ctl_target. split; [reflexivity|]. split; [|split].
  - assert (X : predR (- cmd) minp a b half = predR cmd minp a b half).
    { unfold predict_cond. change (nabs (- cmd)) with (Rabs (- cmd)). change (nabs cmd) with (Rabs cmd). rewrite Rabs_Ropp. reflexivity. }
    rewrite X. reflexivity.
  - intros P malf. change (p0 <~ p1) with (Rltb p0 p1). rewrite (Rltb_true _ _ P). cbn [negb andb].
    change (@n0 R _) with 0. rewrite filterR by lra. pose proof Reps_pos. destruct (Rlt_dec _ Reps); lra.
  - intros P malf. change (p0 <~ p1) with (Rltb p0 p1). rewrite (Rltb_false _ _ P). reflexivity.
Qed.
Print Assumptions C172_command.
(** Held at a target, the distance to it shrinks geometrically. *)
Fixpoint ctl_run (g target : R) (m : nat) (last : R) : R :=
  match m with O => last | S m => ctl_run g target m (ctl_filter g target last) end.
Theorem C172_converges : forall g target m last, 0 <= g <= 1 -> 0 <= last -> Reps <= g * target ->
  ctl_run g target m last = target + (1 - g) ^ m * (last - target).
Proof.
  intros g target m. induction m as [|m IH]; intros last G L Q; cbn [ctl_run pow]; [ring|]. pose proof Reps_pos as E0.
  assert (P : 0 <= (1 - g) * last) by (apply Rmult_le_pos; lra).
  assert (X : ctl_filter g target last = last + g * (target - last)).
  { rewrite filterR by exact G. destruct (Rlt_dec _ Reps); [lra|reflexivity]. }
  rewrite X. rewrite IH; [ring|exact G|lra|exact Q].
Qed.
Print Assumptions C172_converges.
Example C172_converges_nonvacuous : ctl_run (1 / 2) 1 2 0 = 3 / 4.
Proof. rewrite C172_converges; [lra|lra|lra|]. pose proof Reps_small. lra. Qed.
(** A target too small for the filter is never reached from closed. *)
Theorem C172_converges_refuted : exists g target, 0 < g <= 1 /\ Reps < target /\ forall m, ctl_run g target m 0 = 0.
Proof.
  pose proof Reps_pos as E0. exists (1 / 4), (2 * Reps). split; [lra|]. split; [lra|].
  induction m as [|m IH]; cbn [ctl_run]; [reflexivity|]. rewrite filterR by lra. destruct (Rlt_dec _ Reps); [exact IH|lra].
Qed.
Print Assumptions C172_converges_refuted.
(** With the square-root law, gain 1 and fluids alike, the flow is the one commanded, in the
    direction of the pressure drop. *)
Theorem C172_flow : forall (q : @conductor R) cmd mv last (a b : @fl R), q_tune q = T_OFF -> q_block q = false -> q_exp q = 1 / 2 ->
  Reps < Rabs (d_p a - d_p b) -> q_minp q <= Rabs (d_p a - d_p b) -> Reps < flow_rho a b -> Reps < d_mw a -> d_mw b = d_mw a ->
  Rmax (d_p a) (d_p b) * (100 * Reps) <= Rabs (d_p a - d_p b) ->
  Rabs cmd / (Rabs (d_p a - d_p b) * d_mw a) <= q_lim q ->
  Reps <= Rabs cmd / sqrt (flow_rho a b * (1000 * Rabs (d_p a - d_p b))) <= q_max q ->
  let q' := cond_step sqrt powR (stateR 1 false mv cmd (q_minp q) a b (d_p a) (d_p b) true last) q a b in
  mass_flow (cond_flow q' (d_p a) (d_p b)) a b = (if Rlt_dec (d_p a) (d_p b) then - Rabs cmd else Rabs cmd).
Proof.
  intros q cmd mv last a b TO BL EX H1 Hm H2 H3 HW H100 HL HM. cbv zeta. pose proof Reps_pos as E0.
  assert (W : flow_mw a b = d_mw a). { unfold flow_mw. rewrite HW. destruct (Rlt_dec (d_mw a) Reps); lra. }
  assert (D : lin_drop (q_minp q) a b = Rabs (d_p a - d_p b)) by (unfold lin_drop; apply Rmax_right; exact Hm).
  assert (XX : 0 < flow_rho a b * (1000 * Rabs (d_p a - d_p b))) by (apply Rmult_lt_0_compat; lra).
  assert (PE : predR cmd (q_minp q) a b (1 / 2) = Rabs cmd / sqrt (flow_rho a b * (1000 * Rabs (d_p a - d_p b)))).
  { rewrite predict_eq by assumption. rewrite D. replace (within (1 / 2) (1 / 2) 1) with (1 / 2).
    - rewrite powR_half by lra. reflexivity.
    - unfold within. rewrite Rmin_left by lra. rewrite Rmax_left by lra. reflexivity. }
  assert (ST : stateR 1 false mv cmd (q_minp q) a b (d_p a) (d_p b) true last (q_max q) = predR cmd (q_minp q) a b (1 / 2)).
  { unfold ctl_state, ctl_target. rewrite andb_false_r. rewrite filterR by lra. rewrite halfR. rewrite nminR. rewrite PE. rewrite Rmin_right by lra.
    replace (last + 1 * (Rabs cmd / sqrt (flow_rho a b * (1000 * Rabs (d_p a - d_p b))) - last)) with (Rabs cmd / sqrt (flow_rho a b * (1000 * Rabs (d_p a - d_p b)))) by ring.
    destruct (Rlt_dec _ Reps); [lra|reflexivity]. }
  destruct (C154_predict cmd (q_minp q) a b (1 / 2) H1 H2) as [P N]; [rewrite W; exact H3|].
  assert (L0 : 0 <= Rabs cmd / (Rabs (d_p a - d_p b) * d_mw a)).
  { apply Rmult_le_pos; [apply Rabs_pos|left; apply Rinv_0_lt_compat; apply Rmult_lt_0_compat; lra]. }
  assert (L : 0 <= q_lim q) by lra.
  destruct (C154_step (stateR 1 false mv cmd (q_minp q) a b (d_p a) (d_p b) true last) q a b TO L) as (A & _).
  rewrite ST in A. unfold unblocked in A. rewrite BL in A. rewrite Rmult_1_r in A. rewrite EX in A.
  assert (G : admR (predR cmd (q_minp q) a b (1 / 2)) (q_minp q) a b (1 / 2) = Rabs cmd / (Rabs (d_p a - d_p b) * d_mw a)).
  { rewrite D, W in P. rewrite <- P. field. lra. }
  rewrite G in A. assert (WI : within 0 (Rabs cmd / (Rabs (d_p a - d_p b) * d_mw a)) (q_lim q) = Rabs cmd / (Rabs (d_p a - d_p b) * d_mw a)).
  { unfold within. rewrite Rmin_left by exact HL. apply Rmax_right. exact L0. }
  rewrite WI in A. unfold cond_flow. rewrite nmaxR, hundred_eps.
  change (nabs (d_p a -~ d_p b) <~ Rmax (d_p a) (d_p b) *~ (100 * Reps)) with (Rltb (Rabs (d_p a - d_p b)) (Rmax (d_p a) (d_p b) * (100 * Reps))).
  rewrite Rltb_false by exact H100. rewrite A. unfold mass_flow. rewrite HW. rnum.
  replace (if Rltb _ 0 then d_mw a else d_mw a) with (d_mw a) by (destruct (Rltb _ _); reflexivity).
  destruct (Rlt_dec (d_p a) (d_p b)) as [Q|Q].
  - rewrite (Rabs_left (d_p a - d_p b)) by lra. field. lra.
  - rewrite (Rabs_right (d_p a - d_p b)) in * by lra. field. lra.
Qed.
Print Assumptions C172_flow.
Definition ctl0 : @conductor R := mkcond 1 0 (1 / 2) 0 0 T_OFF 0 0 0 false 0 (1 / 1000) 1000000 0 false.
Example C172_flow_nonvacuous :
  let q' := cond_step sqrt powR (stateR 1 false 0 1 (q_minp ctl0) (gasAt 110 28) (gasAt 100 28) 110 100 true 0) ctl0 (gasAt 110 28) (gasAt 100 28) in
  mass_flow (cond_flow q' 110 100) (gasAt 110 28) (gasAt 100 28) = 1.
Proof.
  pose proof Reps_pos as E0. pose proof Reps_small as E1.
  pose proof (C172_flow ctl0 1 0 0 (gasAt 110 28) (gasAt 100 28)) as T. unfold gasAt, ctl0, flow_rho in *. cbn [d_p d_mw d_rho q_minp q_lim q_tune q_block q_exp q_max] in *.
  rewrite (Rabs_right (110 - 100)) in T by lra. rewrite (Rabs_right 1) in T by lra. rewrite Rmax_left in T by lra.
  replace ((1 + 1) / 2 * (1000 * (110 - 100))) with (100 * 100) in T by lra. rewrite sqrt_square in T by lra.
  cbv zeta in *. rewrite T; try lra; try reflexivity. destruct (Rlt_dec 110 100); lra.
Qed.
(** The conductivity is predicted for the square-root law whatever the link's exponent: with a
    linear law a command of 1 kg/s gives 100 kg/s. *)
Theorem C172_exponent_refuted : exists (q : @conductor R) (a b : @fl R), q_exp q = 1 /\ q_block q = false /\ q_tune q = T_OFF /\
  let q' := cond_step sqrt powR (stateR 1 false 0 1 (q_minp q) a b (d_p a) (d_p b) true 0) q a b in
  mass_flow (cond_flow q' (d_p a) (d_p b)) a b = 100.
Proof.
  pose proof Reps_pos as E0. pose proof Reps_small as E1.
  exists (mkcond 1 0 1 0 0 T_OFF 0 0 0 false 0 (1 / 1000) 1000000 0 false), (gasAt 110 28), (gasAt 100 28).
  split; [reflexivity|]. split; [reflexivity|]. split; [reflexivity|]. cbv zeta.
  set (q := mkcond 1 0 1 0 0 T_OFF 0 0 0 false 0 (1 / 1000) 1000000 0 false : @conductor R). set (a := gasAt 110 28). set (b := gasAt 100 28).
  assert (DD : Rabs (d_p a - d_p b) = 10) by (unfold a, b, gasAt; cbn [d_p]; rewrite Rabs_right; lra).
  assert (D : lin_drop (1 / 1000) a b = 10) by (unfold lin_drop; rewrite DD; apply Rmax_right; lra).
  assert (RH : flow_rho a b = 1) by (unfold flow_rho, a, b, gasAt; cbn [d_rho]; lra).
  assert (W : flow_mw a b = 28) by (unfold flow_mw, a, b, gasAt; cbn [d_mw]; destruct (Rlt_dec 28 Reps); lra).
  assert (W1 : within (1 / 2) 1 1 = 1) by (unfold within; rewrite Rmin_left by lra; apply Rmax_right; lra).
  assert (W2 : within (1 / 2) (1 / 2) 1 = 1 / 2) by (unfold within; rewrite Rmin_left by lra; apply Rmax_left; lra).
  assert (PE : predR 1 (1 / 1000) a b (1 / 2) = 1 / 100).
  { rewrite predict_eq by (rewrite ?DD, ?RH; lra). rewrite D, RH, W2. rewrite powR_half by lra.
    replace (1 * (1000 * 10)) with (100 * 100) by lra. rewrite sqrt_square by lra. rewrite Rabs_right by lra. lra. }
  unfold cond_flow. assert (ST : stateR 1 false 0 1 (q_minp q) a b (d_p a) (d_p b) true 0 1 = 1 / 100).
  { unfold ctl_state, ctl_target. rewrite andb_false_r. rewrite filterR by lra. rewrite halfR. rewrite nminR.
    change (q_minp q) with (1 / 1000). rewrite PE. rewrite Rmin_right by lra. destruct (Rlt_dec _ Reps); lra. }
  destruct (C154_step (stateR 1 false 0 1 (q_minp q) a b (d_p a) (d_p b) true 0) q a b) as (A & _); [reflexivity|unfold q; cbn [q_lim]; lra|].
  change (q_max q) with 1 in A. rewrite ST in A. unfold unblocked in A. change (q_block q) with false in A. change (q_exp q) with 1 in A. change (if false then 1 - q_blockv q else 1) with 1 in A.
  set (z := q_a (cond_step sqrt powR (stateR 1 false 0 1 (q_minp q) a b (d_p a) (d_p b) true 0) q a b)) in *. clearbody z. change (q_minp q) with (1 / 1000) in A.
  pose proof (C154_admittance (1 / 100 * 1) (1 / 1000) a b 1 ltac:(lra) ltac:(lra) ltac:(lra)) as AD.
  rewrite D, W in AD. unfold flow_law in AD. rewrite RH, W1 in AD. rewrite powR_one in AD by lra.
  assert (AV : admR (1 / 100 * 1) (1 / 1000) a b 1 = 100 / (10 * 28)) by lra. rewrite AV in A.
  assert (V : z = 100 / (10 * 28)).
  { rewrite A. change (q_lim q) with 1000000. unfold within. rewrite Rmin_left by lra. rewrite Rmax_right by lra. lra. }
  rewrite V, nmaxR, hundred_eps.
  change (nabs (d_p a -~ d_p b) <~ Rmax (d_p a) (d_p b) *~ (100 * Reps)) with (Rltb (Rabs (d_p a - d_p b)) (Rmax (d_p a) (d_p b) * (100 * Reps))).
  rewrite DD. rewrite Rltb_false by (unfold a, b, gasAt; cbn [d_p]; rewrite Rmax_left by lra; lra).
  unfold mass_flow, a, b, gasAt. cbn [d_p d_mw]. rnum. destruct (Rltb _ _); lra.
Qed.
Print Assumptions C172_exponent_refuted.

(** ** C173: the supply end of an external connection *)
(** The flow taken from the supply node is one flow, in moles and in kilograms of the fluid it is
    made of; a molar demand comes before a mass demand; less than 100 epsilon is none. *)
Definition fluid_of (wi wn x : R) : R := if Rlt_dec x 0 then wi else wn.
Lemma eps100R : (eps100 : R) = 100 * Reps. Proof. unfold eps100. apply hundred_eps. Qed.
Theorem C173_one_flow : forall wi wn flux rate, 0 < wi -> 0 < wn ->
  let f := fst (sup_flow wi wn flux rate) in
  let m := snd (sup_flow wi wn flux rate) in
  m = f * fluid_of wi wn f /\
  (Reps < Rabs flux -> m = 0 \/ f = flux) /\ (Reps < Rabs flux -> 100 * Reps <= Rabs (flux * fluid_of wi wn flux) -> f = flux) /\
  (Rabs flux <= Reps -> 100 * Reps <= Rabs rate -> m = rate) /\
  (Rabs flux <= Reps -> Rabs rate < 100 * Reps -> f = 0 /\ m = 0) /\
  (f = 0 \/ 100 * Reps <= Rabs m).
Proof.
  intros wi wn flux rate WI WN. cbv zeta. unfold sup_flow. rewrite eps100R. pose proof Reps_pos as E0.
  change (flux <~ nopp neps) with (Rltb flux (- Reps)). change (neps <~ flux) with (Rltb Reps flux).
  change (rate <~ nopp neps) with (Rltb rate (- Reps)). change (neps <~ rate) with (Rltb Reps rate).
  assert (K : forall f m : R, m = f * fluid_of wi wn f ->
    let r := if nabs (snd (f, m)) <~ 100 * Reps then (n0, n0) else (f, m) in
    snd r = fst r * fluid_of wi wn (fst r) /\ ((Rabs m < 100 * Reps /\ r = (0, 0)) \/ (100 * Reps <= Rabs m /\ r = (f, m)))).
  { intros f m H. cbn [snd]. change (nabs m <~ 100 * Reps) with (Rltb (Rabs m) (100 * Reps)).
    destruct (Rltb_spec (Rabs m) (100 * Reps)) as [A|A]; cbv zeta; cbn [fst snd]; [|split; [exact H|right; split; [lra|reflexivity]]].
    split; [change (@n0 R _) with 0; ring|left; split; [exact A|reflexivity]]. }
  assert (AB : forall x : R, Rabs x <= Reps <-> (- Reps <= x /\ x <= Reps)).
  { intro x. split; intro H; [|apply Rabs_le; lra]. unfold Rabs in H. destruct (Rcase_abs x); lra. }
  assert (FN : forall x, x < 0 -> fluid_of wi wn x = wi) by (intros x H; unfold fluid_of; destruct (Rlt_dec x 0); lra).
  assert (FP : forall x, 0 <= x -> fluid_of wi wn x = wn) by (intros x H; unfold fluid_of; destruct (Rlt_dec x 0); lra).
  assert (I1 : 0 < / wi) by (apply Rinv_0_lt_compat; exact WI). assert (I2 : 0 < / wn) by (apply Rinv_0_lt_compat; exact WN).
  destruct (Rltb_spec flux (- Reps)) as [A|A]; [|destruct (Rltb_spec Reps flux) as [B|B]].
  - destruct (K flux (flux * wi)) as [K1 K2]; [rewrite FN by lra; reflexivity|]. cbv zeta in *. pose proof (FN flux ltac:(lra)) as FV. rewrite FV.
    split; [exact K1|]. change (flux *~ wi) with (flux * wi). destruct K2 as [[K2 K3]|[K2 K3]]; rewrite K3 in *; cbn [fst snd] in *.
    + repeat split; intros; try lra; try (rewrite AB in *; lra); auto.
    + repeat split; intros; try lra; try (rewrite AB in *; lra); auto.
  - destruct (K flux (flux * wn)) as [K1 K2]; [rewrite FP by lra; reflexivity|]. cbv zeta in *. pose proof (FP flux ltac:(lra)) as FV. rewrite FV.
    split; [exact K1|]. change (flux *~ wn) with (flux * wn). destruct K2 as [[K2 K3]|[K2 K3]]; rewrite K3 in *; cbn [fst snd] in *.
    + repeat split; intros; try lra; try (rewrite AB in *; lra); auto.
    + repeat split; intros; try lra; try (rewrite AB in *; lra); auto.
  - assert (Z : Rabs flux <= Reps) by (apply AB; lra).
    destruct (Rltb_spec rate (- Reps)) as [C|C]; [|destruct (Rltb_spec Reps rate) as [D|D]].
    + assert (NG : rate / wi < 0) by (unfold Rdiv; nra). destruct (K (rate / wi) rate) as [K1 K2]; [rewrite FN by exact NG; field; lra|]. cbv zeta in *.
      split; [exact K1|]. change (rate /~ wi) with (rate / wi). destruct K2 as [[K2 K3]|[K2 K3]]; rewrite K3 in *; cbn [fst snd] in *;
      repeat split; intros; try lra; auto.
    + assert (NG : 0 <= rate / wn) by (unfold Rdiv; nra). destruct (K (rate / wn) rate) as [K1 K2]; [rewrite FP by exact NG; field; lra|]. cbv zeta in *.
      split; [exact K1|]. change (rate /~ wn) with (rate / wn). destruct K2 as [[K2 K3]|[K2 K3]]; rewrite K3 in *; cbn [fst snd] in *;
      repeat split; intros; try lra; auto.
    + assert (Y : Rabs rate <= Reps) by (apply AB; lra). cbn [snd]. change (nabs rate <~ 100 * Reps) with (Rltb (Rabs rate) (100 * Reps)).
      rewrite Rltb_true by lra. cbn [fst snd]. change (@n0 R _) with 0. repeat split; intros; try lra; auto.
Qed.
Print Assumptions C173_one_flow.
Example C173_nonvacuous : sup_flow 28 32 2 0 = (2, 64) /\ sup_flow 28 32 0 (-56) = (-2, -56).
Proof.
  pose proof Reps_small as E1. pose proof Reps_pos as E0.
  assert (R2 : Rabs 2 = 2) by (apply Rabs_right; lra). assert (RZ : Rabs 0 = 0) by apply Rabs_R0. assert (RM : Rabs (-56) = 56) by (rewrite Rabs_left; lra).
  split.
  - destruct (C173_one_flow 28 32 2 0) as (A & _ & B & _); try lra. rewrite R2 in B.
    assert (F : fluid_of 28 32 2 = 32) by (unfold fluid_of; destruct (Rlt_dec 2 0); lra). rewrite F in B.
    assert (B' : fst (sup_flow 28 32 2 0) = 2) by (apply B; [lra|rewrite Rabs_right; lra]). rewrite B' in A. rewrite F in A.
    destruct (sup_flow 28 32 2 0) as [x y]; cbn [fst snd] in *. apply f_equal2; lra.
  - destruct (C173_one_flow 28 32 0 (-56)) as (A & _ & _ & B & _); try lra. rewrite RZ, RM in B. specialize (B ltac:(lra) ltac:(lra)).
    rewrite B in A. destruct (sup_flow 28 32 0 (-56)) as [x y]; cbn [fst snd] in *. unfold fluid_of in A. apply f_equal2; [destruct (Rlt_dec x 0); lra|lra].
Qed.

(** ** C174: the demand end of an external connection *)
(** The conductance is the supply's capacitance over the time step where that is known, otherwise
    no less than the configured minimum. *)
Theorem C174_conductance : forall dt sc (e : @dfilter R),
  (Reps < dt -> Reps < sc -> dem_cond dt sc e = sc / dt) /\
  (sc <= Reps \/ dt <= Reps -> e_ming e <= dem_cond dt sc e) /\
  (Reps < dt -> sc <= Reps -> e_ming e * dt <= e_cap e -> dem_cond dt sc e = e_cap e / dt) /\
  (dt <= Reps -> dem_cond dt sc e = e_ming e).
Proof.
  intros dt sc e. pose proof Reps_pos as E0. unfold dem_cond. change (neps <~ dt) with (Rltb Reps dt). change (neps <~ sc) with (Rltb Reps sc).
  repeat split.
  - intros A B. rewrite (Rltb_true _ _ A), (Rltb_true _ _ B). reflexivity.
  - intro H. rewrite nmaxR. destruct (Rltb_spec Reps dt) as [A|A]; [|lra]. rewrite (Rltb_false Reps sc) by lra. apply Rmax_r.
  - intros A B C. rewrite (Rltb_true _ _ A), (Rltb_false _ _ B). rewrite nmaxR. rnum. apply Rmax_left.
    apply (Rmult_le_reg_r dt); [lra|]. unfold Rdiv. rewrite Rmult_assoc, Rinv_l by lra. lra.
  - intro A. rewrite (Rltb_false _ _ A). reflexivity.
Qed.
Print Assumptions C174_conductance.
(** Coupled so to a supply node of that capacitance, one exchange brings the supply to the demand
    node's pressure: it never passes it. *)
Theorem C174_no_overshoot : forall dt c (e : @dfilter R) ps pd, Reps < dt -> Reps < c ->
  let a := dem_cond dt c e in
  ps - pot_flux a (fst (pot_vector ps a)) 0 pd * dt / c = pd.
Proof.
  intros dt c e ps pd D C. cbv zeta. destruct (C174_conductance dt c e) as (A & _). rewrite (A D C).
  destruct (C172_potential ps (c / dt) 0 pd) as [_ P]. rewrite P. pose proof Reps_pos. field. lra.
Qed.
Print Assumptions C174_no_overshoot.
Lemma snapR x : snap x = if Rlt_dec (Rabs x) Reps then 0 else x.
Proof.
  unfold snap. change (nabs x <~ neps) with (Rltb (Rabs x) Reps). destruct (Rltb_spec (Rabs x) Reps) as [A|A]; destruct (Rlt_dec (Rabs x) Reps); try lra; reflexivity.
Qed.
Lemma snap_id x : Reps <= Rabs x -> snap x = x.
Proof. intro H. rewrite snapR. destruct (Rlt_dec (Rabs x) Reps); [lra|reflexivity]. Qed.
Lemma filter_eq dt flux ps (e : @dfilter R) :
  dem_filter dt flux ps e =
  let dem := snap ((e_dem e + flux) / 2) in
  let dp := (ps - e_p e) / 2 in
  mkdf (e_ming e) (e_mindp e) (e_gain e) dem (snap ((e_p e + ps) / 2)) dp
    (if Rlt_dec (e_mindp e) (Rabs dp) then snap ((1 - e_gain e) * e_cap e + e_gain e * (- dem * dt / dp)) else e_cap e).
Proof.
  unfold dem_filter. cbv zeta. rewrite halfR. rnum.
  replace (1 / 2 * (e_dem e + flux)) with ((e_dem e + flux) / 2) by lra. replace (1 / 2 * (e_p e + ps)) with ((e_p e + ps) / 2) by lra.
  replace (- e_p e + (e_p e + ps) / 2) with ((ps - e_p e) / 2) by lra. f_equal.
  destruct (Rltb_spec (e_mindp e) (Rabs ((ps - e_p e) / 2))) as [A|A]; destruct (Rlt_dec (e_mindp e) (Rabs ((ps - e_p e) / 2))); try lra; reflexivity.
Qed.
(** The averages close half of the distance to the flux and to the supply pressure at each step. *)
Theorem C174_average : forall dt flux ps (e : @dfilter R),
  Reps <= Rabs ((e_dem e + flux) / 2) -> Reps <= Rabs ((e_p e + ps) / 2) ->
  let e' := dem_filter dt flux ps e in
  e_dem e' - flux = (e_dem e - flux) / 2 /\ e_p e' - ps = (e_p e - ps) / 2 /\ e_dp e' = e_p e' - e_p e.
Proof.
  intros dt flux ps e H1 H2. cbv zeta. rewrite filter_eq. cbv zeta. cbn [e_dem e_p e_dp].
  rewrite (snap_id _ H1), (snap_id _ H2). repeat split; lra.
Qed.
Print Assumptions C174_average.
(** The averaged change follows a supply pressure that falls steadily: half of the distance to its
    change is closed at each step. *)
Theorem C174_change : forall dt f1 f2 p1 s (e : @dfilter R), Reps <= Rabs ((e_p e + p1) / 2) ->
  let e1 := dem_filter dt f1 p1 e in
  let e2 := dem_filter dt f2 (p1 + s) e1 in
  e_dp e2 - s = (e_dp e1 - s) / 2.
Proof.
  intros dt f1 f2 p1 s e H. cbv zeta. rewrite !filter_eq. cbv zeta. cbn [e_dem e_p e_dp]. rewrite (snap_id _ H). lra.
Qed.
Print Assumptions C174_change.
(** Once the averages are there, the error of the estimated capacitance shrinks by the gain. *)
Theorem C174_estimate : forall dt q ps c (e : @dfilter R), dt <> 0 -> 0 < c -> q <> 0 -> e_dem e = q -> Reps <= Rabs q ->
  (ps - e_p e) / 2 = - q * dt / c -> e_mindp e < Rabs (q * dt / c) ->
  Reps <= Rabs (c + (1 - e_gain e) * (e_cap e - c)) ->
  e_cap (dem_filter dt q ps e) - c = (1 - e_gain e) * (e_cap e - c).
Proof.
  intros dt q ps c e DT C Q E QE DP MIN SN. rewrite filter_eq. cbv zeta. cbn [e_cap]. rewrite E. replace ((q + q) / 2) with q by lra.
  rewrite (snap_id q QE). rewrite DP. replace (- q * dt / c) with (- (q * dt / c)) by (field; lra). rewrite Rabs_Ropp.
  destruct (Rlt_dec (e_mindp e) (Rabs (q * dt / c))) as [_|B]; [|lra].
  assert (X : (1 - e_gain e) * e_cap e + e_gain e * (- q * dt / - (q * dt / c)) = c + (1 - e_gain e) * (e_cap e - c)).
  { field. repeat split; try lra. }
  rewrite X. rewrite (snap_id _ SN). ring.
Qed.
Print Assumptions C174_estimate.
Example C174_estimate_nonvacuous : exists e : @dfilter R, e_dem e = 1 /\ (96 - e_p e) / 2 = - (1) * 1 / (1 / 2) /\ e_mindp e < Rabs (1 * 1 / (1 / 2)) /\
  Reps <= Rabs (1 / 2 + (1 - e_gain e) * (e_cap e - 1 / 2)).
Proof.
  exists (mkdf 0 (1 / 100) 1 1 100 0 0). cbn [e_dem e_p e_mindp e_gain e_cap]. pose proof Reps_small. rewrite !Rabs_right; repeat split; lra.
Qed.

(** ** C175: flow integrators *)
(** The mass of one constituent that a frame carried: of the node it flowed from. *)
Definition carried_by (i : nat) (r : @frame R) : R :=
  nth i (if Rlt_dec 0 (r_flow r) then r_x0 r else r_x1 r) 0 * (r_flow r * r_dt r).
Lemma integrate_len (ms : list R) r : length (r_x0 r) = length ms -> length (r_x1 r) = length ms -> length (integrate ms r) = length ms.
Proof. intros A B. unfold integrate. rewrite map_length, combine_length. destruct (n0 <~ r_flow r); lia. Qed.
Lemma integrate_nth (ms : list R) r i : length (r_x0 r) = length ms -> length (r_x1 r) = length ms -> (i < length ms)%nat ->
  nth i (integrate ms r) 0 = nth i ms 0 + carried_by i r.
Proof.
  intros A B I. unfold integrate, carried_by. change (n0 <~ r_flow r) with (Rltb 0 (r_flow r)).
  assert (X : (if Rltb 0 (r_flow r) then r_x0 r else r_x1 r) = (if Rlt_dec 0 (r_flow r) then r_x0 r else r_x1 r)).
  { destruct (Rltb_spec 0 (r_flow r)) as [C|C]; destruct (Rlt_dec 0 (r_flow r)); try lra; reflexivity. }
  rewrite X. set (xs := if Rlt_dec 0 (r_flow r) then r_x0 r else r_x1 r). assert (L : length xs = length ms) by (unfold xs; destruct (Rlt_dec 0 (r_flow r)); assumption).
  clearbody xs. set (g := fun mx : R * R => fst mx +~ snd mx *~ r_flow r *~ r_dt r).
  rewrite (nth_indep _ 0 (g (0, 0))) by (rewrite map_length, combine_length; lia).
  rewrite map_nth. rewrite combine_nth by (symmetry; exact L). unfold g. cbn [fst snd]. rnum. ring.
Qed.
Theorem C175_integral : forall (rs : list (@frame R)) (ms : list R) i,
  (forall r, In r rs -> length (r_x0 r) = length ms /\ length (r_x1 r) = length ms) -> (i < length ms)%nat ->
  nth i (integrate_all ms rs) 0 = nth i ms 0 + total (map (carried_by i) rs) /\ length (integrate_all ms rs) = length ms.
Proof.
  induction rs as [|r rs IH]; intros ms i H I; cbn [integrate_all map].
  - change (total []) with 0. split; [ring|reflexivity].
  - destruct (H r) as [A B]; [left; reflexivity|]. pose proof (integrate_len ms r A B) as L.
    destruct (IH (integrate ms r) i) as [P Q]; [|lia|].
    + intros r' H'. destruct (H r') as [A' B']; [right; exact H'|]. lia.
    + rewrite P, (integrate_nth ms r i A B I). change (total (carried_by i r :: map (carried_by i) rs)) with (carried_by i r + total (map (carried_by i) rs)).
      split; [ring|lia].
Qed.
Print Assumptions C175_integral.
(** Together they are the mass that flowed, if the fractions are of a whole. *)
Lemma integrate_total (ms : list R) r : length (r_x0 r) = length ms -> length (r_x1 r) = length ms -> total (r_x0 r) = 1 -> total (r_x1 r) = 1 ->
  total (integrate ms r) = total ms + r_flow r * r_dt r.
Proof.
  intros A B C D. unfold integrate. set (xs := if n0 <~ r_flow r then r_x0 r else r_x1 r).
  assert (L : length xs = length ms) by (unfold xs; destruct (n0 <~ r_flow r); assumption).
  assert (O1 : total xs = 1) by (unfold xs; destruct (n0 <~ r_flow r); assumption). clearbody xs.
  assert (G : forall (l xs : list R), length xs = length l -> total (map (fun mx : R * R => fst mx +~ snd mx *~ r_flow r *~ r_dt r) (combine l xs)) = total l + total xs * (r_flow r * r_dt r)).
  { clear. induction l as [|m l IH]; intros [|x xs] L; cbn [length] in L; try discriminate; cbn [combine map].
    - change (total []) with 0. ring.
    - change (total (m :: l)) with (m + total l). change (total (x :: xs)) with (x + total xs). cbn [fst snd].
      match goal with |- total (?h :: ?t) = _ => change (total (h :: t)) with (h + total t) end. rewrite IH by lia. rnum. ring. }
  rewrite G by exact L. rewrite O1. ring.
Qed.
Theorem C175_total : forall (rs : list (@frame R)) (ms : list R),
  (forall r, In r rs -> length (r_x0 r) = length ms /\ length (r_x1 r) = length ms /\ total (r_x0 r) = 1 /\ total (r_x1 r) = 1) ->
  total (integrate_all ms rs) = total ms + total (map (fun r => r_flow r * r_dt r) rs).
Proof.
  induction rs as [|r rs IH]; intros ms H; cbn [integrate_all map].
  - change (total []) with 0. ring.
  - destruct (H r) as (A & B & C & D); [left; reflexivity|]. pose proof (integrate_len ms r A B) as L. rewrite IH.
    + rewrite (integrate_total ms r A B C D).
      match goal with |- _ = _ + total (?h :: ?t) => change (total (h :: t)) with (h + total t) end. ring.
    + intros r' H'. destruct (H r') as (A' & B' & C' & D'); [right; exact H'|]. rewrite L. auto.
Qed.
Print Assumptions C175_total.
Example C175_nonvacuous : integrate_all [0; 0] [mkframe [1; 0] [0; 1] 2 1; mkframe [1; 0] [0; 1] (-1) 1] = [2; -1].
Proof.
  unfold integrate_all, integrate. cbn [r_flow r_x0 r_x1 r_dt]. change (n0 <~ 2) with (Rltb 0 2). change (n0 <~ -1) with (Rltb 0 (-1)).
  rewrite (Rltb_true 0 2) by lra. rewrite (Rltb_false 0 (-1)) by lra. cbn [combine map fst snd]. rnum. f_equal; [lra|f_equal; lra].
Qed.

(** ** C176: island analyzers *)
(** The extreme of an island and the last of its nodes to have it. *)
Definition best (ge : R -> R -> Prop) (v : Z -> R) (l : list Z) (x : R) (node : Z) : Prop :=
  v node = x /\ (forall i, In i l -> ge x (v i)) /\ exists l1 l2, l = l1 ++ node :: l2 /\ forall i, In i l2 -> ~ ge (v i) x.
Lemma extreme_best (geb : R -> R -> bool) (ge : R -> R -> Prop) start v :
  (forall x y, geb x y = true <-> ge x y) -> (forall x y z, ge x y -> ge y z -> ge x z) -> (forall x y, ge x y \/ ge y x) ->
  forall l, l <> [] -> (forall i, In i l -> ge (v i) start) ->
  best ge v l (fst (extreme geb start v l)) (snd (extreme geb start v l)).
Proof.
  intros GB TR TT l. induction l as [|i l IH] using rev_ind; [congruence|]. intros _ ST.
  assert (RF : forall x, ge x x) by (intro x; destruct (TT x x); assumption).
  unfold extreme in *. rewrite fold_left_app. cbn [fold_left].
  destruct l as [|j l].
  - cbn [fold_left fst snd]. assert (G : geb (v i) start = true) by (apply GB, ST; left; reflexivity). rewrite G. cbn [fst snd].
    split; [reflexivity|]. split; [intros k [<-|[]]; apply RF|]. exists [], []. split; [reflexivity|intros k []].
  - assert (IH' := IH ltac:(congruence) ltac:(intros k K; apply ST, in_or_app; left; exact K)). clear IH.
    set (s := fold_left _ (j :: l) _) in *. clearbody s. set (L := j :: l) in *. clearbody L. destruct IH' as (B1 & B2 & l1 & l2 & B3 & B4).
    destruct (geb (v i) (fst s)) eqn:G; cbn [fst snd].
    + apply GB in G. split; [reflexivity|]. split.
      * intros k K. apply in_app_or in K. destruct K as [K|[<-|[]]]; [eapply TR; [exact G|apply B2; exact K]|apply RF].
      * exists L, []. split; [reflexivity|intros k []].
    + assert (NG : ~ ge (v i) (fst s)) by (intro H; apply GB in H; congruence).
      split; [exact B1|]. split.
      * intros k K. apply in_app_or in K. destruct K as [K|[<-|[]]]; [apply B2; exact K|]. destruct (TT (fst s) (v i)); [assumption|contradiction].
      * exists l1, (l2 ++ [i]). split; [rewrite B3; rewrite <- app_assoc; reflexivity|].
        intros k K. apply in_app_or in K. destruct K as [K|[<-|[]]]; [apply B4; exact K|exact NG].
Qed.
Lemma farR : (far : R) = 10 ^ 15. Proof. unfold far. rnum. unfold Rdec. cbn. lra. Qed.
Theorem C176_extremes : forall (v : Z -> R) l, l <> [] -> (forall i, In i l -> - 10 ^ 15 <= v i <= 10 ^ 15) ->
  best Rge v l (fst (highest v l)) (snd (highest v l)) /\ best Rle v l (fst (lowest v l)) (snd (lowest v l)).
Proof.
  intros v l N B. split.
  - unfold highest. apply (extreme_best _ Rge); try exact N.
    + intros x y. change (y <=~ x) with (Rleb y x). destruct (Rleb_spec y x) as [A|A]; split; intro H; try lra; try reflexivity; discriminate.
    + intros; lra.
    + intros; lra.
    + intros i I. rewrite farR. change (nopp (10 ^ 15)) with (- 10 ^ 15). destruct (B i I). lra.
  - unfold lowest. apply (extreme_best _ Rle); try exact N.
    + intros x y. change (x <=~ y) with (Rleb x y). destruct (Rleb_spec x y) as [A|A]; split; intro H; try lra; try reflexivity; discriminate.
    + intros; lra.
    + intros; lra.
    + intros i I. rewrite farR. destruct (B i I). lra.
Qed.
Print Assumptions C176_extremes.
Example C176_nonvacuous : let v := fun i : Z => IZR (i * (4 - i)) in highest v [1; 2; 3]%Z = (4, 2%Z) /\ lowest v [1; 2; 3]%Z = (3, 3%Z).
Proof.
  cbv zeta. unfold highest, lowest, extreme. rewrite farR. assert (B : 4 < 10 ^ 15) by (simpl; lra). set (big := 10 ^ 15) in *. clearbody big.
  cbn [fold_left]. change (IZR (1 * (4 - 1))) with 3. change (IZR (2 * (4 - 2))) with 4. change (IZR (3 * (4 - 3))) with 3. rnum.
  assert (LT : forall x y, x <= y -> Rleb x y = true) by (intros x y H; destruct (Rleb_spec x y); [reflexivity|lra]).
  assert (LF : forall x y, y < x -> Rleb x y = false) by (intros x y H; destruct (Rleb_spec x y); [lra|reflexivity]).
  cbn [fst]. rewrite (LT (- big) 3), (LT 3 big) by lra. cbn [fst]. rewrite (LT 3 4), (LF 4 3) by lra. cbn [fst]. rewrite (LF 4 3), (LT 3 3) by lra. split; reflexivity.
Qed.
(** Beyond the starting values no node is found. *)
Theorem C176_extremes_refuted : exists (v : Z -> R) l, l <> [] /\ snd (highest v l) = (-1)%Z.
Proof.
  exists (fun _ => - (2 * 10 ^ 15)), [0%Z]. split; [discriminate|]. unfold highest, extreme. rewrite farR. cbn [fold_left fst snd].
  change (nopp (10 ^ 15) <=~ - (2 * 10 ^ 15)) with (Rleb (- 10 ^ 15) (- (2 * 10 ^ 15))).
  destruct (Rleb_spec (- 10 ^ 15) (- (2 * 10 ^ 15))) as [A|A]; [exfalso; assert (0 < 10 ^ 15) by (apply pow_lt; lra); lra|reflexivity].
Qed.
Print Assumptions C176_extremes_refuted.
Lemma island_sum_eq (v : Z -> R) l : island_sum v l = total (map v l).
Proof.
  unfold island_sum. assert (G : forall l a, fold_left (fun s i => s +~ v i) l a = a + total (map v l)).
  { clear. induction l as [|i l IH]; intro a; cbn [fold_left map]; [change (total []) with 0; ring|].
    rewrite IH. change (total (v i :: map v l)) with (v i + total (map v l)). rnum. ring. }
  rewrite G. change (@n0 R _) with 0. ring.
Qed.
(** The report is of the attached node's island and no other, and of none when it is attached to
    none, to Ground or beyond. *)
Theorem C176_report : forall islands num attached (v w : Z -> R),
  let r := island_report v w (looked_at islands num attached) in
  ((0 <= attached < num - 1)%Z -> forall l, islands attached = Some l ->
     a_size r = length l /\ (forall i, a_nodes r i = true <-> In i l) /\ a_sum r = total (map w l) /\
     (l <> [] -> (forall i, In i l -> - 10 ^ 15 <= v i <= 10 ^ 15) ->
      best Rge v l (fst (a_hi r)) (snd (a_hi r)) /\ best Rle v l (fst (a_lo r)) (snd (a_lo r)))) /\
  ((attached < 0)%Z \/ (num - 1 <= attached)%Z \/ islands attached = None ->
     a_size r = O /\ (forall i, a_nodes r i = false) /\ a_sum r = 0 /\ a_hi r = (0, (-1)%Z) /\ a_lo r = (0, (-1)%Z)).
Proof.
  intros islands num attached v w. cbv zeta. unfold looked_at. split.
  - intros A l E. replace ((-1 <? attached)%Z && (attached <? num - 1)%Z) with true.
    2:{ symmetry. apply andb_true_intro. split; apply Z.ltb_lt; lia. }
    rewrite E. cbn [island_report a_size a_nodes a_sum a_hi a_lo]. split; [reflexivity|]. split.
    + intro i. unfold in_island. rewrite existsb_exists. split; [intros (x & X & Y); apply Z.eqb_eq in Y; subst; exact X|intro H; exists i; split; [exact H|apply Z.eqb_refl]].
    + split; [apply island_sum_eq|]. apply C176_extremes.
  - intro H. assert (Q : (if ((-1 <? attached)%Z && (attached <? num - 1)%Z) then islands attached else None) = None).
    { destruct ((-1 <? attached)%Z && (attached <? num - 1)%Z) eqn:E; [|reflexivity]. apply andb_prop in E. destruct E as [E1 E2]. apply Z.ltb_lt in E1, E2.
      destruct H as [H|[H|H]]; [lia|lia|exact H]. }
    rewrite Q. cbn [island_report a_size a_nodes a_sum a_hi a_lo]. repeat split.
Qed.
Print Assumptions C176_report.
(** The masses of the constituents are together the mass of the island. *)
Theorem C176_constituents : forall (mass : Z -> R) (frac : nat -> Z -> R) n l,
  (forall i, In i l -> total (map (fun c => frac c i) (seq 0 n)) = 1) ->
  total (map (fun c => island_sum (fun i => mass i * frac c i) l) (seq 0 n)) = island_sum mass l.
Proof.
  intros mass frac n l H. rewrite island_sum_eq. induction l as [|i l IH].
  - change (total (map mass [])) with 0.
    assert (G : forall k, total (map (fun c => island_sum (fun i : Z => mass i * frac c i) []) k) = 0).
    { induction k as [|c k IHk]; cbn [map]; [reflexivity|].
      match goal with |- total (?h :: ?t) = _ => change (total (h :: t)) with (h + total t) end. rewrite IHk. unfold island_sum. cbn [fold_left]. change (@n0 R _) with 0. ring. }
    apply G.
  - cbn [map]. change (total (mass i :: map mass l)) with (mass i + total (map mass l)). rewrite <- IH by (intros j J; apply H; right; exact J).
    specialize (H i (or_introl eq_refl)). rewrite <- (Rmult_1_r (mass i)) at 1. rewrite <- H.
    set (ks := seq 0 n). clearbody ks. clear. induction ks as [|c ks IH]; cbn [map]; [change (total []) with 0; ring|].
    repeat match goal with |- context [total (?h :: ?t)] => change (total (h :: t)) with (h + total t) end.
    rewrite IH. rewrite !island_sum_eq. cbn [map]. repeat match goal with |- context [total (?h :: ?t)] => change (total (h :: t)) with (h + total t) end. ring.
Qed.
Print Assumptions C176_constituents.
