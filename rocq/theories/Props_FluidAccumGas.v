(** C202: the gas chamber of an accumulator. *)
From Coq Require Import Floats.
From Coq Require Import Reals Lra Lia List Arith Bool ZArith.
From Verif Require Import Num Ord MathUtil Props_Math Spec_Valve Props_Valve Props_Thermal FluidFlow Props_FluidFlow FluidSorb Props_FluidSorb Props_FluidSource Props_FluidBed Props_FluidMix Props_FluidTank FluidAccum Props_FluidAccum Props_FluidAccumEdit.
Import ListNotations.
Local Open Scope R_scope.

(** ** C202: edits of the gas, alone and together with the bellows *)
(** One edit at a time: reactive, the rest goes on as usual; not reactive, the rest is held. *)
Theorem C202_alone : forall pset bset react both,
  gas_plan false pset bset false false react both = (false, false, GUpdate) /\
  gas_plan false pset bset true false react false = (negb react, false, GEdit react) /\
  gas_plan false pset bset false true react false = (false, false, if react then GUpdate else GHold).
Proof. intros pset bset [] []; repeat split; reflexivity. Qed.
Print Assumptions C202_alone.
(** Two edits together: from when both run until both have ended, the one that ends first is held -
    the bellows by an override, the pressure by force - and the temperature too, reactive or not. *)
Definition plan_step (react : bool) (both : bool) (s : bool * bool) : bool := snd (fst (gas_plan false false false (fst s) (snd s) react both)).
Theorem C202_together : forall react s0 ss both0 p b, s0 = (true, true) -> Forall (fun s => fst s || snd s = true) ss -> p || b = true ->
  gas_plan false false false p b react (fold_left (plan_step react) (s0 :: ss) both0) = (p && negb b, true, if p then GEdit false else GHold).
Proof.
  intros react s0 ss both0 p b -> F H. assert (K : fold_left (plan_step react) ((true, true) :: ss) both0 = true).
  { cbn [fold_left]. replace (plan_step react both0 (true, true)) with true by reflexivity. clear H. induction ss as [|s ss IH]; [reflexivity|].
    cbn [fold_left]. pose proof (Forall_inv F) as F0. pose proof (Forall_inv_tail F) as F1. destruct s as [x y]. cbn [fst snd] in F0.
    replace (plan_step react true (x, y)) with true; [apply IH; exact F1|]. destruct x, y, react; try discriminate; reflexivity. }
  rewrite K. destruct p, b, react; try discriminate; reflexivity.
Qed.
Print Assumptions C202_together.
(** A rupture overrides the bellows, and forces the pressure until both have been reached. *)
Theorem C202_rupture : forall pset bset p b react both,
  fst (fst (gas_plan true pset bset p b react both)) = true /\
  (snd (gas_plan true pset bset p b react both) = GUpdate <-> pset = true /\ bset = true) /\
  (snd (gas_plan true pset bset p b react both) = GRupture <-> pset = false \/ bset = false).
Proof. intros [] [] p b react both; cbn; repeat split; intros; try discriminate; try tauto; destruct H; discriminate. Qed.
Print Assumptions C202_rupture.
(** The bellows of a rupture: the override of the next step takes them to their position. *)
Theorem C202_bellows : forall tiny c f dt r ra bo b pos rate, 0 <= tiny -> usable tiny c -> 0 <= dt -> 0 <= x_pos (b_x b) <= 1 -> b_tedit b = false ->
  let b' := liquid_step c (acc_geo c) f dt r ra bo (Rupture pos rate) b in
  b_edit b' = false /\ b_timer b' = 0 /\ b_stuck b' = false /\
  (x_pos (b_x b') = goal_of pos -> b_set b' = true) /\ (b_set b' = true -> b_set b = true \/ x_pos (b_x b') = goal_of pos) /\
  (Rabs (goal_of pos - x_pos (b_x b)) <= rate_of c rate * dt -> x_pos (b_x b') = goal_of pos) /\
  (rate_of c rate * dt < Rabs (goal_of pos - x_pos (b_x b)) -> Rabs (goal_of pos - x_pos (b_x b')) = Rabs (goal_of pos - x_pos (b_x b)) - rate_of c rate * dt).
Proof.
  intros tiny c f dt r ra bo b pos rate Z U D P TE b'. pose proof (shape tiny c Z U) as S. destruct U as (_ & _ & _ & _ & _ & U1 & _).
  unfold b', liquid_step. rewrite TE. cbn [no_edits b_epos b_erate b_tval b_stick b_to b_tpos b_trate b_set].
  pose proof (force_pos c (acc_geo c) f dt r pos rate true (b_x b) D ltac:(lra) S P) as Q.
  destruct (force_liq c (acc_geo c) f dt r pos rate true (b_x b)) as [[[y g'] r'] done]. cbv zeta in Q. destruct Q as (_ & _ & Q3 & Q4 & Q5 & _).
  cbn [b_edit b_timer b_stuck b_set b_x]. split; [reflexivity|]. split; [reflexivity|]. split; [reflexivity|]. split; [intro Y; apply Q3 in Y; rewrite Y; apply orb_true_r|].
  split; [|split; [exact Q4|exact Q5]]. intro Y. apply orb_true_iff in Y. destruct Y as [Y|Y]; [left; exact Y|right; apply Q3; exact Y].
Qed.
Print Assumptions C202_bellows.
(** Bellows told to stay do, and the mass is what fills their volume. *)
Theorem C202_stay : forall tiny c f dt r ra bo b, 0 <= tiny -> usable tiny c -> 0 <= dt -> sound (acc_geo c) (b_x b) -> b_tedit b = false ->
  let b' := liquid_step c (acc_geo c) f dt r ra bo Stay b in
  x_pos (b_x b') = x_pos (b_x b) /\ x_liq (b_x b') = x_liq (b_x b) /\ x_temp (b_x b') = x_temp (b_x b) /\ b_edit b' = b_edit b /\ b_set b' = true /\
  x_mass (b_x b') = Rmax (x_liq (b_x b) * f_rho f (x_temp (b_x b))) Reps.
Proof.
  intros tiny c f dt r ra bo b Z U D X TE b'. pose proof (shape tiny c Z U) as S. destruct U as (_ & _ & _ & _ & _ & U1 & _). destruct X as (P & L & _).
  unfold b', liquid_step. rewrite TE. cbn [b_edit b_epos b_erate b_timer b_tval b_stick b_to b_tpos b_trate b_set].
  change (@n0 R RNum) with 0. change (@n1 R RNum) with 1. rewrite (limit_id 0 (x_pos (b_x b)) 1) by exact P.
  set (x := mkch (x_pos (b_x b)) (x_liq (b_x b)) (x_gas (b_x b)) (x_mass (b_x b)) (x_temp (b_x b))).
  pose proof (force_pos c (acc_geo c) f dt r (x_pos (b_x b)) 0 false x D ltac:(lra) S P) as Q.
  destruct (force_liq c (acc_geo c) f dt r (x_pos (b_x b)) 0 false x) as [[[y g'] r'] done]. cbv zeta in Q. cbn [x x_pos x_temp] in Q. destruct Q as (_ & _ & Q3 & Q4 & _ & _ & Q7 & Q8 & Q9).
  assert (G : goal_of (x_pos (b_x b)) = x_pos (b_x b)) by (unfold goal_of; rewrite Rmin_left, Rmax_right; lra). rewrite G in *.
  assert (Y : x_pos y = x_pos (b_x b)). { apply Q4. replace (x_pos (b_x b) - x_pos (b_x b)) with 0 by lra. rewrite Rabs_R0. apply Rmult_le_pos; [unfold rate_of; apply Rmax_l|exact D]. }
  cbn [b_x b_edit b_set]. rewrite Y in *. assert (LL : x_liq y = x_liq (b_x b)) by (rewrite Q8, L; reflexivity). rewrite LL in *.
  repeat split; try assumption; try reflexivity; try (apply Q9; reflexivity). rewrite (proj2 Q3 eq_refl). apply orb_true_r.
Qed.
Print Assumptions C202_stay.

(** Forced gas with still bellows: the pressure of the liquid in the next step. *)
Record gstate := mkgs { s_p : R; s_y : gasch R; s_goal : R; s_rate : R; s_done : bool }.
Definition gstep (c : acfg R) (f : afluid R) (rho : R -> R -> R) (maxrate dt : R) (r : around R) (vol pos head : R) (u : bool) (s : gstate) : gstate :=
  let '(y, goal, rate, done) := force_gas c f rho maxrate dt r (s_p s) (spring c pos) vol (s_goal s) (s_rate s) u (s_y s) in
  mkgs (liq_press c pos head (y_press y)) y goal rate done.
Lemma gstep_p c f rho maxrate dt r vol pos head u s : 0 <= dt -> Reps <= a_pmax c -> 0 <= maxrate ->
  Reps <= s_goal s <= a_pmax c -> 0 <= s_rate s <= maxrate -> let d := s_rate s * dt in let s' := gstep c f rho maxrate dt r vol pos head u s in
  s_goal s' = s_goal s /\ s_rate s' = s_rate s /\
  exists v, s_p s' = Rmax Reps (Rmin (v + head) (a_pmax c)) /\ y_press (s_y s') = v - spring c pos /\ (s_done s' = true <-> v = s_goal s) /\
    (Rabs (s_goal s - s_p s) <= d -> v = s_goal s) /\ (d < Rabs (s_goal s - s_p s) -> Rabs (v - s_p s) = d /\ Rabs (s_goal s - v) = Rabs (s_goal s - s_p s) - d) /\
    Rmin (s_p s) (s_goal s) <= v <= Rmax (s_p s) (s_goal s).
Proof.
  intros D M MR G Q d s'. pose proof (C198_ramp dt (s_p s) (s_goal s) (s_rate s) Reps (a_pmax c) maxrate D M MR) as K. cbv zeta in K.
  rewrite (Rmin_left (s_goal s)), (Rmax_right Reps (s_goal s)) in K by lra. rewrite (Rmin_left (s_rate s)), (Rmax_right 0) in K by lra.
  unfold s', gstep, force_gas. change (@n0 R RNum) with 0. change (@neps R RNum) with Reps.
  destruct (ramp dt (s_p s) (s_goal s) (s_rate s) Reps (a_pmax c) 0 maxrate) as [[[v g'] r'] done]. destruct K as (K1 & K2 & K3 & K4 & K5 & K6).
  cbn [s_goal s_rate s_p s_y s_done y_press]. split; [exact K1|]. split; [exact K2|]. exists v. split; [|split; [reflexivity|split; [exact K3|split; [exact K4|split; [exact K5|exact K6]]]]].
  unfold liq_press. rewrite limit_within by exact M. unfold within. change (@neps R RNum) with Reps. f_equal. f_equal. rnum. ring.
Qed.
(** Without a head, the pressure of the liquid goes to the target at the rate and gets there. *)
Theorem C202_arrives : forall n c f rho maxrate dt r vol pos u s, 0 <= dt -> Reps <= a_pmax c -> 0 <= maxrate ->
  Reps <= s_goal s <= a_pmax c -> 0 <= s_rate s <= maxrate -> Reps <= s_p s <= a_pmax c ->
  Rabs (s_goal s - s_p s) <= INR n * (s_rate s * dt) -> (1 <= n)%nat ->
  let s' := Nat.iter n (gstep c f rho maxrate dt r vol pos 0 u) s in s_p s' = s_goal s /\ s_done s' = true.
Proof.
  intro n. induction n as [|n IH]; intros c f rho maxrate dt r vol pos u s D M MR G Q P H L; [lia|]. cbv zeta. rewrite iter_r.
  destruct (gstep_p c f rho maxrate dt r vol pos 0 u s D M MR G Q) as (A1 & A2 & v & B1 & B2 & B3 & B4 & B5 & B6). cbv zeta in *.
  set (s1 := gstep c f rho maxrate dt r vol pos 0 u s) in *.
  assert (V : Reps <= v <= a_pmax c). { revert B6. unfold Rmin, Rmax. repeat match goal with |- context [Rle_dec ?a ?b] => destruct (Rle_dec a b) end; lra. }
  rewrite Rplus_0_r, (Rmin_left v), (Rmax_right Reps) in B1 by lra.
  destruct n as [|n].
  - cbn [Nat.iter nat_rect INR] in *. rewrite Rmult_1_l in H. rewrite B1. split; [apply B4; exact H|]. apply B3. apply B4. exact H.
  - rewrite <- A1. apply IH; try assumption; try lia; try (rewrite ?A1, ?A2, ?B1; assumption).
    rewrite A1, A2, B1. rewrite (S_INR (S n)) in H. assert (DD : 0 <= s_rate s * dt) by (apply Rmult_le_pos; lra).
    destruct (Rle_dec (Rabs (s_goal s - s_p s)) (s_rate s * dt)) as [Y|Y].
    + rewrite (B4 Y). replace (s_goal s - s_goal s) with 0 by lra. rewrite Rabs_R0. apply Rmult_le_pos; [apply pos_INR|exact DD].
    + destruct (B5 ltac:(lra)) as (_ & B7). rewrite B7. lra.
Qed.
Print Assumptions C202_arrives.
(** False: with an acceleration the forced pressure goes to its target.  The head is added again in
    every step, and one above what the rate takes back in a step drives the pressure away, up to the
    greatest. *)
Theorem C202_head_refuted : exists c maxrate dt pos head goal p0, usable 0 c /\ 0 < dt /\ 0 < maxrate /\ 0 < head /\ Reps < goal < p0 /\
  forall f rho r vol u y n,
  s_p (Nat.iter n (gstep c f rho maxrate dt r vol pos head u) (mkgs p0 y goal maxrate false)) = Rmin (a_pmax c) (p0 + INR n).
Proof.
  pose proof Reps_pos as E0. pose proof Reps_small as E1. exists ex_c, 10, (1/10), (1/2), 2, 100, 200. split; [exact ex_usable|]. repeat split; try lra.
  intros f rho r vol u y n. assert (PM : a_pmax ex_c = 1000) by reflexivity. rewrite PM.
  assert (K : let s := Nat.iter n (gstep ex_c f rho 10 (1/10) r vol (1/2) 2 u) (mkgs 200 y 100 10 false) in s_p s = Rmin 1000 (200 + INR n) /\ s_goal s = 100 /\ s_rate s = 10); [|apply K].
  cbv zeta. induction n as [|n (I1 & I2 & I3)].
  - cbn [Nat.iter nat_rect s_p s_goal s_rate INR]. rewrite Rmin_right by lra. repeat split; lra.
  - change (Nat.iter (S n) (gstep ex_c f rho 10 (1/10) r vol (1/2) 2 u) (mkgs 200 y 100 10 false)) with (gstep ex_c f rho 10 (1/10) r vol (1/2) 2 u (Nat.iter n (gstep ex_c f rho 10 (1/10) r vol (1/2) 2 u) (mkgs 200 y 100 10 false))).
    set (s := Nat.iter n _ _) in *. clearbody s.
    destruct (gstep_p ex_c f rho 10 (1/10) r vol (1/2) 2 u s ltac:(lra) ltac:(rewrite PM; lra) ltac:(lra) ltac:(rewrite PM, I2; lra) ltac:(rewrite I3; lra)) as (A1 & A2 & v & B1 & _ & _ & _ & B5 & B6).
    rewrite I2, I3 in *. cbv zeta in B5. pose proof (pos_INR n) as NN.
    assert (PS : 200 <= s_p s <= 1000) by (rewrite I1; split; [apply Rmin_glb; lra|apply Rmin_l]).
    rewrite Rmin_right, Rmax_left in B6 by lra. rewrite (Rabs_left (100 - s_p s)) in B5 by lra. destruct (B5 ltac:(lra)) as (B7 & _).
    assert (V : v = s_p s - 1) by (unfold Rabs in B7; destruct (Rcase_abs (v - s_p s)); lra). rewrite PM in B1.
    split; [|split; [exact A1|exact A2]]. rewrite B1, V, I1, S_INR. destruct (Rle_dec 1000 (200 + INR n)) as [Y|Y].
    + rewrite (Rmin_left 1000 (200 + INR n)), Rmin_right, Rmax_right, Rmin_left by lra. reflexivity.
    + rewrite (Rmin_right 1000 (200 + INR n)), (Rmin_comm 1000) by lra. replace (200 + INR n - 1 + 2) with (200 + (INR n + 1)) by lra. apply Rmax_right. apply Rmin_glb; lra.
Qed.
Print Assumptions C202_head_refuted.
(** False: the forced gas has a pressure above zero. *)
Theorem C202_negative_refuted : exists c f rho maxrate dt r p sp vol goal rate y, usable 0 c /\ 0 < maxrate /\ Reps <= goal <= a_pmax c /\ Reps <= p <= a_pmax c /\ sp = spring c (1/2) /\
  y_press (fst (fst (fst (force_gas c f rho maxrate dt r p sp vol goal rate false y)))) < 0.
Proof.
  pose proof Reps_pos as E0. pose proof Reps_small as E1.
  exists ex_c, ex_f, (fun _ p => p), 10, 1, (mkar 0 0 0 false false), 1, (spring ex_c (1/2)), 1, 1, 10, (mkgas 1 300 1). split; [exact ex_usable|]. cbn [a_pmax ex_c]. repeat split; try lra.
  unfold force_gas. rewrite ramp_val. cbv zeta. cbn [fst y_press]. change (@n0 R RNum) with 0. change (@neps R RNum) with Reps. rewrite (limit_id Reps 1 (a_pmax ex_c)) by (cbn; lra).
  assert (L : ((1:R) <~ 1) = false) by (apply ltF; lra). rewrite L. unfold spring. cbn [a_c0 a_c1 a_c2 ex_c]. rnum. lra.
Qed.
Print Assumptions C202_negative_refuted.
(** The gas with no edit: no error, the mass follows the flow, and the pressure is the law's at its
    density, within the limits. *)
Theorem C202_update : forall c f pr dt r vol y, r_hold r = false -> 0 <= dt -> Reps <= y_mass y -> 0 < vol -> Reps <= a_pmax c ->
  exists y', update_gas c f pr dt r vol y = Some y' /\ Reps <= y_press y' <= a_pmax c /\ Reps <= y_mass y' /\
  (100 * Reps < Rabs (r_flow r) -> y_mass y' = Rmax (y_mass y + r_flow r * dt) Reps /\ y_press y' = Rmax Reps (Rmin (pr (y_temp y') (y_mass y' / vol)) (a_pmax c))) /\
  (Rabs (r_flow r) <= Reps -> y_mass y' = y_mass y).
Proof.
  intros c f pr dt r vol y H D M V P. pose proof Reps_pos as E0. unfold update_gas. rewrite H. cbv zeta. change (dt *~ r_flow r +~ y_mass y) with (dt * r_flow r + y_mass y). change (@neps R RNum) with Reps.
  assert (L : (n0 <~ vol) = true) by (apply ltT; exact V). rewrite L.
  assert (MS : mass_step dt (r_flow r) (y_mass y) = Rmax (if Rlt_dec (100 * Reps) (Rabs (r_flow r)) then y_mass y + r_flow r * dt else y_mass y) Reps).
  { unfold mass_step. rewrite nmaxR, sorb_limitR. change (nabs (r_flow r)) with (Rabs (r_flow r)). change (@neps R RNum) with Reps.
    destruct (100 * Reps <~ Rabs (r_flow r)) eqn:E; [apply ltT in E|apply ltF in E]; destruct (Rlt_dec (100 * Reps) (Rabs (r_flow r))); try lra; reflexivity. }
  rewrite MS. set (t := chamber_temp c f dt r (y_mass y) (y_temp y)). clearbody t.
  destruct (Reps <~ r_flow r) eqn:F; [apply ltT in F|apply ltF in F].
  - assert (PP : 0 <= r_flow r * dt) by (apply Rmult_le_pos; lra). assert (MX : (dt * r_flow r + y_mass y <~ Reps) = false) by (apply ltF; lra). rewrite MX. cbn [andb].
    eexists. split; [reflexivity|]. cbn [y_press y_mass y_temp]. split; [apply limit_in; exact P|]. split; [lra|]. split; intro Y.
    + destruct (Rlt_dec (100 * Reps) (Rabs (r_flow r))); [|lra]. rewrite limit_within by exact P. rewrite Rmax_left by lra. replace (dt * r_flow r + y_mass y) with (y_mass y + r_flow r * dt) by ring. split; reflexivity.
    + rewrite Rabs_right in Y by lra. lra.
  - cbn [andb]. eexists. split; [reflexivity|]. cbn [y_press y_mass y_temp]. split; [apply limit_in; exact P|]. split; [apply Rmax_r|]. split; intro Y.
    + destruct (Rlt_dec (100 * Reps) (Rabs (r_flow r))); [|lra]. rewrite limit_within by exact P. split; reflexivity.
    + destruct (Rlt_dec (100 * Reps) (Rabs (r_flow r))); [lra|]. apply Rmax_left. lra.
Qed.
Print Assumptions C202_update.
(** False: the gas gains no more than its node gives.  A flow between the two thresholds is added to
    the gas and not taken from the node. *)
Theorem C202_trickle_refuted : exists c f pr dt r vol y y', usable 0 c /\ r_hold r = false /\ Reps <= y_mass y /\ update_gas c f pr dt r vol y = Some y' /\
  acc_move (r_flow r) = (0, 0) /\ y_mass y < y_mass y'.
Proof.
  pose proof Reps_pos as E0. pose proof Reps_small as E1.
  exists ex_c, ex_f, (fun _ d => d), 1, (mkar (50 * Reps) 0 0 false false), 1, (mkgas 1 300 100).
  eexists. split; [exact ex_usable|]. split; [reflexivity|]. split; [cbn; lra|]. split.
  { unfold update_gas. cbn [r_hold r_flow y_mass]. change (@neps R RNum) with Reps. assert (L1 : (Reps <~ 50 * Reps) = true) by (apply ltT; lra). rewrite L1.
    assert (L2 : (1 *~ (50 * Reps) +~ 1 <~ Reps) = false) by (apply ltF; change (1 *~ (50 * Reps) +~ 1) with (1 * (50 * Reps) + 1); lra). rewrite L2. cbn [andb]. reflexivity. }
  cbn [r_flow y_mass]. split; [rewrite moveR, Rabs_right by lra; destruct (Rlt_dec (100 * Reps) (50 * Reps)); [lra|reflexivity]|].
  change (1 *~ (50 * Reps) +~ 1) with (1 * (50 * Reps) + 1). lra.
Qed.
Print Assumptions C202_trickle_refuted.
(** The capacitance of the liquid port: the moles of liquid in the volume the gas gives up, or the
    spring's when that is less. *)
Theorem C202_capacitance : forall c cap sc rhog wg rhol wl, 0 < rhog -> 0 < wg -> 0 < wl ->
  let moved := cap / (rhog / wg) * (rhol / wl) in
  gas_liq_cap c cap sc rhog wg rhol wl = (if Rlt_dec Reps (Rmax (a_c0 c) (Rmax (a_c1 c) (a_c2 c))) then Rmin moved sc else moved).
Proof.
  intros c cap sc rhog wg rhol wl H1 H2 H3 moved. unfold gas_liq_cap. assert (L1 : (n0 <~ rhog) = true) by (apply ltT; exact H1). assert (L2 : (n0 <~ wl) = true) by (apply ltT; exact H3). rewrite L1, L2. cbn [andb].
  change (@neps R RNum) with Reps. replace (cap *~ rhol *~ wg /~ rhog /~ wl) with moved by (unfold moved; rnum; field; lra). rewrite nminR. clearbody moved.
  destruct (Reps <~ a_c0 c) eqn:A0; [apply ltT in A0|apply ltF in A0]; destruct (Reps <~ a_c1 c) eqn:A1; [apply ltT in A1|apply ltF in A1|apply ltT in A1|apply ltF in A1]; (destruct (Reps <~ a_c2 c) eqn:A2; [apply ltT in A2|apply ltF in A2]);
  cbn [orb]; destruct (Rlt_dec Reps (Rmax (a_c0 c) (Rmax (a_c1 c) (a_c2 c)))) as [Z|Z]; try reflexivity; exfalso;
  try (pose proof (Rmax_l (a_c0 c) (Rmax (a_c1 c) (a_c2 c))); pose proof (Rmax_r (a_c0 c) (Rmax (a_c1 c) (a_c2 c))); pose proof (Rmax_l (a_c1 c) (a_c2 c)); pose proof (Rmax_r (a_c1 c) (a_c2 c)); lra).
  assert (Rmax (a_c0 c) (Rmax (a_c1 c) (a_c2 c)) <= Reps) by (repeat apply Rmax_lub; assumption). lra.
Qed.
Print Assumptions C202_capacitance.
Theorem C202_valid : forall hi lo rate fluid, gas_valid hi lo rate fluid = true <-> 0 <= hi /\ Reps <= lo /\ 0 < rate /\ fluid = true.
Proof.
  intros. unfold gas_valid. rewrite !andb_true_iff, !negb_true_iff, !ltF, leF. change (@neps R RNum) with Reps. change (@n0 R RNum) with 0. tauto.
Qed.
Print Assumptions C202_valid.
(** The conductivity of the gas port lies between its limits, or below the greatest if that is less
    than the least. *)
Theorem C202_conductivity : forall cap hi cur lo dt, 0 <= hi -> 0 <= lo -> Reps < dt ->
  acc_cond cap hi cur lo dt = Rmax (if Rle_dec lo hi then lo else 0) (Rmin (cap / dt) hi).
Proof.
  intros cap hi cur lo dt H1 H2 D. unfold acc_cond. assert (L : (@neps R RNum <~ dt) = true) by (apply ltT; exact D). rewrite L.
  destruct (lo <=~ hi) eqn:E; [apply leT in E|apply leF in E]; destruct (Rle_dec lo hi); try lra; rewrite limit_within by (rnum; lra); reflexivity.
Qed.
Print Assumptions C202_conductivity.
Example C202_arrives_used : Reps <= 100 <= a_pmax ex_c /\ Rabs (100 - 98) <= INR 3 * (10 * (1/10)).
Proof. pose proof Reps_small. cbn [a_pmax ex_c]. rewrite Rabs_right by lra. cbn [INR]. lra. Qed.
Example C202_update_used : r_hold (mkar 1 1200 0 false false) = false /\ 100 * Reps < Rabs (r_flow (mkar 1 1200 0 false false)).
Proof. pose proof Reps_small. cbn. split; [reflexivity|]. rewrite Rabs_right; lra. Qed.
