(** C199-C202: cases of accumulators without flow, with temperature edits, and heat while forced. *)
From Coq Require Import Floats.
From Coq Require Import Reals Lra Lia List Arith Bool ZArith.
From Verif Require Import Num Ord MathUtil Props_Math Spec_Valve Props_Valve Props_Thermal FluidFlow Props_FluidFlow FluidSorb Props_FluidSorb Props_FluidSource Props_FluidBed Props_FluidMix Props_FluidTank FluidAccum Props_FluidAccum Props_FluidAccumEdit Props_FluidAccumGas.
Import ListNotations.
Local Open Scope R_scope.

(** Without a dead band the scale is left alone. *)
Theorem C199_no_band : forall c g dt pin pout liq gas stuck busy s rate, g_band g <= g_min g -> acc_scale c g dt pin pout liq gas stuck busy s rate = (s, rate).
Proof. intros. unfold acc_scale. change (g_band g -~ g_min g) with (g_band g - g_min g). assert (L : (g_band g - g_min g <=~ n0) = true) by (apply leT; rnum; lra). rewrite L. reflexivity. Qed.
Print Assumptions C199_no_band.
(** What computeFlows schedules on the node, and the port's direction. *)
Theorem C200_port : forall flux, acc_port flux = (if Rlt_dec Reps flux then (flux, PSource) else (0, if Rlt_dec flux (- Reps) then PSink else PNone)).
Proof.
  intro flux. unfold acc_port. change (@neps R RNum) with Reps. change (nopp Reps) with (- Reps).
  destruct (Reps <~ flux) eqn:A; [apply ltT in A|apply ltF in A]; destruct (Rlt_dec Reps flux); try lra; try reflexivity.
  destruct (flux <~ - Reps) eqn:B; [apply ltT in B|apply ltF in B]; destruct (Rlt_dec flux (- Reps)); try lra; reflexivity.
Qed.
Print Assumptions C200_port.
(** A held chamber does not change. *)
Theorem C200_held : forall c g f dt r (x : chamber R), r_hold r = true -> update_liq c g f dt r x = x.
Proof. intros c g f dt r x H. unfold update_liq. rewrite H. reflexivity. Qed.
Print Assumptions C200_held.
Lemma temp_heat (c : acfg R) f dt r m t : r_holdt r = false -> a_tmin c <= a_tmax c -> (forall h, f_h f (f_t f h) = h) ->
  100 * Reps < Rabs (r_flow r) -> Reps <= m + r_flow r * dt ->
  exists t', (m + r_flow r * dt) * f_h f t' = m * f_h f t + (r_q r + r_flow r * (if Rlt_dec 0 (r_flow r) then r_hin r else f_h f t)) * dt /\
  chamber_temp c f dt r m t = Rmax (a_tmin c) (Rmin t' (a_tmax c)).
Proof.
  intros HT T HF BF M. set (r1 := mkar (r_flow r) (r_hin r) (r_q r) false false).
  destruct (C200_heat c (mkageo 0 1 0 1 1) f dt r1 (mkch 0 0 0 m t) eq_refl eq_refl T HF BF M) as (t' & A & B). cbn [x_mass x_temp r1 r_q r_flow r_hin] in *.
  exists t'. split.
  - rewrite <- A. f_equal. unfold update_liq. cbn [r1 r_hold x_mass]. unfold mass_step. rewrite nmaxR, sorb_limitR. change (nabs (r_flow r1)) with (Rabs (r_flow r)).
    assert (L : (100 * Reps <~ Rabs (r_flow r)) = true) by (apply ltT; exact BF). rewrite L. symmetry. apply Rmax_left. exact M.
  - rewrite <- B. unfold update_liq. cbn [r1 r_hold x_temp]. unfold chamber_temp. rewrite HT. reflexivity.
Qed.
(** Forced bellows with the normal temperature: the heat of the flow and of the housing goes into the
    mass that fills the volume and the flow together. *)
Theorem C201_forced_heat : forall tiny c f dt r goal rate x, 0 <= tiny -> usable tiny c -> 0 <= dt -> 0 <= x_pos x <= 1 -> r_holdt r = false -> (forall h, f_h f (f_t f h) = h) ->
  100 * Reps < Rabs (r_flow r) -> let y := fst (fst (fst (force_liq c (acc_geo c) f dt r goal rate true x))) in
  Reps <= x_mass y + r_flow r * dt ->
  exists t, (x_mass y + r_flow r * dt) * f_h f t = x_mass y * f_h f (x_temp x) + (r_q r + r_flow r * (if Rlt_dec 0 (r_flow r) then r_hin r else f_h f (x_temp x))) * dt /\
  x_temp y = Rmax (a_tmin c) (Rmin t (a_tmax c)).
Proof.
  intros tiny c f dt r goal rate x Z U D P HT HF BF. cbv zeta. destruct U as (_ & _ & _ & _ & _ & _ & _ & U2 & _). unfold force_liq.
  destruct (ramp dt (x_pos x) goal rate n0 n1 n0 (a_maxrate c)) as [[[pos g'] r'] done]. cbn [fst x_mass x_temp]. intro M. apply temp_heat; try assumption. lra.
Qed.
Print Assumptions C201_forced_heat.
(** An edit of the temperature is applied first, limited, with the mass that fills the volume, and is
    over. *)
Theorem C201_temperature : forall c g f dt r ra bo i (b : bellows R), b_tedit b = true -> a_tmin c <= a_tmax c ->
  let v := Rmax (a_tmin c) (Rmin (b_tval b) (a_tmax c)) in let x := b_x b in
  liquid_step c g f dt r ra bo i b =
  liquid_step c g f dt r ra bo i (mkbel (mkch (x_pos x) (x_liq x) (x_gas x) (Rmax (x_liq x * f_rho f v) Reps) v) (b_stuck b) (b_edit b) (b_epos b) (b_erate b) (b_timer b) false v (b_stick b) (b_to b) (b_tpos b) (b_trate b) (b_set b)) /\
  b_tedit (liquid_step c g f dt r ra bo i b) = false.
Proof.
  intros c g f dt r ra bo i b H T v x. split.
  - unfold liquid_step. rewrite H. unfold edit_temp. rewrite limit_within by exact T. fold (within (a_tmin c) (b_tval b) (a_tmax c)) in v. unfold mass_of. rewrite nmaxR.
    cbn [b_tedit b_tval b_x b_edit b_epos b_erate b_timer b_stick b_to b_tpos b_trate b_set]. reflexivity.
  - unfold liquid_step. rewrite H. destruct (edit_temp c f (x_liq (b_x b)) (b_tval b)) as [[v1 m1] t1]. cbn [b_stick b_to b_edit no_edits b_tpos b_trate b_epos b_erate b_timer b_tval b_set].
    destruct i.
    + destruct (b_stick b || b_to b).
      * destruct (b_stick b); [reflexivity|]. destruct (force_liq _ _ _ _ _ _ _ _ _) as [[[y g'] r'] done]. reflexivity.
      * destruct (b_edit b); [|reflexivity]. destruct (force_liq _ _ _ _ _ _ _ _ _) as [[[y g'] r'] done]. destruct (if done then _ else _) as [tt out]. reflexivity.
    + destruct (force_liq _ _ _ _ _ _ _ _ _) as [[[y g'] r'] done]. reflexivity.
    + destruct (force_liq _ _ _ _ _ _ _ _ _) as [[[y g'] r'] done]. reflexivity.
Qed.
Print Assumptions C201_temperature.
(** Bellows neither failed nor edited are free, and the timer is reset. *)
Theorem C201_free : forall c g f dt r ra bo (b : bellows R), b_tedit b = false -> b_stick b = false -> b_to b = false -> b_edit b = false ->
  let b' := liquid_step c g f dt r ra bo Free b in b_x b' = update_liq c g f dt r (b_x b) /\ b_stuck b' = false /\ b_edit b' = false /\ b_timer b' = 0.
Proof. intros c g f dt r ra bo b H1 H2 H3 H4. unfold liquid_step. rewrite H1, H2, H3, H4. repeat split; reflexivity. Qed.
Print Assumptions C201_free.
(** Forced gas: its mass fills its volume at the forced pressure, and its temperature only moves if
    asked. *)
Theorem C202_forced : forall c f rho maxrate dt r p sp vol goal rate u y, 0 <= dt -> Reps <= a_pmax c -> 0 <= maxrate ->
  let y' := fst (fst (fst (force_gas c f rho maxrate dt r p sp vol goal rate u y))) in
  y_mass y' = Rmax (vol * rho (y_temp y) (y_press y')) Reps /\
  y_temp y' = (if u then chamber_temp c f dt r (y_mass y') (y_temp y) else y_temp y) /\
  (Rabs (Rmax Reps (Rmin goal (a_pmax c)) - p) <= Rmax 0 (Rmin rate maxrate) * dt -> y_press y' + sp = Rmax Reps (Rmin goal (a_pmax c))).
Proof.
  intros c f rho maxrate dt r p sp vol goal rate u y D P M. cbv zeta. unfold force_gas. pose proof (C198_ramp dt p goal rate Reps (a_pmax c) maxrate D P M) as K. cbv zeta in K.
  change (@n0 R RNum) with 0. change (@neps R RNum) with Reps. destruct (ramp dt p goal rate Reps (a_pmax c) 0 maxrate) as [[[v g'] r'] done]. destruct K as (_ & _ & _ & K4 & _).
  cbn [fst y_mass y_temp y_press]. split; [unfold mass_of; rewrite nmaxR; reflexivity|]. split; [reflexivity|]. intro Y. rnum. rewrite (K4 Y). lra.
Qed.
Print Assumptions C202_forced.
Theorem C202_held : forall c f pr dt r vol (y : gasch R), (r_hold r = true -> update_gas c f pr dt r vol y = Some y) /\
  (r_hold r = false -> vol <= 0 -> r_flow r <= Reps -> exists y', update_gas c f pr dt r vol y = Some y' /\ y_press y' = y_press y).
Proof.
  intros c f pr dt r vol y. split; intro H; unfold update_gas; rewrite H; [reflexivity|]. intros V F. change (@neps R RNum) with Reps.
  assert (L : (Reps <~ r_flow r) = false) by (apply ltF; exact F). rewrite L. cbn [andb]. assert (L2 : (n0 <~ vol) = false) by (apply ltF; exact V). rewrite L2.
  eexists. split; reflexivity.
Qed.
Print Assumptions C202_held.
(** The gas keeps its heat as the liquid does. *)
Theorem C202_heat : forall c f pr dt r vol y y', r_hold r = false -> r_holdt r = false -> a_tmin c <= a_tmax c -> (forall h, f_h f (f_t f h) = h) ->
  100 * Reps < Rabs (r_flow r) -> Reps <= y_mass y + r_flow r * dt -> update_gas c f pr dt r vol y = Some y' ->
  exists t, (y_mass y + r_flow r * dt) * f_h f t = y_mass y * f_h f (y_temp y) + (r_q r + r_flow r * (if Rlt_dec 0 (r_flow r) then r_hin r else f_h f (y_temp y))) * dt /\
  y_temp y' = Rmax (a_tmin c) (Rmin t (a_tmax c)).
Proof.
  intros c f pr dt r vol y y' H HT T HF BF M. unfold update_gas. rewrite H. cbv zeta.
  destruct ((neps <~ r_flow r) && (dt *~ r_flow r +~ y_mass y <~ neps)); [discriminate|]. intro E. injection E as E. rewrite <- E. cbn [y_temp]. apply temp_heat; assumption.
Qed.
Print Assumptions C202_heat.
Theorem C202_no_capacitance : forall c cap sc rhog wg rhol wl, rhog <= 0 \/ wl <= 0 -> gas_liq_cap c cap sc rhog wg rhol wl = 0.
Proof.
  intros c cap sc rhog wg rhol wl H. unfold gas_liq_cap. destruct H as [H|H]; [assert (L : (n0 <~ rhog) = false) by (apply ltF; exact H); rewrite L; reflexivity|].
  assert (L : (n0 <~ wl) = false) by (apply ltF; exact H). rewrite L, andb_false_r. reflexivity.
Qed.
Print Assumptions C202_no_capacitance.
Example C201_forced_heat_used : 0 <= x_pos (ex_x (1/2)) <= 1 /\ (forall h, f_h ex_f (f_t ex_f h) = h).
Proof. split; [cbn; lra|intro; cbn; field]. Qed.
