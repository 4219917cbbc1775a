(** C183-C186: the heater and the boundary source, the hydrogen fuel cell, displacement pumps, and
    the cavitation of a pump. *)
From Coq Require Import Floats.
From Coq Require Import Reals Lra Lia List Arith Bool ZArith.
From Verif Require Import Num Ord MathUtil Props_Math Spec_Valve Props_Valve Props_Thermal FluidFlow Props_FluidFlow Props_FluidMix FluidSorb Props_FluidSorb Props_FluidSource FluidSources.
Import ListNotations.
Local Open Scope R_scope.

(** What a blockage leaves of one. *)
Definition open_to (block : bool) (v : R) : R := if block then 1 - v else 1.
Lemma block_byR block v x : block_by block v x = x * open_to block v.
Proof. unfold block_by, open_to. destruct block; [reflexivity|]. rewrite Rmult_1_r. reflexivity. Qed.
Lemma dec60 : (ndec 60 0 : R) = 60. Proof. rnum. unfold Rdec. cbn. lra. Qed.
Lemma dec1000 : (ndec 1000 0 : R) = 1000. Proof. rnum. unfold Rdec. cbn. lra. Qed.
Lemma dec2 : (ndec 2 0 : R) = 2. Proof. rnum. unfold Rdec. cbn. lra. Qed.
Lemma dec5t : (ndec 5 (-1) : R) = 1 / 2. Proof. rnum. unfold Rdec. cbn. lra. Qed.
Lemma dec1h : (ndec 1 (-2) : R) = 1 / 100. Proof. rnum. unfold Rdec. cbn. lra. Qed.
Lemma dec99h : (ndec 99 (-2) : R) = 99 / 100. Proof. rnum. unfold Rdec. cbn. lra. Qed.
Lemma dec1m : (ndec 1 (-3) : R) = 1 / 1000. Proof. rnum. unfold Rdec. cbn. lra. Qed.
Lemma w_h2R : (w_h2 : R) = 201588 / 100000. Proof. unfold w_h2. rnum. unfold Rdec. cbn. lra. Qed.
Lemma w_o2R : (w_o2 : R) = 319988 / 10000. Proof. unfold w_o2. rnum. unfold Rdec. cbn. lra. Qed.
Lemma w_h2oR : (w_h2o : R) = 180153 / 10000. Proof. unfold w_h2o. rnum. unfold Rdec. cbn. lra. Qed.

(** ** C183: the heater and the boundary source *)
(** A heater takes from one node the heat it gives to the other. *)
Theorem C183_heater : forall power eff block v,
  let q := heater_heat power eff block v in
  q = power * eff * open_to block v /\ heater_nodes q = (- q, q) /\
  fst (heater_nodes q) + snd (heater_nodes q) = 0 /\
  (heater_valid eff = true <-> 0 <= eff <= 1) /\
  (heater_valid eff = true -> (block = true -> 0 <= v <= 1) -> 0 <= power -> 0 <= q <= power).
Proof.
  intros power eff block v q.
  assert (Q : q = power * eff * open_to block v) by (apply block_byR).
  split; [exact Q|]. split; [reflexivity|]. split; [unfold heater_nodes; cbn [fst snd]; change (- q + q = 0); lra|].
  assert (V : heater_valid eff = true <-> 0 <= eff <= 1).
  { unfold heater_valid, is_in_range. rnum. destruct (Rleb_spec 0 eff), (Rleb_spec eff 1); cbn [andb]; split; intro; try discriminate; try reflexivity; try lra. }
  split; [exact V|]. intros H B P. apply V in H. rewrite Q. unfold open_to. destruct block; [specialize (B eq_refl)|clear B].
  - assert (0 <= power * eff <= power) by nra. split; nra.
  - rewrite Rmult_1_r. split; nra.
Qed.
Print Assumptions C183_heater.

(** The flow of a boundary: the demand, or the sum of the overriding rates, out of the node when
    the sign is flipped, less the blockage. *)
Definition bsign (b : @bnd R) : R := if b_flip b then -1 else 1.
Definition bdemand (b : @bnd R) : R := if b_over b then total (b_orates b) else b_dem b.
Lemma bnd_flowE (b : @bnd R) : bnd_flow b = bsign b * bdemand b * open_to (b_block b) (b_bval b).
Proof.
  unfold bnd_flow. cbv zeta. rewrite block_byR. f_equal. unfold bnd_demand, bsign, bdemand.
  destruct (b_over b); rewrite ?fold_add; destruct (b_flip b); rnum; lra.
Qed.
Theorem C183_flow : forall (b : @bnd R) w,
  bnd_flow b = bsign b * bdemand b * open_to (b_block b) (b_bval b) /\
  (b_trace b = true -> bnd_flux b w = 0 /\ bnd_influx b = None) /\
  (b_trace b = false -> Reps <= w -> bnd_flux b w * w = bnd_flow b) /\
  (b_trace b = false -> 100 * Reps < Rabs (bnd_flow b) -> bnd_influx b = Some (bnd_flow b)) /\
  (Rabs (bnd_flow b) <= 100 * Reps -> bnd_influx b = None).
Proof.
  intros b w. pose proof Reps_pos as E0. split; [apply bnd_flowE|]. unfold bnd_flux, bnd_influx. rewrite sorb_limitR.
  change (w <~ neps) with (Rltb w Reps). change (100 * Reps <~ nabs (bnd_flow b)) with (Rltb (100 * Reps) (Rabs (bnd_flow b))).
  split; [intros ->; split; reflexivity|]. split; [|split].
  - intros -> W. cbn [orb]. destruct (Rltb_spec w Reps); [lra|]. change (bnd_flow b / w * w = bnd_flow b). field. lra.
  - intros -> H. rewrite (Rltb_true _ _ H). reflexivity.
  - intro H. destruct (Rltb_spec (100 * Reps) (Rabs (bnd_flow b))); [lra|]. rewrite andb_false_r. reflexivity.
Qed.
Print Assumptions C183_flow.
(** An override delivers each constituent at its own rate: the node collects the flow with the
    composition of the rates. *)
Theorem C183_override : forall (b : @bnd R) i, b_over b = true -> total (b_orates b) <> 0 ->
  bnd_flow b * (nth i (b_orates b) 0 / total (b_orates b)) =
  bsign b * nth i (b_orates b) 0 * open_to (b_block b) (b_bval b).
Proof. intros b i O Z. rewrite bnd_flowE. unfold bdemand. rewrite O. field. exact Z. Qed.
Print Assumptions C183_override.
(** The trace compounds and the heat the node collects. *)
Theorem C183_trace : forall (b : @bnd R) dt,
  (b_over b = true -> bnd_tc b = Some (map (fun r => bsign b * r) (b_otc b)) /\ bnd_heat b = Some (bsign b * b_oheat b)) /\
  (b_over b = false -> bnd_heat b = None) /\
  (b_over b = false -> b_trace b = true -> Reps < Rabs (bnd_flow b) -> bnd_tc b = Some (map (fun r => bnd_flow b * r) (b_rates b))) /\
  (b_over b = false -> b_trace b = false -> bnd_tc b = None) /\
  bnd_mass b dt = Rabs (bnd_flow b * dt) /\
  bnd_tc_mass b dt = map (fun r => Rabs (bnd_flow b * dt) * r) (b_rates b) /\
  (b_over b = false -> b_trace b = true -> 0 < dt -> 0 <= bnd_flow b -> Reps < bnd_flow b ->
   bnd_tc b = Some (map (fun m => m / dt) (bnd_tc_mass b dt))).
Proof.
  intros b dt. unfold bnd_tc, bnd_heat. change (neps <~ nabs (bnd_flow b)) with (Rltb Reps (Rabs (bnd_flow b))).
  split. { intros ->. split; f_equal; [|unfold bsign; destruct (b_flip b); rnum; lra].
           apply map_ext. intro r. unfold bsign. destruct (b_flip b); rnum; lra. }
  split; [intros ->; reflexivity|]. split; [intros -> -> H; rewrite (Rltb_true _ _ H); reflexivity|].
  split; [intros -> ->; reflexivity|]. split; [reflexivity|]. split; [reflexivity|].
  intros -> -> D P H. rewrite (Rabs_right (bnd_flow b)), (Rltb_true _ _ H) by lra. cbn [andb]. f_equal.
  unfold bnd_tc_mass. rewrite map_map. apply map_ext. intro r. unfold bnd_mass.
  change (bnd_flow b * r = Rabs (bnd_flow b * dt) * r / dt).
  rewrite Rabs_right by (assert (0 <= bnd_flow b * dt) by (apply Rmult_le_pos; lra); lra). field. lra.
Qed.
Print Assumptions C183_trace.
(** Against what a blockage is for: an override that is wholly blocked moves no bulk fluid and yet
    still gives the node its trace compounds and its heat. *)
Theorem C183_blocked_refuted : exists b : @bnd R,
  b_block b = true /\ b_bval b = 1 /\ bnd_flow b = 0 /\ bnd_influx b = None /\
  bnd_tc b = Some [5] /\ bnd_heat b = Some 1000.
Proof.
  pose proof Reps_pos as E0.
  exists (mkbnd true false false true 1 0 [] [2] [5] 1000). split; [reflexivity|]. split; [reflexivity|].
  assert (F : bnd_flow (mkbnd true false false true 1 0 [] [2] [5] 1000) = 0).
  { rewrite bnd_flowE. unfold open_to. cbn [b_block b_bval]. lra. }
  split; [exact F|]. split.
  - apply (proj2 (proj2 (proj2 (proj2 (C183_flow (mkbnd true false false true 1 0 [] [2] [5] 1000) 1))))). rewrite F, Rabs_R0. lra.
  - split; reflexivity.
Qed.
Print Assumptions C183_blocked_refuted.
Theorem C183_drop : forall (b : @bnd R) w p,
  (bnd_flux b w < 0 -> bnd_drop b w p = p) /\ (0 <= bnd_flux b w -> bnd_drop b w p = - p).
Proof.
  intros b w p. unfold bnd_drop. change (bnd_flux b w <~ n0) with (Rltb (bnd_flux b w) 0).
  destruct (Rltb_spec (bnd_flux b w) 0); split; intro; try lra; reflexivity.
Qed.
Print Assumptions C183_drop.
Theorem C183_volume : forall (b : @bnd R) rho,
  (Reps < rho -> bnd_volume b rho * rho = bnd_flow b) /\ (rho <= Reps -> bnd_volume b rho = 0).
Proof.
  intros b rho. pose proof Reps_pos as E0. unfold bnd_volume. change (neps <~ rho) with (Rltb Reps rho).
  destruct (Rltb_spec Reps rho); split; intro; try lra; [|reflexivity]. change (bnd_flow b / rho * rho = bnd_flow b). field. lra.
Qed.
Print Assumptions C183_volume.
Example C183_vent : bnd_flow (mkbnd true true false true (1 / 4) 0 [] [3; 1] [] 0) = - 3.
Proof. rewrite bnd_flowE. unfold bsign, bdemand, open_to, total. cbn. lra. Qed.

(** ** C184: the hydrogen fuel cell *)
Definition starved (cur ph2 po2 ph2o : R) : Prop :=
  (0 < cur /\ (ph2 < 1 / 1000 \/ po2 < 1 / 1000)) \/ (cur <= 0 /\ ph2o < 1 / 1000).
Lemma rx_tripsR cur ph2 po2 ph2o : rx_trips cur ph2 po2 ph2o = true <-> starved cur ph2 po2 ph2o.
Proof.
  unfold rx_trips, starved. rewrite dec1m. rnum.
  destruct (Rltb_spec 0 cur); [destruct (Rltb_spec ph2 (1 / 1000)), (Rltb_spec po2 (1 / 1000))|destruct (Rltb_spec ph2o (1 / 1000))];
    cbn [orb]; split; intro; try discriminate; try reflexivity; try lra.
Qed.
Lemma rx_effR (c : @rx_cfg R) block v : rx_eff c block v = within Reps (x_max c * open_to block v) 1.
Proof. unfold rx_eff. rewrite block_byR. pose proof Reps_small. apply limit_within. rnum. lra. Qed.
Lemma rx_eff_bounds (c : @rx_cfg R) block v : Reps <= rx_eff c block v <= 1.
Proof. rewrite rx_effR. pose proof Reps_small. unfold within. mm. Qed.
(** The hydrogen reacting, before the trip. *)
Definition h2_asked (c : @rx_cfg R) (e cur : R) : R :=
  - cur * x_react c * x_cells c * (if Rlt_dec 0 cur then 1 / e else e).
(** A cell not tripped, and drawing more than the least rate: one of hydrogen, a half of oxygen,
    one of water, as moles; volts and heat by the configuration. *)
Theorem C184_reaction : forall (c : @rx_cfg R) block v cur ph2 po2 ph2o,
  let e := within Reps (x_max c * open_to block v) 1 in
  let o := rx_step c false block v cur ph2 po2 ph2o in
  ~ starved cur ph2 po2 ph2o -> 100 * Reps <= Rabs (h2_asked c e cur) ->
  r_trip o = false /\ r_eff o = e /\
  r_h2 o = h2_asked c e cur /\ r_h2 o = r_nh2 o * (201588 / 100000) /\
  r_o2 o = r_no2 o * (319988 / 10000) /\ r_h2o o = r_nh2o o * (180153 / 10000) /\
  r_no2 o = r_nh2 o / 2 /\ r_nh2o o = - r_nh2 o /\
  rx_source o = (0, r_nh2 o / 2) /\ rx_influx o = Some (r_h2 o, r_h2o o, r_o2 o) /\
  r_volt o = x_volt c * x_cells c /\ r_heat o = - (x_heat c * r_nh2 o).
Proof.
  intros c block v cur ph2 po2 ph2o e o NS BIG.
  assert (TR : rx_trips cur ph2 po2 ph2o = false).
  { destruct (rx_trips cur ph2 po2 ph2o) eqn:T; [|reflexivity]. apply rx_tripsR in T. contradiction. }
  assert (EB : 0 < e) by (pose proof (rx_eff_bounds c block v) as Q; rewrite rx_effR in Q; pose proof Reps_pos; unfold e; lra).
  assert (ER : rx_eff c block v = e) by apply rx_effR.
  assert (AR : (if n0 <~ cur then nopp cur *~ x_react c *~ x_cells c /~ rx_eff c block v
                else nopp cur *~ x_react c *~ x_cells c *~ rx_eff c block v) = h2_asked c e cur).
  { rewrite ER. unfold h2_asked. change (n0 <~ cur) with (Rltb 0 cur).
    destruct (Rltb_spec 0 cur), (Rlt_dec 0 cur); try lra.
    - change (- cur * x_react c * x_cells c / e = - cur * x_react c * x_cells c * (1 / e)). field. lra.
    - reflexivity. }
  unfold o, rx_step. cbv zeta. rewrite TR, AR, ER. cbn [orb]. rewrite sorb_limitR.
  change (nabs (h2_asked c e cur) <~ 100 * Reps) with (Rltb (Rabs (h2_asked c e cur)) (100 * Reps)).
  destruct (Rltb_spec (Rabs (h2_asked c e cur)) (100 * Reps)); [lra|]. cbn [r_trip r_eff r_h2 r_nh2 r_o2 r_no2 r_h2o r_nh2o r_volt r_heat].
  unfold rx_source, rx_influx. cbn [r_trip r_eff r_h2 r_nh2 r_o2 r_no2 r_h2o r_nh2o r_volt r_heat]. rewrite sorb_limitR.
  change (100 * Reps <=~ nabs (h2_asked c e cur)) with (Rleb (100 * Reps) (Rabs (h2_asked c e cur))).
  destruct (Rleb_spec (100 * Reps) (Rabs (h2_asked c e cur))); [|lra].
  rewrite dec5t, w_h2R, w_o2R, w_h2oR. set (h := h2_asked c e cur). clearbody h. rnum.
  split; [reflexivity|]. split; [reflexivity|]. split; [reflexivity|]. split; [field|]. split; [reflexivity|]. split; [reflexivity|].
  split; [field|]. split; [reflexivity|]. split; [f_equal; field|]. split; [reflexivity|]. split; [reflexivity|]. lra.
Qed.
Print Assumptions C184_reaction.
(** A drawn current uses hydrogen and gives heat; a driven one makes hydrogen. *)
Theorem C184_direction : forall (c : @rx_cfg R) e cur, 0 < x_react c -> 0 < x_cells c -> 0 < e <= 1 ->
  (0 < cur -> h2_asked c e cur <= - (cur * x_react c * x_cells c)) /\
  (cur <= 0 -> 0 <= h2_asked c e cur <= - cur * x_react c * x_cells c).
Proof.
  intros c e cur P1 P2 [E1 E2]. unfold h2_asked. assert (K : 0 < x_react c * x_cells c) by nra.
  destruct (Rlt_dec 0 cur); split; intro; try lra.
  - assert (1 <= 1 / e). { apply Rmult_le_reg_r with e; [lra|]. replace (1 / e * e) with 1 by (field; lra). lra. }
    assert (0 < cur * (x_react c * x_cells c)) by nra. nra.
  - assert (0 <= - cur * (x_react c * x_cells c)) by nra. split; nra.
Qed.
Print Assumptions C184_direction.
(** Starved of a reactant, or tripped before: no reaction, no voltage, and the trip holds. *)
Theorem C184_trip : forall (c : @rx_cfg R) old block v cur ph2 po2 ph2o,
  old = true \/ starved cur ph2 po2 ph2o ->
  let o := rx_step c old block v cur ph2 po2 ph2o in
  r_trip o = true /\ r_h2 o = 0 /\ r_o2 o = 0 /\ r_h2o o = 0 /\ rx_source o = (0, 0) /\ rx_influx o = None /\
  r_volt o = 0 /\ r_heat o = 0.
Proof.
  intros c old block v cur ph2 po2 ph2o H o. pose proof Reps_pos as E0.
  assert (T : old || rx_trips cur ph2 po2 ph2o = true).
  { destruct H as [->|H]; [reflexivity|]. apply rx_tripsR in H. rewrite H. apply orb_true_r. }
  unfold o, rx_step. cbv zeta. rewrite T. cbn [orb]. unfold rx_source, rx_influx.
  cbn [r_trip r_eff r_h2 r_nh2 r_o2 r_no2 r_h2o r_nh2o r_volt r_heat]. rewrite sorb_limitR.
  change (100 * Reps <=~ nabs (n0 : R)) with (Rleb (100 * Reps) (Rabs 0)). rewrite Rabs_R0.
  destruct (Rleb_spec (100 * Reps) 0); [lra|]. rnum. repeat split; try (f_equal; lra); lra.
Qed.
Print Assumptions C184_trip.
Theorem C184_latched : forall (c : @rx_cfg R) (l : list (bool * (R * (R * (R * (R * R)))))),
  fold_left (fun t x => let '(b, (v, (cur, (ph2, (po2, ph2o))))) := x in r_trip (rx_step c t b v cur ph2 po2 ph2o)) l true = true.
Proof.
  intros c l. induction l as [|[b [v [cur [p1 [p2 p3]]]]] l IH]; [reflexivity|]. cbn [fold_left].
  destruct (C184_trip c true b v cur p1 p2 p3 (or_introl eq_refl)) as [-> _]. exact IH.
Qed.
Print Assumptions C184_latched.
(** Too small a current does nothing and keeps the voltage. *)
Theorem C184_rest : forall (c : @rx_cfg R) block v cur ph2 po2 ph2o,
  ~ starved cur ph2 po2 ph2o ->
  Rabs (h2_asked c (within Reps (x_max c * open_to block v) 1) cur) < 100 * Reps ->
  let o := rx_step c false block v cur ph2 po2 ph2o in
  r_trip o = false /\ rx_source o = (0, 0) /\ rx_influx o = None /\ r_volt o = x_volt c * x_cells c /\ r_heat o = 0.
Proof.
  intros c block v cur ph2 po2 ph2o NS. set (e := within _ _ _). intros SM o. pose proof Reps_pos as E0.
  assert (TR : rx_trips cur ph2 po2 ph2o = false).
  { destruct (rx_trips cur ph2 po2 ph2o) eqn:T; [|reflexivity]. apply rx_tripsR in T. contradiction. }
  assert (ER : rx_eff c block v = e) by apply rx_effR.
  assert (EB : 0 < e) by (pose proof (rx_eff_bounds c block v) as Q; rewrite ER in Q; lra).
  assert (AR : (if n0 <~ cur then nopp cur *~ x_react c *~ x_cells c /~ rx_eff c block v
                else nopp cur *~ x_react c *~ x_cells c *~ rx_eff c block v) = h2_asked c e cur).
  { rewrite ER. unfold h2_asked. change (n0 <~ cur) with (Rltb 0 cur).
    destruct (Rltb_spec 0 cur), (Rlt_dec 0 cur); try lra.
    - change (- cur * x_react c * x_cells c / e = - cur * x_react c * x_cells c * (1 / e)). field. lra.
    - reflexivity. }
  unfold o, rx_step. cbv zeta. rewrite TR, AR. cbn [orb]. rewrite sorb_limitR.
  change (nabs (h2_asked c e cur) <~ 100 * Reps) with (Rltb (Rabs (h2_asked c e cur)) (100 * Reps)). rewrite (Rltb_true _ _ SM).
  unfold rx_source, rx_influx. cbn [r_trip r_eff r_h2 r_nh2 r_o2 r_no2 r_h2o r_nh2o r_volt r_heat]. rewrite sorb_limitR.
  change (100 * Reps <=~ nabs (n0 : R)) with (Rleb (100 * Reps) (Rabs 0)). rewrite Rabs_R0.
  destruct (Rleb_spec (100 * Reps) 0); [lra|]. rnum. repeat split; try (f_equal; lra); lra.
Qed.
Print Assumptions C184_rest.
(** The mass balance: the molecular weights as defined leave 2e-5 kg for each kmol of water. *)
Theorem C184_mass : forall (c : @rx_cfg R) old block v cur ph2 po2 ph2o,
  let o := rx_step c old block v cur ph2 po2 ph2o in
  r_h2 o + r_o2 o + r_h2o o = - r_nh2 o * (2 / 100000).
Proof.
  intros c old block v cur ph2 po2 ph2o o.
  destruct (Rlt_dec (Rabs (h2_asked c (within Reps (x_max c * open_to block v) 1) cur)) (100 * Reps)) as [S0|S0].
  - unfold o, rx_step. cbv zeta. destruct (old || rx_trips cur ph2 po2 ph2o) eqn:T; cbn [orb].
    + cbn [r_h2 r_o2 r_h2o r_nh2]. rnum. lra.
    + apply orb_false_iff in T as [-> T].
      destruct (nabs _ <~ sorb_limit) eqn:Q; cbn [r_h2 r_o2 r_h2o r_nh2]; [rnum; lra|].
      rewrite dec5t, w_h2R, w_o2R, w_h2oR. match goal with |- context [(?r /~ (201588 / 100000))] => set (h := r) end. clearbody h. rnum. lra.
  - destruct old.
    + destruct (C184_trip c true block v cur ph2 po2 ph2o (or_introl eq_refl)) as (_ & A & B & D & _).
      fold o in A, B, D. rewrite A, B, D. unfold o, rx_step. cbv zeta. cbn [orb r_nh2]. rnum. lra.
    + destruct (rx_trips cur ph2 po2 ph2o) eqn:T.
      * assert (ST : starved cur ph2 po2 ph2o) by (apply rx_tripsR; exact T).
        destruct (C184_trip c false block v cur ph2 po2 ph2o (or_intror ST)) as (_ & A & B & D & _).
        fold o in A, B, D. rewrite A, B, D. unfold o, rx_step. cbv zeta. rewrite T. cbn [orb r_nh2]. rnum. lra.
      * assert (ST : ~ starved cur ph2 po2 ph2o) by (intro Z; apply rx_tripsR in Z; congruence).
        destruct (C184_reaction c block v cur ph2 po2 ph2o ST) as (_ & _ & _ & A & B & D & E & F & _); [lra|].
        fold o in A, B, D, E, F. rewrite A, B, D, E, F. lra.
Qed.
Print Assumptions C184_mass.
Definition stack : @rx_cfg R := mkrx 10 (7 / 10) (1 / 100) 1 100.
(** So the reaction does not conserve mass. *)
Theorem C184_mass_refuted : exists (c : @rx_cfg R) cur ph2 po2 ph2o,
  let o := rx_step c false false 0 cur ph2 po2 ph2o in
  rx_influx o = Some (r_h2 o, r_h2o o, r_o2 o) /\ 0 < r_h2 o + r_h2o o + r_o2 o.
Proof.
  exists stack, 201588, 100, 100, 100. cbv zeta. pose proof Reps_small as E1. pose proof Reps_pos as E0.
  assert (W : within Reps (x_max stack * open_to false 0) 1 = 1) by (unfold within, open_to; cbn [x_max stack]; mm).
  assert (NS : ~ starved 201588 100 100 100) by (unfold starved; lra).
  assert (A : h2_asked stack (within Reps (x_max stack * open_to false 0) 1) 201588 = - (201588 / 10)).
  { rewrite W. unfold h2_asked. cbn [x_react x_cells stack]. destruct (Rlt_dec 0 201588); lra. }
  destruct (C184_reaction stack false 0 201588 100 100 100 NS) as (_ & _ & H & HN & _ & _ & _ & _ & _ & I & _).
  { rewrite A, Rabs_Ropp, Rabs_right; lra. }
  split; [exact I|]. rewrite A in H.
  pose proof (C184_mass stack false false 0 201588 100 100 100) as M. cbv zeta in M.
  set (o := rx_step stack false false 0 201588 100 100 100) in *. clearbody o. lra.
Qed.
Print Assumptions C184_mass_refuted.
(** Against a fuel cell standing by: with no current the water is checked, so a stack on dry
    hydrogen and oxygen trips before it has drawn anything. *)
Theorem C184_standby_refuted : exists (c : @rx_cfg R) ph2 po2,
  1 / 1000 <= ph2 /\ 1 / 1000 <= po2 /\ 0 < x_volt c * x_cells c /\
  let o := rx_step c false false 0 0 ph2 po2 0 in r_trip o = true /\ r_volt o = 0 /\
  forall cur ph2o, r_volt (rx_step c (r_trip o) false 0 cur ph2 po2 ph2o) = 0.
Proof.
  exists stack, 100, 100. split; [lra|]. split; [lra|]. split; [cbn [x_volt x_cells stack]; lra|]. cbv zeta.
  assert (ST : starved 0 100 100 0) by (unfold starved; lra).
  destruct (C184_trip stack false false 0 0 100 100 0 (or_intror ST)) as (A & _ & _ & _ & _ & _ & B & _).
  split; [exact A|]. split; [exact B|]. intros cur ph2o. rewrite A.
  destruct (C184_trip stack true false 0 cur 100 100 ph2o (or_introl eq_refl)) as (_ & _ & _ & _ & _ & _ & Q & _). exact Q.
Qed.
Print Assumptions C184_standby_refuted.
Example C184_runs : ~ starved 10 100 100 0 /\ 100 * Reps <= Rabs (h2_asked stack (within Reps (x_max stack * open_to false 0) 1) 10).
Proof.
  pose proof Reps_small as E1. pose proof Reps_pos as E0. split; [unfold starved; lra|].
  assert (W : within Reps (x_max stack * open_to false 0) 1 = 1) by (unfold within, open_to; cbn [x_max stack]; mm).
  rewrite W. unfold h2_asked. cbn [x_react x_cells stack]. destruct (Rlt_dec 0 10); [|lra]. rewrite Rabs_left; lra.
Qed.

(** ** C185: displacement pumps *)
(** A pump moves one cycle volume per turn of the impeller, a geared pump one per ratio of turns
    of the motor; a check valve stops it backwards. *)
Theorem C185_flow : forall (c : @dp_cfg R) motor old,
  let s := dp_speed c motor old in let q := dp_volume c s in
  (Reps < g_ratio c -> s * g_ratio c = motor) /\ (g_ratio c <= Reps -> s = old) /\
  (g_check c = false -> q * 60 = s * g_cycle c) /\
  (g_check c = true -> q * 60 = Rmax 0 (s * g_cycle c)) /\
  (forall r0 r1, 0 < s -> dp_demand s q r0 r1 = q * r0) /\ (forall r0 r1, s <= 0 -> dp_demand s q r0 r1 = q * r1).
Proof.
  intros c motor old s q. pose proof Reps_pos as E0. split; [|split; [|split; [|split]]].
  - intro H. unfold s, dp_speed. change (neps <~ g_ratio c) with (Rltb Reps (g_ratio c)). rewrite (Rltb_true _ _ H).
    change (motor / g_ratio c * g_ratio c = motor). field. lra.
  - intro H. unfold s, dp_speed. change (neps <~ g_ratio c) with (Rltb Reps (g_ratio c)).
    destruct (Rltb_spec Reps (g_ratio c)); [lra|reflexivity].
  - intro H. unfold q, dp_volume, dp_valve. cbv zeta. rewrite H, dec60. cbn [negb]. rewrite orb_true_r.
    change (s * g_cycle c / 60 * 1 * 60 = s * g_cycle c). lra.
  - intro H. unfold q, dp_volume, dp_valve. cbv zeta. rewrite H, dec60. cbn [negb]. rewrite orb_false_r.
    change (n0 <~ s *~ g_cycle c /~ 60) with (Rltb 0 (s * g_cycle c / 60)).
    destruct (Rltb_spec 0 (s * g_cycle c / 60)).
    + change (s * g_cycle c / 60 * 1 * 60 = Rmax 0 (s * g_cycle c)). mm.
    + change (s * g_cycle c / 60 * 0 * 60 = Rmax 0 (s * g_cycle c)). mm.
  - unfold dp_demand. change (n0 <~ s) with (Rltb 0 s). destruct (Rltb_spec 0 s); split; intros r0 r1 P; try lra; reflexivity.
Qed.
Print Assumptions C185_flow.
(** The mass moved is the volume of the fluid at the end the pump draws from. *)
Theorem C185_inlet : forall (c : @dp_cfg R) s r0 r1, 0 < g_cycle c -> 0 <= r0 -> 0 <= r1 ->
  let d := dp_demand s (dp_volume c s) r0 r1 in
  (0 < s -> 0 <= d) /\ (s <= 0 -> d <= 0) /\ (s <= 0 -> g_check c = true -> d = 0).
Proof.
  intros c s r0 r1 K R0 R1 d. unfold d, dp_demand, dp_volume, dp_valve. cbv zeta. rewrite dec60.
  change (n0 <~ s *~ g_cycle c /~ 60) with (Rltb 0 (s * g_cycle c / 60)). change (n0 <~ s) with (Rltb 0 s).
  destruct (Rltb_spec 0 s) as [Y|Y].
  - assert (0 < s * g_cycle c) by nra. destruct (Rltb_spec 0 (s * g_cycle c / 60)) as [Z|Z]; [|lra]. cbn [orb].
    change (s *~ g_cycle c /~ 60 *~ n1 *~ r0) with (s * g_cycle c / 60 * 1 * r0). split; [intros _; nra|]. split; intro; lra.
  - assert (s * g_cycle c <= 0) by nra. destruct (Rltb_spec 0 (s * g_cycle c / 60)) as [Z|Z]; [lra|]. cbn [orb].
    destruct (g_check c); cbn [negb].
    + change (s *~ g_cycle c /~ 60 *~ n0 *~ r1) with (s * g_cycle c / 60 * 0 * r1). split; [intros; lra|]. split; intros; lra.
    + change (s *~ g_cycle c /~ 60 *~ n1 *~ r1) with (s * g_cycle c / 60 * 1 * r1). split; [intros; lra|]. split; [intros _; nra|discriminate].
Qed.
Print Assumptions C185_inlet.
(** The power on the fluid, and the torque that brakes the motor: torque times speed in rad/s. *)
Theorem C185_power : forall (c : @dp_cfg R) q drop motor,
  dp_power q drop = 1000 * Rabs (q * drop) /\
  (feps < Rabs motor -> Reps < g_ratio c ->
     dp_torque c (60 / (2 * PI)) motor (dp_power q drop) * (motor * (2 * PI) / 60) = - dp_power q drop) /\
  (Rabs motor <= feps \/ g_ratio c <= Reps -> dp_torque c (60 / (2 * PI)) motor (dp_power q drop) = 0).
Proof.
  intros c q drop motor. split; [unfold dp_power; rewrite dec1000; reflexivity|]. set (w := dp_power q drop). clearbody w.
  pose proof core_feps as [FE _]. pose proof PI_RGT_0 as PP. unfold dp_torque.
  change (feps <~ nabs motor) with (Rltb feps (Rabs motor)). change (neps <~ g_ratio c) with (Rltb Reps (g_ratio c)).
  destruct (Rltb_spec feps (Rabs motor)), (Rltb_spec Reps (g_ratio c)); cbn [andb]; split; intros; try lra; try reflexivity.
  change (- w * (60 / (2 * PI)) / motor * (motor * (2 * PI) / 60) = - w). field.
  assert (MN : motor <> 0) by (intro Z; subst motor; rewrite Rabs_R0 in *; lra). split; lra.
Qed.
Print Assumptions C185_power.
Example C185_reciprocating : dp_volume (mkdp (1 / 1000) 1 true) (dp_speed (mkdp (1 / 1000) 1 true) 600 0) * 60 = 6 / 10.
Proof.
  pose proof Reps_small as E1.
  destruct (C185_flow (mkdp (1 / 1000) 1 true) 600 0) as (A & _ & _ & B & _). cbn [g_ratio g_check g_cycle] in *.
  rewrite (B eq_refl). specialize (A ltac:(lra)). mm.
Qed.

(** ** C186: cavitation *)
Notation fracR := (cav_frac sqrt).
Notation cavR := (cav_update sqrt).
Lemma cav_fracE full dt d f : fracR full dt d f =
  within 0 (if full then f + 2 * sqrt (Rmax f (1 / 100)) * dt / d else f - 2 * sqrt (1 - Rmin f (99 / 100)) * dt / d) 1.
Proof.
  unfold cav_frac. rewrite dec2, dec1h, dec99h, nmaxR, nminR.
  rewrite limit_within by (rnum; lra). destruct full; reflexivity.
Qed.
Lemma within01 x : 0 <= within 0 x 1 <= 1. Proof. unfold within. mm. Qed.
(** The pump's source is scaled by what the cavitation leaves of it. *)
Theorem C186_source : forall (c : @cav_cfg R) dt p psat noise src s,
  let r := cavR c dt p psat noise src s in
  let f := v_frac (snd r) in
  0 <= f <= 1 /\ Reps <= v_dur (snd r) /\
  (v_full c = true \/ (v_auto c = true /\ p < psat) ->
     f = fracR true dt (v_dur (snd r)) (v_frac s)) /\
  (v_full c = false -> (v_auto c = false \/ psat <= p) ->
     f = fracR false dt (v_dur (snd r)) (v_frac s)) /\
  (v_full c = false -> (v_auto c = false \/ psat <= p) -> v_part c = false ->
     fst r = src * (1 - f) /\ v_time (snd r) = 0 /\ v_dur (snd r) = Rmax (v_dur s) Reps).
Proof.
  intros c dt p psat noise src s r f. unfold f, r, cav_update. cbv zeta. unfold cav_mode.
  change (p <~ psat) with (Rltb p psat).
  destruct (v_full c); [|destruct (v_auto c), (Rltb_spec p psat); cbn [andb]; [destruct (v_part c)| destruct (v_part c)|destruct (v_part c)|destruct (v_part c)]];
    cbn [orb fst snd v_frac v_dur v_time]; rewrite ?nmaxR; rewrite ?cav_fracE;
    (split; [apply within01|]); (split; [apply Rmax_r|]);
    (split; [intros; first [reflexivity|lra|intuition discriminate]|]);
    (split; [intros; first [reflexivity|lra|intuition (try discriminate; lra)]|]);
    intros; try discriminate; try lra; try (intuition (try discriminate; lra)).
  all: change (n0 <~ n0) with (Rltb 0 0); destruct (Rltb_spec 0 0); [lra|]; repeat split.
Qed.
Print Assumptions C186_source.
Ltac mmh := unfold Rmin, Rmax in *; mm.
Lemma sqrt_tenth x : 1 / 100 <= x -> 1 / 10 <= sqrt x.
Proof.
  intro H. replace (1 / 10) with (sqrt (1 / 100)).
  - apply sqrt_le_1_alt. exact H.
  - replace (1 / 100) with (1 / 10 * (1 / 10)) by lra. apply sqrt_square. lra.
Qed.
(** One step of full cavitation, and one of recovery, move the fraction by a fifth of the step's
    part of the duration at least, and by twice that part at most. *)
Theorem C186_grows : forall dt d f, 0 < dt -> 0 < d -> 0 <= f <= 1 ->
  Rmin 1 (f + dt / d / 5) <= fracR true dt d f <= Rmin 1 (f + 2 * (dt / d)) /\
  Rmax 0 (f - 2 * (dt / d)) <= fracR false dt d f <= Rmax 0 (f - dt / d / 5).
Proof.
  intros dt d f P D [F0 F1]. rewrite !cav_fracE. assert (Q : 0 < dt / d) by (apply Rdiv_lt_0_compat; assumption).
  replace (2 * sqrt (Rmax f (1 / 100)) * dt / d) with (2 * sqrt (Rmax f (1 / 100)) * (dt / d)) by (field; lra).
  replace (2 * sqrt (1 - Rmin f (99 / 100)) * dt / d) with (2 * sqrt (1 - Rmin f (99 / 100)) * (dt / d)) by (field; lra).
  assert (A : 1 / 10 <= sqrt (Rmax f (1 / 100)) <= 1).
  { split; [apply sqrt_tenth; mm|]. rewrite <- sqrt_1 at 2. apply sqrt_le_1_alt. mm. }
  assert (B : 1 / 10 <= sqrt (1 - Rmin f (99 / 100)) <= 1).
  { split; [apply sqrt_tenth; mm|]. rewrite <- sqrt_1 at 2. apply sqrt_le_1_alt. mm. }
  set (a := sqrt (Rmax f (1 / 100))) in *. set (b := sqrt (1 - Rmin f (99 / 100))) in *. set (q := dt / d) in *. clearbody a b q.
  assert (q / 5 <= 2 * a * q <= 2 * q) by nra. assert (q / 5 <= 2 * b * q <= 2 * q) by nra.
  unfold within. repeat split; mm.
Qed.
Print Assumptions C186_grows.
(** Steps of one pump with one period. *)
Definition moment : Type := R * R * R * R.
Definition cav_run (c : @cav_cfg R) (dt : R) (l : list moment) (s : @cav R) : @cav R :=
  fold_left (fun s x => let '(p, psat, noise, src) := x in snd (cavR c dt p psat noise src s)) l s.
Lemma run_full (c : @cav_cfg R) dt l : forall s, v_full c = true -> 0 < dt -> 0 <= v_frac s <= 1 ->
  let d := Rmax (v_fdur c) Reps in
  let s' := cav_run c dt l s in
  0 <= v_frac s' <= 1 /\ Rmin 1 (v_frac s + INR (length l) * (dt / d / 5)) <= v_frac s' /\
  v_time s' = v_time s + INR (length l) * dt.
Proof.
  induction l as [|[[[p ps] noise] src] l IH]; intros s FU P F d s'.
  - cbn [cav_run fold_left length INR] in *. unfold s'. cbn [cav_run fold_left]. split; [exact F|]. split; [|cbn [INR]; lra]. rewrite Rmult_0_l, Rplus_0_r. apply Rmin_r.
  - pose proof Reps_pos as E0. assert (D : 0 < d) by (unfold d; pose proof (Rmax_r (v_fdur c) Reps); lra).
    set (s1 := snd (cavR c dt p ps noise src s)).
    assert (S1 : v_frac s1 = fracR true dt d (v_frac s) /\ v_time s1 = v_time s + dt).
    { unfold s1, cav_update, cav_mode. cbv zeta. rewrite FU. cbn [orb snd v_frac v_time]. rewrite nmaxR. split; reflexivity. }
    destruct S1 as [S1 S2]. destruct (C186_grows dt d (v_frac s) P D F) as [[G1 G2] _].
    assert (F1 : 0 <= v_frac s1 <= 1) by (rewrite S1, cav_fracE; apply within01).
    destruct (IH s1 FU P F1) as (I1 & I2 & I3). fold d in I2. change (cav_run c dt l s1) with s' in I1, I2, I3.
    split; [exact I1|]. cbn [length]. rewrite S_INR. split; [|rewrite I3, S2; lra].
    rewrite S1 in I2. set (k := INR (length l)) in *. set (q := dt / d / 5) in *.
    assert (0 <= q) by (unfold q; assert (0 < dt / d) by (apply Rdiv_lt_0_compat; assumption); lra).
    assert (0 <= k) by (apply pos_INR). clearbody k q. assert (0 <= k * q) by nra.
    set (g := fracR true dt d (v_frac s)) in *. clearbody g. revert I2 G1. clearbody s'. clear - H1 H. intros I2 G1.
    replace ((k + 1) * q) with (k * q + q) by ring. mmh.
Qed.
(** A pump under the malfunction of full cavitation delivers nothing after five times its duration,
    whatever happens at its inlet. *)
Theorem C186_stalls : forall (c : @cav_cfg R) dt l s p psat noise src,
  v_full c = true -> 0 < dt -> 0 <= v_frac s <= 1 -> 0 <= v_time s ->
  5 * Rmax (v_fdur c) Reps <= INR (length l) * dt ->
  v_frac (cav_run c dt l s) = 1 /\ fst (cavR c dt p psat noise src (cav_run c dt l s)) = 0.
Proof.
  intros c dt l s p psat noise src FU P F TM LONG. pose proof Reps_pos as E0.
  destruct (run_full c dt l s FU P F) as (A & B & C).
  set (d := Rmax (v_fdur c) Reps) in *. assert (D : 0 < d) by (unfold d; pose proof (Rmax_r (v_fdur c) Reps); lra).
  assert (Q : 1 <= INR (length l) * (dt / d / 5)).
  { replace (INR (length l) * (dt / d / 5)) with (INR (length l) * dt / (5 * d)) by (field; lra).
    apply Rmult_le_reg_r with (5 * d); [lra|]. replace (INR (length l) * dt / (5 * d) * (5 * d)) with (INR (length l) * dt) by (field; lra). lra. }
  assert (V : v_frac (cav_run c dt l s) = 1) by (revert A B Q; clear - F; intros; mmh).
  split; [exact V|]. set (s' := cav_run c dt l s) in *. clearbody s'.
  unfold cav_update, cav_mode. cbv zeta. rewrite FU. cbn [orb fst]. rewrite !nmaxR. change (neps : R) with Reps. fold d. rewrite cav_fracE, V.
  destruct (C186_grows dt d 1 P D) as [[G _] _]; [lra|]. rewrite cav_fracE in G.
  assert (W : within 0 (1 + 2 * sqrt (Rmax 1 (1 / 100)) * dt / d) 1 = 1).
  { pose proof (within01 (1 + 2 * sqrt (Rmax 1 (1 / 100)) * dt / d)) as W. assert (0 < dt / d) by (apply Rdiv_lt_0_compat; assumption).
    revert G W. generalize (within 0 (1 + 2 * sqrt (Rmax 1 (1 / 100)) * dt / d) 1). intros w G W. mmh. }
  rewrite W. clear W G.
  assert (TD : 1 <= (v_time s' + dt) / d).
  { apply Rmult_le_reg_r with d; [exact D|]. replace ((v_time s' + dt) / d * d) with (v_time s' + dt) by (field; lra). lra. }
  assert (KZ : v_pamp c *~ Rmax n0 (n1 -~ (v_time s' +~ dt) /~ d) = 0).
  { change (v_pamp c * Rmax 0 (1 - (v_time s' + dt) / d) = 0). replace (Rmax 0 (1 - (v_time s' + dt) / d)) with 0 by mm. lra. }
  rewrite KZ. change (n0 <~ 0) with (Rltb 0 0). destruct (Rltb_spec 0 0); [lra|]. change (src * (1 - 1) = 0). lra.
Qed.
Print Assumptions C186_stalls.
Lemma run_none (c : @cav_cfg R) dt l : forall s, v_full c = false -> v_auto c = false -> v_part c = false ->
  0 < dt -> 0 <= v_frac s <= 1 ->
  let d := Rmax (v_dur s) Reps in
  let s' := cav_run c dt l s in
  0 <= v_frac s' <= 1 /\ v_frac s' <= Rmax 0 (v_frac s - INR (length l) * (dt / d / 5)) /\ Rmax (v_dur s') Reps = d.
Proof.
  induction l as [|[[[p ps] noise] src] l IH]; intros s N1 N2 N3 P F d s'.
  - unfold s'. cbn [cav_run fold_left length INR]. split; [exact F|]. split; [|reflexivity]. rewrite Rmult_0_l, Rminus_0_r. apply Rmax_r.
  - pose proof Reps_pos as E0. assert (D : 0 < d) by (unfold d; pose proof (Rmax_r (v_dur s) Reps); lra).
    set (s1 := snd (cavR c dt p ps noise src s)).
    assert (S1 : v_frac s1 = fracR false dt d (v_frac s) /\ v_dur s1 = d).
    { unfold s1, cav_update, cav_mode. cbv zeta. rewrite N1, N2, N3. cbn [andb orb snd v_frac v_dur]. rewrite nmaxR. split; reflexivity. }
    destruct S1 as [S1 S2]. destruct (C186_grows dt d (v_frac s) P D F) as [_ [G1 G2]].
    assert (F1 : 0 <= v_frac s1 <= 1) by (rewrite S1, cav_fracE; apply within01).
    destruct (IH s1 N1 N2 N3 P F1) as (I1 & I2 & I3). rewrite S2 in I2, I3.
    assert (DD : Rmax d Reps = d) by (unfold d; rewrite Rmax_left; [reflexivity|apply Rmax_r]). rewrite DD in I2, I3.
    change (cav_run c dt l s1) with s' in I1, I2, I3.
    split; [exact I1|]. split; [|exact I3]. cbn [length]. rewrite S_INR.
    rewrite S1 in I2. set (k := INR (length l)) in *. set (q := dt / d / 5) in *.
    assert (0 <= q) by (unfold q; assert (0 < dt / d) by (apply Rdiv_lt_0_compat; assumption); lra).
    assert (0 <= k) by (apply pos_INR). clearbody k q. assert (0 <= k * q) by nra.
    set (g := fracR false dt d (v_frac s)) in *. clearbody g. revert I2 G2. clearbody s'. clear - H1 H. intros I2 G2.
    replace ((k + 1) * q) with (k * q + q) by ring. mmh.
Qed.
(** And when the cause is gone it recovers wholly in five times the last duration. *)
Theorem C186_recovers : forall (c : @cav_cfg R) dt l s p psat noise src,
  v_full c = false -> v_auto c = false -> v_part c = false -> 0 < dt -> 0 <= v_frac s <= 1 ->
  5 * Rmax (v_dur s) Reps <= INR (length l) * dt ->
  v_frac (cav_run c dt l s) = 0 /\ fst (cavR c dt p psat noise src (cav_run c dt l s)) = src.
Proof.
  intros c dt l s p psat noise src N1 N2 N3 P F LONG. pose proof Reps_pos as E0.
  destruct (run_none c dt l s N1 N2 N3 P F) as (A & B & C).
  set (d := Rmax (v_dur s) Reps) in *. assert (D : 0 < d) by (unfold d; pose proof (Rmax_r (v_dur s) Reps); lra).
  assert (Q : 1 <= INR (length l) * (dt / d / 5)).
  { replace (INR (length l) * (dt / d / 5)) with (INR (length l) * dt / (5 * d)) by (field; lra).
    apply Rmult_le_reg_r with (5 * d); [lra|]. replace (INR (length l) * dt / (5 * d) * (5 * d)) with (INR (length l) * dt) by (field; lra). lra. }
  assert (V : v_frac (cav_run c dt l s) = 0) by (revert A B Q; clear - F; intros; mmh).
  split; [exact V|]. set (s' := cav_run c dt l s) in *. clearbody s'.
  destruct (C186_source c dt p psat noise src s') as (_ & _ & _ & S4 & S5). cbv zeta in S4, S5.
  destruct (S5 N1 (or_introl N2) N3) as (S6 & _ & S7). rewrite S6, (S4 N1 (or_introl N2)), S7, C, V.
  destruct (C186_grows dt d 0 P D) as [_ [_ G]]; [lra|]. rewrite cav_fracE in *.
  pose proof (within01 (0 - 2 * sqrt (1 - Rmin 0 (99 / 100)) * dt / d)) as W. assert (0 < dt / d) by (apply Rdiv_lt_0_compat; assumption).
  revert G W. generalize (within 0 (0 - 2 * sqrt (1 - Rmin 0 (99 / 100)) * dt / d) 1). intros w G W.
  assert (w = 0) by (mmh). subst w. lra.
Qed.
Print Assumptions C186_recovers.
(** The noise of bubbles at a forward pump: it does not reverse the pump, and it dies out. *)
Theorem C186_noise : forall (c : @cav_cfg R) dt p psat noise src s,
  v_full c = false -> v_auto c = false \/ psat <= p -> v_part c = true ->
  let r := cavR c dt p psat noise src s in
  let d := Rmax (v_pdur c) Reps in
  let k := v_pamp c * Rmax 0 (1 - (v_time s + dt) / d) in
  v_time (snd r) = v_time s + dt /\ v_dur (snd r) = d /\
  (0 < k -> fst r = Rmax 0 (src * (1 - v_frac (snd r)) + k * noise) /\ 0 <= fst r) /\
  (k <= 0 -> fst r = src * (1 - v_frac (snd r))) /\
  (0 <= v_pamp c -> d <= v_time s + dt -> k = 0).
Proof.
  intros c dt p psat noise src s FU AU PA r d k. pose proof Reps_pos as E0.
  assert (D : 0 < d) by (unfold d; pose proof (Rmax_r (v_pdur c) Reps); lra).
  assert (M : cav_mode c p psat = Some (false, v_pamp c, v_pdur c)).
  { unfold cav_mode. rewrite FU, PA. change (p <~ psat) with (Rltb p psat).
    destruct (v_auto c), (Rltb_spec p psat); cbn [andb]; try reflexivity. destruct AU; [discriminate|lra]. }
  unfold r, cav_update. cbv zeta. rewrite M, PA. cbn [orb]. rewrite !nmaxR. change (neps : R) with Reps. fold d.
  change (v_pamp c *~ Rmax n0 (n1 -~ (v_time s +~ dt) /~ d)) with k. change (n0 <~ k) with (Rltb 0 k).
  cbn [fst snd v_time v_dur v_frac]. split; [reflexivity|]. split; [reflexivity|].
  set (w := fracR false dt d (v_frac s)). clearbody w.
  split; [|split].
  - intro K. rewrite (Rltb_true _ _ K). split; [reflexivity|]. apply Rmax_l.
  - intro K. destruct (Rltb_spec 0 k); [lra|reflexivity].
  - intros A L. unfold k. assert (1 <= (v_time s + dt) / d).
    { apply Rmult_le_reg_r with d; [exact D|]. replace ((v_time s + dt) / d * d) with (v_time s + dt) by (field; lra). lra. }
    replace (Rmax 0 (1 - (v_time s + dt) / d)) with 0 by mm. lra.
Qed.
Print Assumptions C186_noise.
(** Against noise being a disturbance: on a pump that turns backwards (a liquid displacement pump
    without a check valve) the least noise stops the flow altogether. *)
Theorem C186_reverse_refuted : exists (c : @cav_cfg R) dt src s,
  v_full c = false /\ v_auto c = false /\ v_part c = true /\ 0 < v_pamp c <= 1 / 1000 /\ 0 < dt /\ v_frac s = 0 /\
  src = - 5 /\ forall noise, Rabs noise <= 1 -> fst (cavR c dt 100 1 noise src s) = 0.
Proof.
  pose proof Reps_small as E1. pose proof Reps_pos as E0.
  exists (mkcav false 0 0 false 0 true 10 (1 / 1000)), (1 / 10), (-5), (mkcavs 0 0 0).
  cbn [v_full v_auto v_part v_pamp v_frac]. repeat (split; [first [reflexivity|lra]|]). intros noise NB.
  destruct (C186_noise (mkcav false 0 0 false 0 true 10 (1 / 1000)) (1 / 10) 100 1 noise (-5) (mkcavs 0 0 0)
              eq_refl (or_introl eq_refl) eq_refl) as (_ & VD & K & _). cbv zeta in K. cbn [v_pamp v_pdur v_time] in *.
  set (k := 1 / 1000 * Rmax 0 (1 - (0 + 1 / 10) / Rmax 10 Reps)) in *.
  assert (KB : 0 < k <= 1 / 1000). { unfold k. rewrite (Rmax_left 10 Reps) by lra. mm. }
  destruct (K (proj1 KB)) as [-> _].
  assert (FR : v_frac (snd (cavR (mkcav false 0 0 false 0 true 10 (1 / 1000)) (1 / 10) 100 1 noise (-5) (mkcavs 0 0 0))) = 0).
  { unfold cav_update, cav_mode. cbv zeta. cbn [v_full v_auto v_part v_pdur v_pamp andb snd v_frac]. rewrite nmaxR. change (neps : R) with Reps. rewrite cav_fracE.
    pose proof (sqrt_pos (1 - Rmin 0 (99 / 100))) as SP. rewrite (Rmax_left 10 Reps) by lra. revert SP. generalize (sqrt (1 - Rmin 0 (99 / 100))). intros z SP. unfold within. mm. }
  rewrite FR. assert (Rabs (k * noise) <= 1 / 1000).
  { rewrite Rabs_mult, (Rabs_right k) by lra. pose proof (Rabs_pos noise). nra. }
  assert (- (1 / 1000) <= k * noise <= 1 / 1000) by (apply Rabs_def2b; assumption) || (unfold Rabs in *; destruct (Rcase_abs (k * noise)); lra).
  mm.
Qed.
Print Assumptions C186_reverse_refuted.
Example C186_within : 5 * Rmax 10 Reps <= INR 600 * (1 / 10).
Proof. pose proof Reps_small. replace (INR 600) with 600 by (rewrite INR_IZR_INZ; reflexivity). mm. Qed.
