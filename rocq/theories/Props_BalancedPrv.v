(** C163: the balanced pressure regulating valve. *)
From Coq Require Import Floats.
From Coq Require Import Reals Lra Lia List Arith Bool ZArith.
From Verif Require Import Num Ord Loops MathUtil Props_Math Spec_Valve Props_Valve Props_Thermal FluidFlow Props_FluidFlow FluidValves Props_FluidValves Props_ReliefValve.
Import ListNotations.
Local Open Scope R_scope.

(** The pressure the valve regulates to: set pressure over the reference, with the malfunction's
    offset, and no more than there is. *)
Definition aims_at (z : @prv R) (p0 p2 : R) : R := Rmin (z_set z + p2 + (if z_mflag z then z_mbias z else 0)) p0.
Theorem C163_pressure : forall (z : @prv R) dt mw p0 p1 p2, z_reg (prv_step dt mw p0 p1 p2 z) = aims_at z p0 p2.
Proof.
  intros. unfold prv_step. cbn [z_reg]. unfold prv_reg, aims_at. rewrite nminR. destruct (z_mflag z); rnum; [reflexivity|]. f_equal. ring.
Qed.
Print Assumptions C163_pressure.
(** Back pressure shuts the valve, which stays shut until the exit pressure is below the set
    pressure. *)
Theorem C163_latch : forall (z : @prv R) dt mw p0 p1 p2, let z' := prv_step dt mw p0 p1 p2 z in
  (p0 < p1 -> z_cut z' = true) /\ (p1 <= p0 -> p1 < z_set z -> z_cut z' = false) /\ (p1 <= p0 -> z_set z <= p1 -> z_cut z' = z_cut z) /\
  (z_cut z' = true -> z_exit z' = 0).
Proof.
  intros z dt mw p0 p1 p2. cbv zeta. unfold prv_step. cbn [z_cut z_exit]. unfold prv_cut, prv_exit. change (p0 <~ p1) with (Rltb p0 p1). change (p1 <~ z_set z) with (Rltb p1 (z_set z)).
  destruct (Rltb_spec p0 p1); destruct (Rltb_spec p1 (z_set z)); repeat split; intros; try lra; try reflexivity; try discriminate.
  destruct (z_cut z); [reflexivity|discriminate].
Qed.
Print Assumptions C163_latch.
(** The matrix entries are the conductances of the step, whether or not they changed. *)
Lemma prv_entries dt mw p0 p1 p2 (z : @prv R) : let z' := prv_step dt mw p0 p1 p2 z in z_a0 z' = z_inlet z' /\ z_a4 z' = z_exit z' /\ z_w1 z' = z_reg z' * z_exit z'.
Proof.
  cbv zeta. unfold prv_step. cbn [z_a0 z_a4 z_w1 z_inlet z_exit z_reg]. set (i := prv_inlet z dt mw p0). set (x := prv_exit z (prv_cut z p0 p1) mw). clearbody i x.
  change (z_a0 z ==~ i) with (Reqb (z_a0 z) i). change (z_a4 z ==~ x) with (Reqb (z_a4 z) x).
  destruct (Reqb_spec (z_a0 z) i), (Reqb_spec (z_a4 z) x); cbn [negb orb]; auto.
Qed.
(** What flows out: nothing against the pressure and nothing from a shut valve; the pressure at
    the exit droops by its rate for each unit of flow. *)
Theorem C163_exit : forall (z : @prv R) dt mw p0 p1 p2 q0 q1, feps <= mw -> feps <= z_droop z <= 1 / feps -> z_block z = false ->
  let z' := prv_step dt mw p0 p1 p2 z in let out := mw * snd (prv_flux q0 q1 z') in
  0 <= out /\ (z_cut z' = true -> out = 0) /\ (aims_at z p0 p2 <= q1 -> out = 0) /\
  (z_cut z' = false -> q1 <= aims_at z p0 p2 -> q1 = aims_at z p0 p2 - z_droop z * out).
Proof.
  intros z dt mw p0 p1 p2 q0 q1 W D B. cbv zeta. pose proof fepsR as E. destruct (prv_entries dt mw p0 p1 p2 z) as (_ & E2 & E3). pose proof (C163_pressure z dt mw p0 p1 p2) as E4.
  unfold prv_flux. cbn [snd]. rewrite nmaxR. rewrite E2, E3, E4. set (t := aims_at z p0 p2) in *. clearbody t.
  assert (X : z_exit (prv_step dt mw p0 p1 p2 z) = if z_cut (prv_step dt mw p0 p1 p2 z) then 0 else 1 / mw / z_droop z).
  { unfold prv_step. cbn [z_exit z_cut]. unfold prv_exit. rewrite B. change (mw <~ feps) with (Rltb mw feps). rewrite Rltb_false by lra. rewrite orb_false_r.
    destruct (prv_cut z p0 p1); [reflexivity|]. rewrite limit_within by (rnum; lra). rnum. replace (within feps (z_droop z) (1 / feps)) with (z_droop z); [reflexivity|]. unfold within. rewrite Rmin_left, Rmax_right by lra. reflexivity. }
  rewrite X. rnum. change (@nopp R RNum q1) with (- q1). set (cut := z_cut _). clearbody cut. assert (K : 0 < 1 / mw / z_droop z) by (apply Rmult_lt_0_compat; [apply Rmult_lt_0_compat; [lra|]|]; apply Rinv_0_lt_compat; lra).
  assert (K2 : mw * (1 / mw / z_droop z) * z_droop z = 1) by (field; lra).
  set (k := 1 / mw / z_droop z) in *. clearbody k.
  assert (Q : forall x, - q1 * x + t * x = (t - q1) * x) by (intro; ring). rewrite Q.
  split; [apply Rmult_le_pos; [lra|apply Rmax_l]|]. split; [|split].
  - intros ->. rewrite Rmult_0_r, Rmax_left by lra. ring.
  - intro L. rewrite Rmax_left; [ring|]. destruct cut; [lra|]. pose proof (Rmult_le_pos (q1 - t) k ltac:(lra) ltac:(lra)). lra.
  - intros -> L. rewrite Rmax_right by (apply Rmult_le_pos; lra). replace (z_droop z * (mw * ((t - q1) * k))) with ((t - q1) * (mw * k * z_droop z)) by ring. rewrite K2. ring.
Qed.
Print Assumptions C163_exit.
(** A blockage takes its part of the exit's conductance. *)
Theorem C163_blockage : forall (z : @prv R) dt mw p0 p1 p2, let z' := prv_step dt mw p0 p1 p2 z in
  let open := prv_step dt mw p0 p1 p2 (mkprv (z_mflag z) (z_mbias z) (z_droop z) (z_set z) false 0 (z_lim z) (z_inlet z) (z_exit z) (z_buffer z) (z_reg z) (z_cut z) (z_a0 z) (z_a4 z) (z_w1 z) (z_upd z)) in
  z_exit z' = z_exit open * (if z_block z then 1 - z_blockv z else 1).
Proof.
  intros z dt mw p0 p1 p2. cbv zeta. unfold prv_step. cbn [z_exit]. unfold prv_exit, prv_cut. cbn [z_droop z_block z_blockv z_set z_cut].
  destruct (_ || _); [rnum; ring|]. destruct (z_block z); rnum; ring.
Qed.
Print Assumptions C163_blockage.
(** What is taken in: never against the pressure, not more than the limit, and at the pressure it
    is sized for a fifth of what the buffer is owed in the step. *)
Theorem C163_inlet : forall (z : @prv R) dt mw p0 p1 p2 q1, 0 <= z_buffer z -> 0 <= z_lim z ->
  let z' := prv_step dt mw p0 p1 p2 z in
  0 <= z_inlet z' <= z_lim z /\ (forall q0, 0 <= fst (prv_flux q0 q1 z')) /\
  (neps <= dt -> feps <= mw -> neps <= p0 -> z_inlet z' < z_lim z -> mw * fst (prv_flux p0 q1 z') * dt = z_buffer z / 5).
Proof.
  intros z dt mw p0 p1 p2 q1 B L. cbv zeta. destruct (prv_entries dt mw p0 p1 p2 z) as (E1 & _ & _). unfold prv_flux. cbn [fst]. rewrite E1.
  assert (I : 0 <= z_inlet (prv_step dt mw p0 p1 p2 z) <= z_lim z).
  { unfold prv_step. cbn [z_inlet]. unfold prv_inlet. rewrite limit_within by exact L. change (n0 : R) with 0. match goal with |- context [within 0 ?g _] => generalize g end. intro g. rmm. }
  split; [exact I|]. split; [intro; rewrite nmaxR; apply Rmax_l|]. intros D W P. revert I. unfold prv_step. cbn [z_inlet]. unfold prv_inlet. rewrite limit_within by exact L. rewrite nmaxR.
  pose proof fepsR as F. pose proof Reps_pos as F2.
  change (dt <~ neps) with (Rltb dt Reps). change (mw <~ feps) with (Rltb mw feps). change (p0 <~ neps) with (Rltb p0 Reps). change (neps : R) with Reps in *. rewrite !Rltb_false by lra. cbn [orb]. rnum.
  assert (K : 2 / 10 * z_buffer z / dt / mw / p0 * p0 * mw * dt = z_buffer z / 5) by (field; repeat split; lra).
  replace (Rdec 2 (-1)) with (2 / 10) by (unfold Rdec; cbn; lra).
  set (g := 2 / 10 * z_buffer z / dt / mw / p0) in *.
  assert (G : 0 <= g) by (unfold g; repeat (apply Rmult_le_pos; [|left; apply Rinv_0_lt_compat; lra]); lra). clearbody g.
  intros _ Q. assert (X : within 0 g (z_lim z) = g) by (revert Q; rmm). rewrite X. rewrite Rmax_right by (apply Rmult_le_pos; lra). rewrite <- K. ring.
Qed.
Print Assumptions C163_inlet.
(** The books of a step whose flows are not trifling: what went out more than came in is added to
    what the buffer is owed, as long as that is not less than nothing. *)
Theorem C163_ledger : forall (z : @prv R) dt mw q0 q1, let r := prv_flows dt mw q0 q1 z in let taken := fst (fst r) in let given := snd (fst r) in
  let limit := 100 * Reps in let fin := mw * fst (prv_flux q0 q1 z) in let fout := mw * snd (prv_flux q0 q1 z) in
  (fin = 0 \/ limit < fin) -> (fout = 0 \/ limit < fout) -> Reps <= z_buffer z + (fout - fin) * dt ->
  taken = fin /\ given = fout /\ z_buffer (snd r) - z_buffer z = (given - taken) * dt.
Proof.
  intros z dt mw q0 q1. cbv zeta. unfold prv_flows. cbn [fst snd z_buffer]. change (mw *~ fst (prv_flux q0 q1 z)) with (mw * fst (prv_flux q0 q1 z)). change (mw *~ snd (prv_flux q0 q1 z)) with (mw * snd (prv_flux q0 q1 z)).
  set (fin := mw * fst (prv_flux q0 q1 z)). set (fout := mw * snd (prv_flux q0 q1 z)). clearbody fin fout. intros A B C. pose proof Reps_pos as E.
  change (z_buffer z +~ (fout -~ fin) *~ dt) with (z_buffer z + (fout - fin) * dt). change (z_buffer z + (fout - fin) * dt <~ neps) with (Rltb (z_buffer z + (fout - fin) * dt) Reps). rewrite (Rltb_false (z_buffer z + (fout - fin) * dt) Reps) by exact C || lra.
  rewrite hundred_eps. change (100 * Reps <~ fin) with (Rltb (100 * Reps) fin). change (100 * Reps <~ fout) with (Rltb (100 * Reps) fout).
  assert (X : (if Rltb (100 * Reps) fin then fin else n0) = fin) by (destruct (Rltb_spec (100 * Reps) fin); [reflexivity|]; rnum; lra).
  assert (Y : (if Rltb (100 * Reps) fout then fout else n0) = fout) by (destruct (Rltb_spec (100 * Reps) fout); [reflexivity|]; rnum; lra).
  rewrite X, Y. repeat split. ring.
Qed.
Print Assumptions C163_ledger.
(** A valve that owes one and finds the inlet's pressure ten times as high when it flows takes two
    and is quit: mass is lost. *)
Definition prv0 : @prv R := mkprv false 0 1 5 false 0 100 0 0 1 0 false 0 0 0 false.
Theorem C163_overdraw_refuted : exists (z : @prv R) dt mw p0 p1 p2 q0 q1, feps <= mw /\ neps <= dt /\ neps <= p0 /\ 0 <= z_buffer z /\
  let r := prv_flows dt mw q0 q1 (prv_step dt mw p0 p1 p2 z) in
  fst (fst r) = 2 /\ snd (fst r) = 0 /\ z_buffer z = 1 /\ z_buffer (snd r) = 0.
Proof.
  exists prv0, 1, 10, 1, 2, 0, 10, 2. pose proof fepsR as F. pose proof Reps_pos as F1. pose proof Reps_small as F2.
  split; [lra|]. split; [change (neps : R) with Reps; lra|]. split; [change (neps : R) with Reps; lra|]. split; [cbn; lra|].
  destruct (prv_entries 1 10 1 2 0 prv0) as (E1 & E2 & E3).
  assert (C : z_cut (prv_step 1 10 1 2 0 prv0) = true) by (apply (C163_latch prv0 1 10 1 2 0); lra).
  assert (X : z_exit (prv_step 1 10 1 2 0 prv0) = 0) by (apply (C163_latch prv0 1 10 1 2 0); exact C).
  destruct (C163_inlet prv0 1 10 1 2 0 2) as (I1 & I2 & I3); [cbn; lra|cbn; lra|].
  assert (I : z_inlet (prv_step 1 10 1 2 0 prv0) = 1 / 50).
  { unfold prv_step. cbn [z_inlet]. unfold prv_inlet. rewrite limit_within by (cbn; rnum; lra). cbn [z_lim z_buffer prv0].
    change (1 <~ neps) with (Rltb 1 Reps). change (10 <~ feps) with (Rltb 10 feps). rewrite !Rltb_false by lra. cbn [orb]. rnum. replace (Rdec 2 (-1)) with (2 / 10) by (unfold Rdec; cbn; lra). rmm. }
  cbv zeta. unfold prv_flows, prv_flux. cbn [fst snd z_buffer]. rewrite E1, E2, E3, X, I. rewrite !nmaxR.
  change (z_buffer (prv_step 1 10 1 2 0 prv0)) with 1. change (z_buffer prv0) with 1. rnum. rewrite !Rmult_0_r, Rplus_0_r.
  rewrite (Rmax_left 0 0) by lra. rewrite (Rmax_right 0 (10 * (1 / 50))) by lra. replace (Rdec 100 0) with 100 by (unfold Rdec; cbn; lra).
  destruct (Rltb_spec (100 * Reps) (10 * (10 * (1 / 50)))); [|lra]. destruct (Rltb_spec (100 * Reps) (10 * 0)); [lra|].
  rewrite Rltb_true by lra. repeat split; lra.
Qed.
Print Assumptions C163_overdraw_refuted.
(** A trickle is not given to the exit but is taken from the inlet in time: the buffer is owed it. *)
Theorem C163_trickle_refuted : exists (z : @prv R) dt mw q0 q1, 0 <= z_buffer z /\ 0 < dt /\
  let r := prv_flows dt mw q0 q1 z in fst (fst r) = 0 /\ snd (fst r) = 0 /\ z_buffer z < z_buffer (snd r).
Proof.
  exists (mkprv false 0 1 5 false 0 100 0 0 1 0 false 0 0 (50 * Reps) false), 1, 1, 0, 0. pose proof Reps_pos as F1. pose proof Reps_small as F2. split; [cbn; lra|]. split; [lra|].
  cbv zeta. unfold prv_flows, prv_flux. cbn [fst snd z_buffer z_a0 z_a4 z_w1]. rewrite !nmaxR. rnum. replace (Rdec 100 0) with 100 by (unfold Rdec; cbn; lra).
  rewrite (Rmax_left 0 (0 * 0)) by lra. rewrite (Rmax_right 0) by lra.
  rewrite !Rltb_false by lra. repeat split; lra.
Qed.
Print Assumptions C163_trickle_refuted.
(** The solver is told of the step exactly when a conductance changed; so it is not told that the
    valve has moved to another node, which had it to be told. *)
Theorem C163_update : forall (z : @prv R) dt mw p0 p1 p2, let z' := prv_step dt mw p0 p1 p2 z in
  z_upd z' = false <-> z_a0 z = z_inlet z' /\ z_a4 z = z_exit z'.
Proof.
  intros z dt mw p0 p1 p2. cbv zeta. unfold prv_step. cbn [z_upd z_inlet z_exit]. set (i := prv_inlet z dt mw p0). set (x := prv_exit z (prv_cut z p0 p1) mw). clearbody i x.
  change (z_a0 z ==~ i) with (Reqb (z_a0 z) i). change (z_a4 z ==~ x) with (Reqb (z_a4 z) x).
  destruct (Reqb_spec (z_a0 z) i), (Reqb_spec (z_a4 z) x); cbn [negb orb]; split; intros; try reflexivity; try discriminate; try tauto.
Qed.
Print Assumptions C163_update.
Theorem C163_move_refuted : exists (z : @prv R) dt mw p0 p1 p2, z_upd z = true /\ 0 < z_exit z /\ z_upd (prv_step dt mw p0 p1 p2 z) = false.
Proof.
  pose proof fepsR as F.
  exists (mkprv false 0 1 5 false 0 100 0 1 0 0 false 0 1 0 true), 1, 1, 1, 0, 0. split; [reflexivity|]. split; [cbn; lra|]. apply C163_update.
  unfold prv_step. cbn [z_inlet z_exit z_a0 z_a4]. unfold prv_inlet, prv_exit, prv_cut. cbn [z_buffer z_lim z_set z_cut z_droop z_block].
  change (1 <~ 0) with (Rltb 1 0). change (0 <~ 5) with (Rltb 0 5). rewrite (Rltb_false 1 0), (Rltb_true 0 5) by lra. change (1 <~ feps) with (Rltb 1 feps). change (1 <~ neps) with (Rltb 1 Reps). pose proof Reps_small. rewrite !Rltb_false by lra. cbn [orb].
  set (e := feps : R) in *. clearbody e. assert (1 < 1 / e) by (unfold Rdiv; rewrite Rmult_1_l; rewrite <- Rinv_1 at 1; apply Rinv_lt_contravar; lra).
  rewrite !limit_within by (rnum; lra). rnum. split; [|replace (within e 1 (1 / e)) with 1 by (set (b := 1 / e) in *; clearbody b; rmm); field].
  replace (Rdec 2 (-1) * 0 / 1 / 1 / 1) with 0 by field. rmm.
Qed.
Print Assumptions C163_move_refuted.
Example C163_nonvacuous : exists (z : @prv R) dt mw p0, feps <= mw /\ feps <= z_droop z <= 1 / feps /\ z_block z = false /\ 0 <= z_buffer z /\ 0 <= z_lim z /\ neps <= dt /\ neps <= p0 /\ z_inlet (prv_step dt mw p0 0 0 z) < z_lim z.
Proof.
  exists prv0, 1, 10, 1. pose proof fepsR as F. pose proof Reps_small as F2. change (neps : R) with Reps. cbn [z_droop z_block z_buffer z_lim prv0].
  assert (1 < 1 / feps) by (unfold Rdiv; rewrite Rmult_1_l; rewrite <- Rinv_1 at 1; apply Rinv_lt_contravar; lra). repeat (split; [solve [lra | reflexivity]|]).
  unfold prv_step. cbn [z_inlet]. unfold prv_inlet. rewrite limit_within by (cbn; rnum; lra). cbn [z_lim z_buffer prv0].
  change (1 <~ neps) with (Rltb 1 Reps). change (10 <~ feps) with (Rltb 10 feps). rewrite !Rltb_false by lra. cbn [orb]. rnum. replace (Rdec 2 (-1)) with (2 / 10) by (unfold Rdec; cbn; lra). rmm.
Qed.
