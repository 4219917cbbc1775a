(** C170-C171: flow sources and capacitors of fluid networks. *)
From Coq Require Import Floats.
From Coq Require Import Reals Lra Lia List Arith Bool ZArith.
From Verif Require Import Num Ord MathUtil Props_Math Spec_Valve Props_Valve Props_Thermal FluidFlow Props_FluidFlow FluidCore.
Import ListNotations.
Local Open Scope R_scope.

(** ** C170: flow sources *)
(** The node whose fluid flows: the one it leaves, unless that is Ground. *)
Definition supplier (q : R) (g0 g1 : bool) (w0 w1 : R) : R :=
  if Rlt_dec q 0 then (if g1 then w0 else w1)
  else if Rlt_dec 0 q then (if g0 then w1 else w0) else w0.
Lemma supplier_eq (q w0 w1 : R) g0 g1 : (if from_port1 q g0 g1 then w1 else w0) = supplier q g0 g1 w0 w1.
Proof.
  unfold from_port1, supplier. change (q <~ n0) with (Rltb q 0). change (n0 <~ q) with (Rltb 0 q).
  destruct (Rlt_dec q 0) as [A|A].
  - rewrite (Rltb_true q 0 A). rewrite (Rltb_false 0 q) by lra. destruct g1; reflexivity.
  - rewrite (Rltb_false q 0) by lra. destruct (Rlt_dec 0 q) as [B|B].
    + rewrite (Rltb_true 0 q B). destruct g0; reflexivity.
    + rewrite (Rltb_false 0 q) by lra. reflexivity.
Qed.
Lemma supplier_scale q k g0 g1 w0 w1 : 0 < k -> supplier (q / k) g0 g1 w0 w1 = supplier q g0 g1 w0 w1.
Proof.
  intro K. assert (I : 0 < / k) by (apply Rinv_0_lt_compat; exact K). unfold supplier, Rdiv.
  destruct (Rlt_dec q 0) as [A|A]; [destruct (Rlt_dec (q * / k) 0); [reflexivity|nra]|].
  destruct (Rlt_dec (q * / k) 0); [nra|]. destruct (Rlt_dec 0 q); destruct (Rlt_dec 0 (q * / k)); try reflexivity; nra.
Qed.
Definition demanded (demand : R) (block : bool) (bv : R) : R := if block then demand * (1 - bv) else demand.
Lemma demand_eq demand block bv : src_demand demand block bv = demanded demand block bv.
Proof. reflexivity. Qed.
(** What the step puts in the network and what the transport then reports. *)
Theorem C170_moved : forall demand block bv internal w0 w1 r0 r1 g0 g1,
  let q := src_demand demand block bv in
  let s := supplier q g0 g1 w0 w1 in
  let w := match internal with Some w => w | None => s end in
  let f := src_flux internal w0 w1 g0 g1 q in
  q = demanded demand block bv /\
  (Reps < w ->
     f = q / w /\ fst (src_rates w0 w1 r0 r1 g0 g1 f) = q * (s / w) /\
     (Reps < supplier q g0 g1 r0 r1 -> snd (src_rates w0 w1 r0 r1 g0 g1 f) * supplier q g0 g1 r0 r1 = q * (s / w))) /\
  (w <= Reps -> f = 0 /\ src_rates w0 w1 r0 r1 g0 g1 f = (0, 0)) /\
  src_vector f = (- f, f).
Proof.
  intros demand block bv internal w0 w1 r0 r1 g0 g1. cbv zeta. split; [reflexivity|].
  set (q := src_demand demand block bv). clearbody q. set (s := supplier q g0 g1 w0 w1).
  set (w := match internal with Some w => w | None => s end). pose proof Reps_pos as E0.
  assert (F : src_flux internal w0 w1 g0 g1 q = if Rltb Reps w then q / w else 0).
  { unfold src_flux. unfold w, s. rewrite supplier_eq. reflexivity. }
  rewrite F. split; [|split; [|reflexivity]].
  - intro W. rewrite (Rltb_true Reps w W). split; [reflexivity|].
    unfold src_rates. cbn [fst snd]. rewrite !supplier_eq. rewrite !supplier_scale by lra. fold s.
    split; [rnum; field; lra|]. intro Q. change (neps <~ supplier q g0 g1 r0 r1) with (Rltb Reps (supplier q g0 g1 r0 r1)).
    rewrite (Rltb_true _ _ Q). rnum. field. split; lra.
  - intro W. rewrite (Rltb_false Reps w W). split; [reflexivity|]. unfold src_rates. rewrite !supplier_eq.
    change (0 *~ supplier 0 g0 g1 w0 w1) with (0 * supplier 0 g0 g1 w0 w1). rewrite Rmult_0_l.
    destruct (neps <~ supplier 0 g0 g1 r0 r1); [|reflexivity].
    change (0 /~ supplier 0 g0 g1 r0 r1) with (0 * / supplier 0 g0 g1 r0 r1). rewrite Rmult_0_l. reflexivity.
Qed.
Print Assumptions C170_moved.
(** A source without a fluid of its own moves what it is asked to. *)
Theorem C170_met : forall demand w0 w1 r0 r1 g0 g1, Reps < supplier demand g0 g1 w0 w1 ->
  fst (src_rates w0 w1 r0 r1 g0 g1 (src_flux None w0 w1 g0 g1 (src_demand demand false 0))) = demand.
Proof.
  intros demand w0 w1 r0 r1 g0 g1 W. pose proof Reps_pos as E0.
  destruct (C170_moved demand false 0 None w0 w1 r0 r1 g0 g1) as (_ & M & _). destruct (M W) as (_ & Q & _).
  change (src_demand demand false 0) with demand in *. rewrite Q. field. lra.
Qed.
Print Assumptions C170_met.
Example C170_met_nonvacuous : Reps < supplier (-3) false false 28 32.
Proof. pose proof Reps_small. unfold supplier. destruct (Rlt_dec (-3) 0); lra. Qed.
(** The flow is scheduled out of the node it leaves, and out of no other. *)
Theorem C170_schedule : forall f : R,
  (Reps < f -> src_schedule f = (f, 0)) /\ (f < - Reps -> src_schedule f = (0, - f)) /\
  (- Reps <= f <= Reps -> src_schedule f = (0, 0)).
Proof.
  intro f. pose proof Reps_pos as E0. unfold src_schedule. change (neps <~ f) with (Rltb Reps f).
  change (f <~ nopp neps) with (Rltb f (- Reps)). repeat split; intro H.
  - rewrite (Rltb_true _ _ H). reflexivity.
  - rewrite (Rltb_false Reps f) by lra. rewrite (Rltb_true _ _ H). reflexivity.
  - rewrite (Rltb_false Reps f), (Rltb_false f (- Reps)) by lra. reflexivity.
Qed.
Print Assumptions C170_schedule.
(** A blockage from none to all leaves that much of the demand. *)
Theorem C170_blocked : forall demand bv, 0 <= bv <= 1 ->
  Rabs (src_demand demand true bv) = (1 - bv) * Rabs demand /\ src_demand demand true 1 = 0.
Proof.
  intros demand bv B. unfold src_demand. rnum. split; [|lra]. rewrite Rabs_mult, (Rabs_right (1 - bv)) by lra. lra.
Qed.
Print Assumptions C170_blocked.
(** The blockage is not limited: above 1 it reverses the flow. *)
Theorem C170_blocked_refuted : exists demand bv : R, 0 < demand /\ 0 <= bv /\ src_demand demand true bv < 0.
Proof. exists 1, 2. unfold src_demand. rnum. lra. Qed.
Print Assumptions C170_blocked_refuted.
(** With a fluid of its own the flux is the demand over that fluid's weight, and what is moved is
    the node's fluid: a demand of 1 kg/s moves 2 kg/s. *)
Theorem C170_internal_refuted : exists demand wi w0 : R, Reps < wi /\ Reps < w0 /\ 0 < demand /\
  fst (src_rates w0 w0 1 1 false false (src_flux (Some wi) w0 w0 false false demand)) = 2 * demand.
Proof.
  exists 1, 16, 32. pose proof Reps_small as E1. split; [lra|]. split; [lra|]. split; [lra|].
  destruct (C170_moved 1 false 0 (Some 16) 32 32 1 1 false false) as (_ & M & _).
  change (src_demand 1 false 0) with 1 in M. destruct M as (_ & Q & _); [lra|]. rewrite Q.
  unfold supplier. destruct (Rlt_dec 1 0); [lra|]. destruct (Rlt_dec 0 1); lra.
Qed.
Print Assumptions C170_internal_refuted.

(** ** C171: capacitors *)
Lemma core_feps : 0 < (feps : R) < 1 / 10.
Proof.
  unfold feps. rnum. unfold Rdec. cbn [Z.leb Z.compare]. split; [apply Rdiv_lt_0_compat; apply IZR_lt; reflexivity|].
  apply (Rmult_lt_reg_r (IZR (10 ^ 23))); [apply IZR_lt; reflexivity|]. unfold Rdiv. rewrite Rmult_assoc, Rinv_l by (apply not_0_IZR; discriminate). rewrite Rmult_1_r.
  apply (Rmult_lt_reg_l 10); [lra|]. replace (10 * (1 * / 10 * IZR (10 ^ 23))) with (IZR (10 ^ 23)) by lra. rewrite <- mult_IZR. apply IZR_lt. reflexivity.
Qed.
(** The moles by which a node's contents exceed what its new volume holds, and what a change of
    temperature amounts to, both at constant pressure. *)
Definition squeezed (n : @cnode R) (v : R) : R := d_rho (c_f n) * (c_pvol n - v) / d_mw (c_f n).
Definition warmed (rho : R -> R -> R) (n : @cnode R) (v : R) : R :=
  let t := Rmax feps (d_t (c_f n)) in
  (rho (t * (999 / 1000)) (d_p (c_f n)) - rho (t * (1001 / 1000)) (d_p (c_f n))) * v
  / (d_mw (c_f n) * (t * (1001 / 1000) - t * (999 / 1000))) * (d_t (c_f n) - c_pt n).
Lemma dec999 : (ndec 999 (-3) : R) = 999 / 1000. Proof. rnum. unfold Rdec. cbn. lra. Qed.
Lemma dec1001 : (ndec 1001 (-3) : R) = 1001 / 1000. Proof. rnum. unfold Rdec. cbn. lra. Qed.
Lemma warm_eq rho (n : @cnode R) : warm rho n = (warmed rho n (c_vol n), mkcnode (c_f n) (c_vol n) (c_pvol n) (d_t (c_f n))).
Proof.
  unfold warm, warmed. rewrite dec999, dec1001. change (d_t (c_f n) <~ feps) with (Rltb (d_t (c_f n)) feps).
  assert (M : (if Rltb (d_t (c_f n)) feps then feps else d_t (c_f n)) = Rmax feps (d_t (c_f n))).
  { destruct (Rltb_spec (d_t (c_f n)) feps) as [A|A]; [rewrite Rmax_left by lra|rewrite Rmax_right by lra]; reflexivity. }
  rewrite M. reflexivity.
Qed.
Lemma cap_admR dt c a u : cap_adm dt c a u =
  (c / Rmax Reps dt, if Req_EM_T a (c / Rmax Reps dt) then u else true).
Proof.
  unfold cap_adm. change (dt <~ neps) with (Rltb dt Reps).
  assert (M : (if Rltb dt Reps then c /~ neps else c /~ dt) = c / Rmax Reps dt).
  { destruct (Rltb_spec dt Reps) as [A|A]; [rewrite Rmax_left by lra|rewrite Rmax_right by lra]; reflexivity. }
  rewrite M. set (g := c / Rmax Reps dt). clearbody g. change (n0 <~ nabs (a -~ g)) with (Rltb 0 (Rabs (a - g))).
  destruct (Req_EM_T a g) as [E|E].
  - subst. rewrite Rltb_false; [reflexivity|]. rewrite Rminus_diag_eq by reflexivity. rewrite Rabs_R0. lra.
  - rewrite Rltb_true; [reflexivity|]. apply Rabs_pos_lt. lra.
Qed.
Lemma edit_node (k : @fcap R) (n : @cnode R) v : v = (if k_edit k then k_ev k else c_vol n) -> 0 <= v ->
  (if k_edit k then init_vol n (k_ev k) else Some n) =
  Some (mkcnode (c_f n) v (if k_edit k then v else c_pvol n) (c_pt n)).
Proof.
  intros -> V. destruct (k_edit k).
  - unfold init_vol. change (k_ev k <~ n0) with (Rltb (k_ev k) 0). rewrite Rltb_false by exact V. reflexivity.
  - destruct n; reflexivity.
Qed.
Lemma set_volR (n : @cnode R) v : 0 < v -> c_pvol n <> 0 -> set_vol n v = Some (mkcnode (c_f n) v (c_pvol n) (c_pt n)).
Proof.
  intros V P. unfold set_vol. change (v <~ n0) with (Rltb v 0). rewrite Rltb_false by lra.
  change (n0 ==~ v) with (Reqb 0 v). change (n0 ==~ c_pvol n) with (Reqb 0 (c_pvol n)).
  destruct (Reqb_spec 0 v); [lra|]. destruct (Reqb_spec 0 (c_pvol n)); [congruence|]. reflexivity.
Qed.
(** One step: an edited volume replaces the node's without compressing it; the conductance is the
    capacitance over the time step and the flag is raised for a change; at the solved pressures the
    flux is what the change of pressure stores, less what the change of volume and of temperature
    make room for. *)
Theorem C171_step : forall dt vol corr rho (k : @fcap R) (n : @cnode R) v0 v pv,
  v0 = (if k_edit k then k_ev k else c_vol n) -> 0 <= v0 ->
  v = vol v0 -> vol v = v -> 0 < v -> pv = (if k_edit k then v0 else c_pvol n) -> 0 < pv ->
  exists k' n', cap_step dt vol corr rho k n = Some (k', n') /\
  n' = mkcnode (c_f n) v v (if Rlt_dec Reps dt then d_t (c_f n) else c_pt n) /\
  k_edit k' = false /\ k_c k' = capacitance (c_f n) (rho (d_t (c_f n))) v /\
  k_p0 k' = k_p0 k + (if k_nocorr k then 0 else corr) /\
  k_a k' = k_c k' / Rmax Reps dt /\ k_upd k' = (if Req_EM_T (k_a k) (k_a k') then k_upd k else true) /\
  forall p0 p1, cap_flux k' p0 p1 =
    k_c k' / Rmax Reps dt * ((p0 - p1) - (k_p0 k' - k_p1 k))
    - d_rho (c_f n) * (pv - v) / d_mw (c_f n) - (if Rlt_dec Reps dt then warmed rho n v / dt else 0).
Proof.
  intros dt vol corr rho k n v0 v pv Hv0 V0 Hv Hid V Hpv PV.
  unfold cap_step. rewrite (edit_node k n v0 Hv0 V0). cbn [c_vol]. rewrite <- Hv. rewrite set_volR; [|exact V|cbn [c_pvol]].
  2:{ destruct (k_edit k); lra. }
  cbn [c_f c_vol c_pvol c_pt]. rewrite Hid. set (c := capacitance (c_f n) (rho (d_t (c_f n))) v). clearbody c.
  rewrite cap_admR. unfold squeeze. cbn [c_f c_vol c_pvol c_pt with_vols].
  assert (P0 : (if k_nocorr k then k_p0 k else k_p0 k +~ corr) = k_p0 k + (if k_nocorr k then 0 else corr)).
  { destruct (k_nocorr k); rnum; lra. }
  rewrite P0. replace (if k_edit k then v0 else c_pvol n) with pv by (rewrite Hpv; reflexivity).
  change (neps <~ dt) with (Rltb Reps dt). destruct (Rltb_spec Reps dt) as [D|D]; destruct (Rlt_dec Reps dt) as [D'|D']; try lra.
  - rewrite warm_eq. cbn [c_f c_vol c_pvol c_pt with_vols]. eexists. eexists. split; [reflexivity|]. cbn [k_edit k_c k_p0 k_a k_upd].
    repeat split. intros p0 p1. unfold cap_flux. cbn [k_a k_w0].
    match goal with |- context [warmed rho ?m v] => change (warmed rho m v) with (warmed rho n v) end.
    rnum. ring.
  - eexists. eexists. split; [reflexivity|]. cbn [k_edit k_c k_p0 k_a k_upd].
    repeat split. intros p0 p1. unfold cap_flux. cbn [k_a k_w0]. rnum. ring.
Qed.
Print Assumptions C171_step.

(** A volume below zero, edited or computed, is refused. *)
Theorem C171_refused : forall dt vol corr rho (k : @fcap R) (n : @cnode R),
  (k_edit k = true /\ k_ev k < 0) \/ (k_edit k = false /\ vol (c_vol n) < 0) -> cap_step dt vol corr rho k n = None.
Proof.
  intros dt vol corr rho k n H. unfold cap_step. destruct H as [[E V]|[E V]]; rewrite E.
  - unfold init_vol. change (k_ev k <~ n0) with (Rltb (k_ev k) 0). rewrite Rltb_true by exact V. reflexivity.
  - unfold set_vol. change (vol (c_vol n) <~ n0) with (Rltb (vol (c_vol n)) 0). rewrite Rltb_true by exact V. reflexivity.
Qed.
Print Assumptions C171_refused.
Example C171_refused_nonvacuous : exists (k : @fcap R) (n : @cnode R), k_edit k = true /\ k_ev k < 0.
Proof. exists (mkfcap 0 0 false 0 0 0 true (-1) false), (mkcnode (gasAt 1 28) 1 1 300). cbn [k_edit k_ev]. split; [reflexivity|lra]. Qed.

(** An ideal gas in a node, and its solved pressure when [q] moles per second flow in. *)
Definition gasrho (rg mw t p : R) : R := p * mw / (rg * t).
Theorem C171_gas : forall dt corr rg (k : @fcap R) (n : @cnode R) v q p,
  Reps < dt -> 0 < rg -> feps <= d_t (c_f n) -> 0 < d_mw (c_f n) ->
  d_rho (c_f n) = gasrho rg (d_mw (c_f n)) (d_t (c_f n)) (d_p (c_f n)) ->
  k_edit k = false -> k_nocorr k = false -> k_p1 k = 0 -> k_p0 k = d_p (c_f n) -> 0 <= c_vol n -> 0 < v -> 0 < c_pvol n ->
  exists k' n', cap_step dt (fun _ => v) corr (gasrho rg (d_mw (c_f n))) k n = Some (k', n') /\
  k_c k' = v / (rg * d_t (c_f n)) /\
  (cap_flux k' p 0 = q <->
   p = d_p (c_f n) + corr + rg * d_t (c_f n) / v * (q * dt) + dt * (d_p (c_f n) * (c_pvol n - v) / v)
       + d_p (c_f n) * (d_t (c_f n) - c_pt n) / (d_t (c_f n) * (999999 / 1000000))).
Proof.
  intros dt corr rg k n v q p D RG TT MW RHO E NC P1 P0 CV V PV.
  pose proof Reps_pos as E0. pose proof core_feps as [FE _].
  destruct (C171_step dt (fun _ => v) corr (gasrho rg (d_mw (c_f n))) k n (c_vol n) v (c_pvol n)) as (k' & n' & S1 & S2 & S3 & S4 & S5 & S6 & S7 & S8);
    rewrite ?E; try assumption; try reflexivity.
  exists k', n'. split; [exact S1|].
  assert (C : k_c k' = v / (rg * d_t (c_f n))).
  { rewrite S4. unfold capacitance. rewrite dec999, dec1001. change (d_p (c_f n) <~ feps) with (Rltb (d_p (c_f n)) feps).
    set (p0 := if Rltb (d_p (c_f n)) feps then feps else d_p (c_f n)).
    assert (Q : 0 < p0) by (unfold p0; destruct (Rltb_spec (d_p (c_f n)) feps); [exact FE|eapply Rlt_le_trans; [exact FE|lra]]).
    clearbody p0. rewrite nmaxR. unfold gasrho. rnum.
    assert (X : (p0 * (1001 / 1000) * d_mw (c_f n) / (rg * d_t (c_f n)) - p0 * (999 / 1000) * d_mw (c_f n) / (rg * d_t (c_f n))) * v /
                (d_mw (c_f n) * (p0 * (1001 / 1000) - p0 * (999 / 1000))) = v / (rg * d_t (c_f n))).
    { field. repeat split; lra. }
    rewrite X. apply Rmax_right. apply Rmult_le_pos; [lra|]. left. apply Rinv_0_lt_compat. apply Rmult_lt_0_compat; lra. }
  split; [exact C|]. rewrite S8, C, S5, P1, P0, RHO, NC. rewrite Rmax_right by lra.
  destruct (Rlt_dec Reps dt) as [D'|D']; [|lra]. unfold warmed. cbv zeta. rewrite Rmax_right by exact TT. unfold gasrho.
  set (t := d_t (c_f n)) in *. set (mw := d_mw (c_f n)) in *. set (pp := d_p (c_f n)) in *. set (pt := c_pt n). set (pv := c_pvol n) in *.
  assert (T0 : 0 < t) by lra. clearbody t mw pp pt pv. clear -D E0 RG MW V PV T0.
  assert (X : v / (rg * t) / dt * (p - 0 - (pp + corr - 0)) - pp * mw / (rg * t) * (pv - v) / mw -
    (pp * mw / (rg * (t * (999 / 1000))) - pp * mw / (rg * (t * (1001 / 1000)))) * v / (mw * (t * (1001 / 1000) - t * (999 / 1000))) * (t - pt) / dt
    = v / (rg * t) / dt * (p - (pp + corr + dt * (pp * (pv - v) / v) + pp * (t - pt) / (t * (999999 / 1000000))))).
  { field. repeat split; lra. }
  rewrite X. split; intro H.
  - rewrite <- H. field. repeat split; lra.
  - rewrite H. field. repeat split; lra.
Qed.
Print Assumptions C171_gas.

(** Over a step of one second, a sealed gas that is not warmed keeps pressure times volume. *)
Theorem C171_boyle : forall rg (k : @fcap R) (n : @cnode R) v k' n' p,
  0 < rg -> feps <= d_t (c_f n) -> 0 < d_mw (c_f n) ->
  d_rho (c_f n) = gasrho rg (d_mw (c_f n)) (d_t (c_f n)) (d_p (c_f n)) ->
  k_edit k = false -> k_nocorr k = false -> k_p1 k = 0 -> k_p0 k = d_p (c_f n) -> 0 <= c_vol n -> 0 < v -> 0 < c_pvol n ->
  c_pt n = d_t (c_f n) -> cap_step 1 (fun _ => v) 0 (gasrho rg (d_mw (c_f n))) k n = Some (k', n') -> cap_flux k' p 0 = 0 ->
  p * v = d_p (c_f n) * c_pvol n.
Proof.
  intros rg k n v k' n' p RG TT MW RHO E NC P1 P0 CV V PV PT HS F. pose proof Reps_small as E1.
  assert (D : Reps < 1) by lra.
  destruct (C171_gas 1 0 rg k n v 0 p D RG TT MW RHO E NC P1 P0 CV V PV) as (k2 & n2 & S1 & _ & S3).
  rewrite HS in S1. inversion S1; subst k2 n2. apply S3 in F. rewrite F, PT. replace (d_t (c_f n) - d_t (c_f n)) with 0 by ring. field.
  split; [|lra]. pose proof core_feps as [FE _]. intro Z. rewrite Z in TT. lra.
Qed.
Print Assumptions C171_boyle.
Definition sealed (pt : R) : @cnode R := mkcnode (mkfl 100 300 (gasrho (8314 / 1000) 28 300 100) 28 true (7 / 5) 1 1) 2 2 pt.
Definition vessel : @fcap R := mkfcap 0 0 false 100 0 0 false 0 false.
Example C171_boyle_nonvacuous : exists k' n' p, cap_step 1 (fun _ => 1) 0 (gasrho (8314 / 1000) 28) vessel (sealed 300) = Some (k', n') /\
  cap_flux k' p 0 = 0 /\ p = 200.
Proof.
  pose proof Reps_small as E1. pose proof core_feps as F1.
  destruct (C171_gas 1 0 (8314 / 1000) vessel (sealed 300) 1 0 200) as (k' & n' & S1 & _ & S3);
    cbn [c_f c_vol c_pvol c_pt sealed d_t d_mw d_rho d_p vessel k_edit k_nocorr k_p1 k_p0]; try lra; try reflexivity.
  exists k', n', 200. split; [exact S1|]. split; [|reflexivity]. apply S3. cbn [c_f c_vol c_pvol c_pt sealed d_t d_mw d_rho d_p]. lra.
Qed.
(** Over another time step it does not: the compression enters the source vector in moles, not
    divided by the time step.  Halving the volume in a tenth of a second makes 110 kPa of 100. *)
Theorem C171_boyle_refuted : exists dt k' n' p, Reps < dt /\
  cap_step dt (fun _ => 1) 0 (gasrho (8314 / 1000) 28) vessel (sealed 300) = Some (k', n') /\
  cap_flux k' p 0 = 0 /\ d_p (c_f (sealed 300)) * c_pvol (sealed 300) = 200 /\ p * c_vol n' = 110.
Proof.
  pose proof Reps_small as E1. pose proof core_feps as F1.
  destruct (C171_gas (1 / 10) 0 (8314 / 1000) vessel (sealed 300) 1 0 110) as (k' & n' & S1 & _ & S3);
    cbn [c_f c_vol c_pvol c_pt sealed d_t d_mw d_rho d_p vessel k_edit k_nocorr k_p1 k_p0]; try lra; try reflexivity.
  destruct (C171_step (1 / 10) (fun _ => 1) 0 (gasrho (8314 / 1000) 28) vessel (sealed 300) 2 1 2) as (k2 & n2 & T1 & T2 & _);
    cbn [c_f c_vol c_pvol c_pt sealed vessel k_edit]; try lra.
  change (gasrho (8314 / 1000) (d_mw (c_f (sealed 300)))) with (gasrho (8314 / 1000) 28) in S1.
  assert (Q : n2 = n') by congruence. rewrite Q in T2.
  exists (1 / 10), k', n', 110. split; [lra|]. split; [exact S1|]. split.
  - apply S3. cbn [c_f c_vol c_pvol c_pt sealed d_t d_mw d_rho d_p]. lra.
  - rewrite T2. cbn [c_f c_vol c_pvol c_pt sealed d_t d_mw d_rho d_p]. lra.
Qed.
Print Assumptions C171_boyle_refuted.
