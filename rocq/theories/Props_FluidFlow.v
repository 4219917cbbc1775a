(** C154-C156: the flow equation of a fluid conductor and its tuning, expansion cooling, heat. *)
From Coq Require Import Floats.
From Coq Require Import Reals Lra Lia List Arith Bool ZArith.
From Verif Require Import Num Ord Loops MathUtil Props_Math Spec_Valve Props_Valve Props_Thermal FluidFlow.
Import ListNotations.
Local Open Scope R_scope.

(** The real power function: zero of a base that is not positive. *)
Definition powR (x y : R) : R := if Rlt_dec 0 x then Rpower x y else 0.
Notation admR := (admittance sqrt powR).
Notation predR := (predict_cond sqrt powR).

Lemma halfR : (half : R) = 1 / 2. Proof. unfold half. rnum. unfold Rdec. cbn. lra. Qed.
Lemma kpaR : (pa_per_kpa : R) = 1000. Proof. unfold pa_per_kpa. rnum. unfold Rdec. cbn. lra. Qed.
Lemma limit_expR (e : R) : limit_exp e = within (1 / 2) e 1.
Proof. unfold limit_exp. rewrite limit_within; rewrite halfR; rnum; lra. Qed.
Lemma expR_range e : 1 / 2 <= within (1 / 2) e 1 <= 1.
Proof. unfold within, Rmin, Rmax. destruct (Rle_dec e 1); destruct (Rle_dec _ _); lra. Qed.
Lemma powR_half x : 0 <= x -> powR x (1 / 2) = sqrt x.
Proof.
  intro H. unfold powR. destruct (Rlt_dec 0 x) as [P|P]; [replace (1 / 2) with (/ 2) by lra; apply Rpower_sqrt; exact P|].
  replace x with 0 by lra. symmetry. exact sqrt_0.
Qed.
Lemma powR_one x : 0 <= x -> powR x 1 = x.
Proof. intro H. unfold powR. destruct (Rlt_dec 0 x) as [P|P]; [apply Rpower_1; exact P|lra]. Qed.
Lemma powR_pos x y : 0 < x -> 0 < powR x y.
Proof. intro H. unfold powR. destruct (Rlt_dec 0 x); [unfold Rpower; apply exp_pos|lra]. Qed.
Lemma powR_nonneg x y : 0 <= powR x y.
Proof. unfold powR. destruct (Rlt_dec 0 x); [left; unfold Rpower; apply exp_pos|lra]. Qed.
Lemma law_eq (k x e : R) : 0 <= x ->
  (if half ==~ limit_exp e then k *~ sqrt x else if n1 ==~ limit_exp e then k *~ x else k *~ powR x (limit_exp e)) =
  k * powR x (within (1 / 2) e 1).
Proof.
  intro H. rewrite limit_expR. change (half ==~ within (1 / 2) e 1) with (Reqb half (within (1 / 2) e 1)).
  change (n1 ==~ within (1 / 2) e 1) with (Reqb 1 (within (1 / 2) e 1)). rewrite halfR. rnum.
  destruct (Reqb_spec (1 / 2) (within (1 / 2) e 1)) as [E|E]; [rewrite <- E, powR_half by exact H; reflexivity|].
  destruct (Reqb_spec 1 (within (1 / 2) e 1)) as [F|F]; [rewrite <- F, powR_one by exact H; reflexivity|reflexivity].
Qed.

(** ** C154: the flow equation *)
(** The pressure the equation is linearised at, the molecular weight and the density it uses. *)
Definition lin_drop (minp : R) (a b : @fl R) : R := Rmax minp (Rabs (d_p a - d_p b)).
Definition flow_mw (a b : @fl R) : R :=
  if Rlt_dec (d_mw a) Reps then d_mw b else if Rlt_dec (d_mw b) Reps then d_mw a else (d_mw a + d_mw b) / 2.
Definition flow_rho (a b : @fl R) : R := (d_rho a + d_rho b) / 2.
(** The mass flow of a conductor: conductivity times a power of the density times the drop (Pa). *)
Definition flow_law (k rho dp e : R) : R := k * powR (rho * (1000 * dp)) (within (1 / 2) e 1).

Lemma use_mwR (a b : @fl R) : use_mw a b = flow_mw a b.
Proof.
  unfold use_mw, flow_mw. change (d_mw a <~ neps) with (Rltb (d_mw a) Reps). change (d_mw b <~ neps) with (Rltb (d_mw b) Reps). rewrite halfR.
  destruct (Rltb_spec (d_mw a) Reps), (Rlt_dec (d_mw a) Reps); try lra. destruct (Rltb_spec (d_mw b) Reps), (Rlt_dec (d_mw b) Reps); try lra. rnum. lra.
Qed.
Lemma rhoR (a b : @fl R) : mean_density a b = flow_rho a b.
Proof. unfold mean_density, flow_rho. rewrite halfR. rnum. lra. Qed.
Lemma dropR (minp : R) (a b : @fl R) : nmax minp (nabs (d_p a -~ d_p b)) = lin_drop minp a b.
Proof. rewrite nmaxR. reflexivity. Qed.

Theorem C154_admittance : forall k minp (a b : @fl R) e, 0 <= flow_rho a b ->
  Reps < lin_drop minp a b -> Reps < flow_mw a b ->
  admR k minp a b e * lin_drop minp a b * flow_mw a b = flow_law k (flow_rho a b) (lin_drop minp a b) e.
Proof.
  intros k minp a b e H1 H2 H3. unfold admittance. rewrite dropR, use_mwR, rhoR, kpaR.
  change (neps <~ lin_drop minp a b) with (Rltb Reps (lin_drop minp a b)). change (neps <~ flow_mw a b) with (Rltb Reps (flow_mw a b)).
  pose proof Reps_pos as E. rewrite !Rltb_true by assumption. cbn [andb].
  rewrite law_eq by (rnum; apply Rmult_le_pos; lra). unfold flow_law. rnum. field. lra.
Qed.
Print Assumptions C154_admittance.

Theorem C154_closed : forall k minp (a b : @fl R) e,
  lin_drop minp a b <= Reps \/ flow_mw a b <= Reps \/ k = 0 -> admR k minp a b e = 0.
Proof.
  intros k minp a b e H. unfold admittance. rewrite dropR, use_mwR.
  change (neps <~ lin_drop minp a b) with (Rltb Reps (lin_drop minp a b)). change (neps <~ flow_mw a b) with (Rltb Reps (flow_mw a b)).
  destruct (Rltb_spec Reps (lin_drop minp a b)) as [A|A], (Rltb_spec Reps (flow_mw a b)) as [B|B]; cbn [andb]; try reflexivity.
  destruct H as [H|[H|H]]; try lra. subst k. rnum. destruct (Reqb _ _); [|destruct (Reqb _ _)]; unfold Rdiv; ring.
Qed.
Print Assumptions C154_closed.

(** A conductivity is never below zero and more of it conducts more, in proportion. *)
Theorem C154_scales : forall k c minp (a b : @fl R) e, 0 <= flow_rho a b -> admR (c * k) minp a b e = c * admR k minp a b e /\
  (0 <= k -> 0 <= admR k minp a b e).
Proof.
  intros k c minp a b e H1. unfold admittance. rewrite dropR, use_mwR, rhoR, kpaR.
  change (neps <~ lin_drop minp a b) with (Rltb Reps (lin_drop minp a b)). change (neps <~ flow_mw a b) with (Rltb Reps (flow_mw a b)).
  pose proof Reps_pos as E.
  destruct (Rltb_spec Reps (lin_drop minp a b)) as [A|A], (Rltb_spec Reps (flow_mw a b)) as [B|B]; cbn [andb]; try (split; intros; rnum; lra).
  assert (P : 0 <= flow_rho a b *~ (1000 *~ lin_drop minp a b)) by (rnum; apply Rmult_le_pos; lra).
  rewrite !law_eq by exact P. rnum. split; [unfold Rdiv; ring|]. intro K.
  pose proof (powR_nonneg (flow_rho a b * (1000 * lin_drop minp a b)) (within (1 / 2) e 1)) as Q.
  apply Rmult_le_pos; [|left; apply Rinv_0_lt_compat; lra]. apply Rmult_le_pos; [apply Rmult_le_pos; assumption|left; apply Rinv_0_lt_compat; lra].
Qed.
Print Assumptions C154_scales.

Lemma predict_eq m minp (a b : @fl R) e : Reps < Rabs (d_p a - d_p b) -> Reps < flow_rho a b ->
  predR m minp a b e = Rabs m / powR (flow_rho a b * (1000 * lin_drop minp a b)) (within (1 / 2) e 1).
Proof.
  intros H1 H2. unfold predict_cond. rewrite rhoR, kpaR. change (nabs (d_p a -~ d_p b)) with (Rabs (d_p a - d_p b)).
  change (neps <~ Rabs (d_p a - d_p b)) with (Rltb Reps (Rabs (d_p a - d_p b))). change (neps <~ flow_rho a b) with (Rltb Reps (flow_rho a b)).
  rewrite !Rltb_true by assumption. cbn [andb].
  assert (E : (if Rabs (d_p a - d_p b) <~ minp then minp else Rabs (d_p a - d_p b)) = lin_drop minp a b).
  { change (Rabs (d_p a - d_p b) <~ minp) with (Rltb (Rabs (d_p a - d_p b)) minp). unfold lin_drop, Rmax.
    destruct (Rltb_spec (Rabs (d_p a - d_p b)) minp), (Rle_dec minp (Rabs (d_p a - d_p b))); lra. }
  rewrite E. assert (X : 1000 *~ lin_drop minp a b *~ flow_rho a b = flow_rho a b * (1000 * lin_drop minp a b)) by (rnum; ring). rewrite X.
  pose proof Reps_pos as E0. assert (L : Reps < lin_drop minp a b) by (unfold lin_drop; pose proof (Rmax_r minp (Rabs (d_p a - d_p b))); lra).
  assert (P : 0 <= flow_rho a b * (1000 * lin_drop minp a b)) by (apply Rmult_le_pos; lra).
  rewrite limit_expR. rewrite halfR. rnum.
  destruct (Reqb_spec (1 / 2) (within (1 / 2) e 1)) as [Q|Q]; [rewrite <- Q, powR_half by exact P; reflexivity|].
  destruct (Reqb_spec 1 (within (1 / 2) e 1)) as [Q'|Q']; [|reflexivity].
  rewrite <- Q'. rewrite powR_one by exact P. reflexivity.
Qed.

(** The conductivity predicted for a mass flow gives that flow, at the pressure the equation is
    linearised at. *)
Theorem C154_predict : forall m minp (a b : @fl R) e, Reps < Rabs (d_p a - d_p b) -> Reps < flow_rho a b -> Reps < flow_mw a b ->
  admR (predR m minp a b e) minp a b e * lin_drop minp a b * flow_mw a b = Rabs m /\ 0 <= predR m minp a b e.
Proof.
  intros m minp a b e H1 H2 H3. pose proof Reps_pos as E0.
  assert (L : Reps < lin_drop minp a b) by (unfold lin_drop; pose proof (Rmax_r minp (Rabs (d_p a - d_p b))); lra).
  rewrite C154_admittance by lra. unfold flow_law. rewrite predict_eq by assumption.
  assert (P : 0 < powR (flow_rho a b * (1000 * lin_drop minp a b)) (within (1 / 2) e 1)).
  { apply powR_pos. apply Rmult_lt_0_compat; lra. }
  split; [field; lra|]. apply Rmult_le_pos; [apply Rabs_pos|left; apply Rinv_0_lt_compat; exact P].
Qed.
Print Assumptions C154_predict.

(** One step of a conductor that is not being tuned: the conductance in the network is the flow
    equation's for what is left of its conductivity, within its limits; the flag is raised for a
    change. *)
Definition unblocked (q : @conductor R) : R := if q_block q then 1 - q_blockv q else 1.
Notation stepR := (cond_step sqrt powR).
Theorem C154_step : forall state (q : @conductor R) (a b : @fl R), q_tune q = T_OFF -> 0 <= q_lim q ->
  let q' := stepR state q a b in
  q_a q' = within 0 (admR (state (q_max q) * unblocked q) (q_minp q) a b (q_exp q)) (q_lim q) /\
  q_eff q' = state (q_max q) * unblocked q /\
  q_upd q' = (if Req_EM_T (q_a q') (q_a q) then q_upd q else true) /\
  q_max q' = q_max q /\ q_scale q' = q_scale q /\ q_tune q' = T_OFF /\ q_block q' = q_block q.
Proof.
  intros state q a b T L. cbv zeta. unfold cond_step, do_tune. cbn [q_tune with_eff]. rewrite T.
  unfold cond_build. cbn [q_a q_eff q_upd q_max q_scale q_tune q_block q_blockv q_lim q_minp q_exp with_eff q_sys].
  assert (E : (if q_block q then state (q_max q) *~ (n1 -~ q_blockv q) else state (q_max q)) = state (q_max q) * unblocked q).
  { unfold unblocked. destruct (q_block q); rnum; ring. }
  rewrite E. rewrite limit_within by (rnum; exact L). change (@n0 R _) with 0.
  set (g := within 0 _ (q_lim q)). change (0 <~ nabs (q_a q -~ g)) with (Rltb 0 (Rabs (q_a q - g))).
  assert (C : (q_a q = g /\ Rltb 0 (Rabs (q_a q - g)) = false) \/ (q_a q <> g /\ Rltb 0 (Rabs (q_a q - g)) = true)).
  { destruct (Req_dec (q_a q) g) as [Q|Q]; [left|right]; (split; [exact Q|]).
    - apply Rltb_false. rewrite Q, Rminus_diag_eq by reflexivity. rewrite Rabs_R0. lra.
    - apply Rltb_true. apply Rabs_pos_lt. lra. }
  destruct C as [[Q1 Q2]|[Q1 Q2]]; rewrite Q2; split; [exact Q1|split;[reflexivity|]|reflexivity|split;[reflexivity|]].
  - split; [destruct (Req_EM_T (q_a q) (q_a q)); [reflexivity|contradiction]|]. repeat split; reflexivity || exact T.
  - split; [destruct (Req_EM_T g (q_a q)); [congruence|reflexivity]|]. repeat split; reflexivity || exact T.
Qed.
Print Assumptions C154_step.

(** Tuning to a mass flow: with one molecular weight on both sides the next flow is the one asked
    for, in the direction of the pressure, whatever the state of the link. *)
Definition tuned (state : R -> R) (q : @conductor R) (m : R) (a b : @fl R) : @conductor R :=
  stepR state (mkcond (q_max q) (q_scale q) (q_exp q) (q_eff q) (q_sys q) T_MASS m (q_tvol q) (q_tdt q)
    (q_block q) (q_blockv q) (q_minp q) (q_lim q) (q_a q) (q_upd q)) a b.
Lemma tuned_a state (q : @conductor R) m (a b : @fl R) :
  Reps < Rabs (d_p a - d_p b) -> Reps < flow_rho a b -> Reps < flow_mw a b ->
  Rabs m / (lin_drop (q_minp q) a b * flow_mw a b) <= q_lim q ->
  q_a (tuned state q m a b) = Rabs m / (lin_drop (q_minp q) a b * flow_mw a b).
Proof.
  intros H1 H2 H3 H4. unfold tuned, cond_step, do_tune. cbn [q_tune with_eff].
  unfold cond_build, tune_flow. cbn [q_a q_eff q_upd q_max q_scale q_tune q_block q_blockv q_lim q_minp q_exp with_eff q_sys q_tmass].
  pose proof Reps_pos as E0. destruct (C154_predict m (q_minp q) a b (q_exp q) H1 H2 H3) as [P _].
  assert (L : Reps < lin_drop (q_minp q) a b) by (unfold lin_drop; pose proof (Rmax_r (q_minp q) (Rabs (d_p a - d_p b))); lra).
  assert (G : admR (predR m (q_minp q) a b (q_exp q)) (q_minp q) a b (q_exp q) = Rabs m / (lin_drop (q_minp q) a b * flow_mw a b)).
  { rewrite <- P. field. lra. }
  rewrite G. assert (N : 0 <= Rabs m / (lin_drop (q_minp q) a b * flow_mw a b)).
  { apply Rmult_le_pos; [apply Rabs_pos|left; apply Rinv_0_lt_compat; apply Rmult_lt_0_compat; lra]. }
  rewrite limit_within by (rnum; lra). change (@n0 R _) with 0.
  set (g := Rabs m / _) in *. assert (W : within 0 g (q_lim q) = g) by (unfold within; rewrite Rmin_left, Rmax_right by lra; reflexivity).
  rewrite W. change (0 <~ nabs (q_a q -~ g)) with (Rltb 0 (Rabs (q_a q - g))).
  destruct (Rltb_spec 0 (Rabs (q_a q - g))) as [Q|Q]; [reflexivity|].
  pose proof (Rabs_pos (q_a q - g)). assert (Z : Rabs (q_a q - g) = 0) by lra. destruct (Req_dec (q_a q - g) 0) as [Y|Y]; [lra|]. apply Rabs_no_R0 in Y. lra.
Qed.
Lemma hundred_eps : (ndec 100 0 *~ neps : R) = 100 * Reps. Proof. rnum. unfold Rdec. cbn. lra. Qed.
Theorem C154_tune : forall state (q : @conductor R) m (a b : @fl R),
  Reps < Rabs (d_p a - d_p b) -> q_minp q <= Rabs (d_p a - d_p b) -> Reps < flow_rho a b -> Reps < d_mw a -> d_mw b = d_mw a ->
  Rmax (d_p a) (d_p b) * (100 * Reps) <= Rabs (d_p a - d_p b) ->
  Rabs m / (Rabs (d_p a - d_p b) * d_mw a) <= q_lim q ->
  let q' := tuned state q m a b in
  mass_flow (cond_flow q' (d_p a) (d_p b)) a b = (if Rlt_dec (d_p a) (d_p b) then - Rabs m else Rabs m) /\
  q_tune q' = T_OFF /\ q_block q' = false.
Proof.
  intros state q m a b H1 Hm H2 H3 HW H100 HL. cbv zeta.
  assert (W : flow_mw a b = d_mw a). { unfold flow_mw. rewrite HW. destruct (Rlt_dec (d_mw a) Reps); lra. }
  assert (D : lin_drop (q_minp q) a b = Rabs (d_p a - d_p b)) by (unfold lin_drop; apply Rmax_right; exact Hm).
  split; [|split; reflexivity].
  unfold cond_flow. rewrite nmaxR, hundred_eps.
  change (nabs (d_p a -~ d_p b) <~ Rmax (d_p a) (d_p b) *~ (100 * Reps)) with (Rltb (Rabs (d_p a - d_p b)) (Rmax (d_p a) (d_p b) * (100 * Reps))).
  rewrite Rltb_false by exact H100. rewrite tuned_a; [|exact H1|exact H2|rewrite W; exact H3|rewrite W, D; exact HL].
  rewrite W, D. unfold mass_flow. rewrite HW. rnum. pose proof Reps_pos as E0.
  replace (if Rltb _ 0 then d_mw a else d_mw a) with (d_mw a) by (destruct (Rltb _ _); reflexivity).
  destruct (Rlt_dec (d_p a) (d_p b)) as [Q|Q].
  - rewrite (Rabs_left (d_p a - d_p b)) by lra. field. lra.
  - rewrite (Rabs_right (d_p a - d_p b)) in * by lra. field. lra.
Qed.
Print Assumptions C154_tune.
Definition gasAt (p mw : R) : @fl R := mkfl p 300 1 mw true (7 / 5) 1 1.
Definition link0 : @conductor R := mkcond 1 0 (1 / 2) 0 0 T_OFF 0 0 0 true (1 / 2) (1 / 1000) 1000000 0 false.
Example C154_tune_nonvacuous : let q' := tuned (fun k => k) link0 2 (gasAt 101 28) (gasAt 100 28) in
  mass_flow (cond_flow q' 101 100) (gasAt 101 28) (gasAt 100 28) = 2 /\ q_block q' = false.
Proof.
  pose proof Reps_pos as E0. pose proof Reps_small as E1.
  pose proof (C154_tune (fun k => k) link0 2 (gasAt 101 28) (gasAt 100 28)) as T.
  unfold gasAt, link0, flow_rho in *. cbn [d_p d_mw d_rho q_minp q_lim] in *. rewrite (Rabs_right (101 - 100)) in T by lra.
  rewrite (Rabs_right 2) in T by lra. rewrite Rmax_left in T by lra.
  destruct T as (T1 & T2 & T3); try lra. split; [|exact T3]. etransitivity; [exact T1|]. destruct (Rlt_dec 101 100); lra.
Qed.

(** With different molecular weights the flow is not the one asked for: the conductance uses the
    mean weight and the flow rate the source's. *)
Theorem C154_tune_refuted : exists (q : @conductor R) m (a b : @fl R),
  q_minp q <= Rabs (d_p a - d_p b) /\ Reps < flow_rho a b /\ Reps < d_mw a /\ Reps < d_mw b /\ 0 < m /\
  let q' := tuned (fun k => k) q m a b in
  mass_flow (cond_flow q' (d_p a) (d_p b)) a b = 2 / 3 * m.
Proof.
  exists link0, 2, (gasAt 101 20), (gasAt 100 40). pose proof Reps_pos as E0. pose proof Reps_small as E1.
  assert (W : flow_mw (gasAt 101 20) (gasAt 100 40) = 30).
  { unfold flow_mw, gasAt. cbn [d_mw]. destruct (Rlt_dec 20 Reps); [lra|]. destruct (Rlt_dec 40 Reps); lra. }
  assert (B : Rabs (101 - 100) = 1) by (rewrite Rabs_right; lra).
  assert (D : lin_drop (1 / 1000) (gasAt 101 20) (gasAt 100 40) = 1) by (unfold lin_drop, gasAt; cbn [d_p]; rewrite B; apply Rmax_right; lra).
  unfold flow_rho. cbn [d_p d_mw d_rho gasAt q_minp q_lim link0]. rewrite B.
  split; [lra|]. split; [lra|]. split; [lra|]. split; [lra|]. split; [lra|]. cbv zeta.
  unfold cond_flow. rewrite nmaxR, hundred_eps. change (nabs (101 -~ 100) <~ Rmax 101 100 *~ (100 * Reps)) with (Rltb (Rabs (101 - 100)) (Rmax 101 100 * (100 * Reps))).
  rewrite B. rewrite Rltb_false by (rewrite Rmax_left by lra; lra).
  assert (A : q_a (tuned (fun k => k) link0 2 (gasAt 101 20) (gasAt 100 40)) = 2 / 30).
  { rewrite tuned_a; cbn [q_minp link0 q_lim]; rewrite ?W, ?D; unfold flow_rho; cbn [d_p d_rho gasAt]; rewrite ?B; try lra; rewrite (Rabs_right 2) by lra; lra. }
  rewrite A. unfold mass_flow. cbn [d_mw gasAt]. rnum. rewrite Rltb_false by lra. lra.
Qed.
Print Assumptions C154_tune_refuted.

(** Every tuning is done once; a volume flow is a mass flow of the upstream density, or of standard
    air; tuning the temperature sets the scale factor alone. *)
Definition with_tune (q : @conductor R) md m v dt : @conductor R :=
  mkcond (q_max q) (q_scale q) (q_exp q) (q_eff q) (q_sys q) md m v dt (q_block q) (q_blockv q) (q_minp q) (q_lim q) (q_a q) (q_upd q).
Theorem C154_modes : forall state (q : @conductor R) m v dt (a b : @fl R),
  let after md := stepR state (with_tune q md m v dt) a b in
  let sized md flow := q_max (after md) = predR flow (q_minp q) a b (q_exp q) /\ q_eff (after md) = q_max (after md) /\
                       q_block (after md) = false /\ q_scale (after md) = q_scale q in
  (forall md, q_tune (after md) = T_OFF) /\
  sized T_MASS m /\ (0 <= v -> sized T_TRUE_VOL (v * d_rho a)) /\ (v < 0 -> sized T_TRUE_VOL (v * d_rho b)) /\
  sized T_STD_VOL (v * (12041 / 10000)) /\
  q_scale (after T_DELTA_T) = predict_scale powR dt a b /\ q_max (after T_DELTA_T) = q_max q /\ q_block (after T_DELTA_T) = q_block q /\
  q_eff (after T_DELTA_T) = q_eff (after T_OFF).
Proof.
  intros state q m v dt a b. cbv zeta.
  assert (S : (std_density_air : R) = 12041 / 10000) by (unfold std_density_air; rnum; unfold Rdec; cbn; lra).
  split; [intros []; reflexivity|]. split; [repeat split; reflexivity|].
  assert (V : forall r, (if 0 <=~ v then d_rho a else d_rho b) = r ->
    q_max (stepR state (with_tune q T_TRUE_VOL m v dt) a b) = predR (v * r) (q_minp q) a b (q_exp q) /\
    q_eff (stepR state (with_tune q T_TRUE_VOL m v dt) a b) = q_max (stepR state (with_tune q T_TRUE_VOL m v dt) a b) /\
    q_block (stepR state (with_tune q T_TRUE_VOL m v dt) a b) = false /\
    q_scale (stepR state (with_tune q T_TRUE_VOL m v dt) a b) = q_scale q).
  { intros r <-. repeat split; reflexivity. }
  split; [intro H; apply V; change (0 <=~ v) with (Rleb 0 v); destruct (Rleb_spec 0 v); [reflexivity|lra]|].
  split; [intro H; apply V; change (0 <=~ v) with (Rleb 0 v); destruct (Rleb_spec 0 v); [lra|reflexivity]|].
  split; [rewrite <- S; repeat split; reflexivity|]. repeat split; reflexivity.
Qed.
Print Assumptions C154_modes.

(** Flow runs down the pressure, and no faster than the limit on the conductance allows. *)
Theorem C154_direction : forall (q : @conductor R) p0 p1, 0 <= q_a q ->
  0 <= cond_flow q p0 p1 * (p0 - p1) /\ Rabs (cond_flow q p0 p1) <= q_a q * Rabs (p0 - p1) /\
  (Rmax p0 p1 * (100 * Reps) <= Rabs (p0 - p1) -> cond_flow q p0 p1 = q_a q * (p0 - p1)) /\
  (Rabs (p0 - p1) < Rmax p0 p1 * (100 * Reps) -> cond_flow q p0 p1 = 0).
Proof.
  intros q p0 p1 H. unfold cond_flow. rewrite nmaxR, hundred_eps.
  change (nabs (p0 -~ p1) <~ Rmax p0 p1 *~ (100 * Reps)) with (Rltb (Rabs (p0 - p1)) (Rmax p0 p1 * (100 * Reps))).
  pose proof (Rabs_pos (p0 - p1)) as B. pose proof (Rmult_le_pos _ _ H B) as C.
  destruct (Rltb_spec (Rabs (p0 - p1)) (Rmax p0 p1 * (100 * Reps))) as [Q|Q]; rnum.
  - split; [lra|]. split; [rewrite Rabs_R0; exact C|]. split; [lra|reflexivity].
  - split; [|split; [|split; [intros _; ring|lra]]].
    + replace ((p0 - p1) * q_a q * (p0 - p1)) with (q_a q * Rsqr (p0 - p1)) by (unfold Rsqr; ring). apply Rmult_le_pos; [exact H|apply Rle_0_sqr].
    + rewrite Rabs_mult, (Rabs_right (q_a q)) by lra. lra.
Qed.
Print Assumptions C154_direction.

(** ** C155: expansion *)
Notation isoR := (iso_temp powR).
Notation pscaleR := (predict_scale powR).
(** The temperature after an isentropic change of pressure. *)
Definition isentropic (t gamma p1 p2 : R) : R := t * powR (p2 / p1) ((gamma - 1) / gamma).
Lemma powR_le1 r k : 0 <= k -> r <= 1 -> powR r k <= 1.
Proof.
  intros K Hr. unfold powR. destruct (Rlt_dec 0 r); [|lra]. unfold Rpower. rewrite <- exp_0.
  assert (L : ln r <= 0). { rewrite <- ln_1. destruct Hr as [Hr|Hr]; [left; apply ln_increasing; lra|rewrite Hr; lra]. }
  assert (M : k * ln r <= 0) by (apply Rmult_le_0_l || (pose proof (Rmult_le_pos k (- ln r) K); lra)).
  destruct M as [M|M]; [left; apply exp_increasing; exact M|rewrite M; lra].
Qed.
Lemma powR_ge1 r k : 0 <= k -> 1 <= r -> 1 <= powR r k.
Proof.
  intros K Hr. unfold powR. destruct (Rlt_dec 0 r); [|lra]. unfold Rpower. rewrite <- exp_0 at 1.
  assert (L : 0 <= ln r). { rewrite <- ln_1. destruct Hr as [Hr|Hr]; [left; apply ln_increasing; lra|rewrite <- Hr; lra]. }
  pose proof (Rmult_le_pos k (ln r) K L) as M. destruct M as [M|M]; [left; apply exp_increasing; exact M|rewrite <- M; lra].
Qed.
Lemma powR_lt1 r k : 0 < k -> r < 1 -> powR r k < 1.
Proof.
  intros K Hr. unfold powR. destruct (Rlt_dec 0 r); [|lra]. unfold Rpower. rewrite <- exp_0 at 1.
  apply exp_increasing. assert (ln r < 0) by (rewrite <- ln_1; apply ln_increasing; lra). pose proof (Rmult_lt_0_compat k (- ln r) K). lra.
Qed.
Lemma iso_eq s p1 p2 (f : @fl R) : d_gas f = true -> 0 < p1 -> Reps * p1 < p2 -> Reps < d_gamma f ->
  isoR s p1 p2 f = d_t f + s * (isentropic (d_t f) (d_gamma f) p1 p2 - d_t f).
Proof.
  intros G P1 P2 Ga. unfold iso_temp. rewrite G. change (n0 <~ p1) with (Rltb 0 p1). rewrite Rltb_true by exact P1. cbn [andb].
  change (neps <~ p2 /~ p1) with (Rltb Reps (p2 / p1)). change (neps <~ d_gamma f) with (Rltb Reps (d_gamma f)).
  rewrite (Rltb_true Reps (d_gamma f)) by exact Ga. rewrite Rltb_true; [reflexivity|].
  apply Rmult_lt_reg_r with p1; [exact P1|]. unfold Rdiv. rewrite Rmult_assoc, Rinv_l, Rmult_1_r by lra. exact P2.
Qed.
(** Liquids and gases from no pressure keep their temperature; a scale of one is the isentropic
    relation, of zero no change, and in between the result is between; a gas that expands does not
    warm and one that is compressed does not cool. *)
Theorem C155_expansion : forall s p1 p2 (f : @fl R), 0 <= s <= 1 -> 0 <= d_t f ->
  (d_gas f = false \/ p1 <= 0 -> isoR s p1 p2 f = d_t f) /\
  (s = 0 -> isoR s p1 p2 f = d_t f) /\
  (d_gas f = true -> 0 < p1 -> Reps * p1 < p2 -> 1 <= d_gamma f ->
   let ti := isentropic (d_t f) (d_gamma f) p1 p2 in
   isoR s p1 p2 f = (1 - s) * d_t f + s * ti /\
   (p2 <= p1 -> ti <= isoR s p1 p2 f <= d_t f) /\ (p1 <= p2 -> d_t f <= isoR s p1 p2 f <= ti)).
Proof.
  intros s p1 p2 f S T. split; [|split].
  - intro H. unfold iso_temp. change (n0 <~ p1) with (Rltb 0 p1). destruct H as [H|H]; [rewrite H; reflexivity|].
    rewrite Rltb_false by exact H. rewrite andb_false_r. reflexivity.
  - intro H. subst s. unfold iso_temp. destruct (d_gas f && (n0 <~ p1)); [|reflexivity]. destruct (_ && _); [|reflexivity]. rnum. ring.
  - intros G P1 P2 Ga. cbv zeta. pose proof Reps_small as E1. rewrite iso_eq by (assumption || lra).
    set (ti := isentropic _ _ _ _). split; [ring|].
    assert (K : 0 <= (d_gamma f - 1) / d_gamma f) by (apply Rmult_le_pos; [lra|left; apply Rinv_0_lt_compat; lra]).
    split; intro H.
    + assert (L : ti <= d_t f). { unfold ti, isentropic. rewrite <- (Rmult_1_r (d_t f)) at 2. apply Rmult_le_compat_l; [exact T|]. apply powR_le1; [exact K|].
        apply Rmult_le_reg_r with p1; [exact P1|]. unfold Rdiv. rewrite Rmult_assoc, Rinv_l by lra. lra. }
      pose proof (Rmult_le_pos s (d_t f - ti) ltac:(lra) ltac:(lra)). pose proof (Rmult_le_pos (1 - s) (d_t f - ti) ltac:(lra) ltac:(lra)). lra.
    + assert (L : d_t f <= ti). { unfold ti, isentropic. rewrite <- (Rmult_1_r (d_t f)) at 1. apply Rmult_le_compat_l; [exact T|]. apply powR_ge1; [exact K|].
        apply Rmult_le_reg_r with p1; [exact P1|]. unfold Rdiv. rewrite Rmult_assoc, Rinv_l by lra. lra. }
      pose proof (Rmult_le_pos s (ti - d_t f) ltac:(lra) ltac:(lra)). pose proof (Rmult_le_pos (1 - s) (ti - d_t f) ltac:(lra) ltac:(lra)). lra.
Qed.
Print Assumptions C155_expansion.

(** The tuned scale factor cools the gas by the temperature asked for, or as much as isentropic
    expansion can; it is always from 0 to 1. *)
Definition achieved (t gamma hi lo dt : R) : R := Rmin (Rabs dt) (t - isentropic t gamma hi lo).
Lemma tuned_scale (t gamma hi lo dt : R) : 0 < t -> 1 < gamma -> 0 < lo < hi ->
  let s := limit_range n0 (nopp (nabs dt) /~ (t *~ (powR (lo /~ hi) ((gamma -~ n1) /~ gamma) -~ n1))) n1 in
  s * (isentropic t gamma hi lo - t) = - achieved t gamma hi lo dt.
Proof.
  intros T G [P1 P2]. cbv zeta. rewrite limit_within by (rnum; lra). rnum. unfold achieved, isentropic.
  assert (K : 0 < (gamma - 1) / gamma) by (apply Rmult_lt_0_compat; [lra|apply Rinv_0_lt_compat; lra]).
  assert (L : powR (lo / hi) ((gamma - 1) / gamma) < 1).
  { apply powR_lt1; [exact K|]. apply Rmult_lt_reg_r with hi; [lra|]. unfold Rdiv. rewrite Rmult_assoc, Rinv_l by lra. lra. }
  set (w := powR _ _) in *. clearbody w. set (d := t - t * w). assert (D : 0 < d) by (unfold d; pose proof (Rmult_lt_0_compat t (1 - w)); lra).
  replace (- Rabs dt / (t * (w - 1))) with (Rabs dt / d).
  2:{ unfold d in *. assert (t * (w - 1) <> 0) by lra. assert (t - t * w <> 0) by lra. apply Rmult_eq_reg_r with (t - t * w); [|assumption].
      unfold Rdiv at 1. rewrite Rmult_assoc, Rinv_l by assumption. replace (t - t * w) with (- (t * (w - 1))) by ring. field. lra. }
  replace (t * w - t) with (- d) by (unfold d; ring). pose proof (Rabs_pos dt) as B.
  assert (N : 0 <= Rabs dt / d) by (apply Rmult_le_pos; [exact B|left; apply Rinv_0_lt_compat; exact D]).
  unfold within. rewrite Rmax_right by (unfold Rmin; destruct (Rle_dec _ _); lra).
  unfold Rmin. destruct (Rle_dec (Rabs dt / d) 1) as [Q|Q], (Rle_dec (Rabs dt) d) as [Q'|Q'].
  - field. lra.
  - exfalso. apply Q'. apply Rmult_le_reg_r with (/ d); [apply Rinv_0_lt_compat; exact D|]. rewrite Rinv_r by lra. exact Q.
  - exfalso. apply Q. apply Rmult_le_reg_r with d; [exact D|]. unfold Rdiv. rewrite Rmult_assoc, Rinv_l by lra. lra.
  - ring.
Qed.
Theorem C155_tune : forall dt (a b : @fl R), Reps <= d_p b -> Reps <= d_p a ->
  0 <= pscaleR dt a b <= 1 /\
  (d_gas a = true -> d_p b < d_p a -> Reps * d_p a < d_p b -> 0 < d_t a -> 1 < d_gamma a ->
   isoR (pscaleR dt a b) (d_p a) (d_p b) a = d_t a - achieved (d_t a) (d_gamma a) (d_p a) (d_p b) dt) /\
  (d_gas b = true -> d_p a < d_p b -> Reps * d_p b < d_p a -> 0 < d_t b -> 1 < d_gamma b ->
   isoR (pscaleR dt a b) (d_p b) (d_p a) b = d_t b - achieved (d_t b) (d_gamma b) (d_p b) (d_p a) dt).
Proof.
  intros dt a b H1 H0. pose proof Reps_pos as E0. pose proof Reps_small as E1. unfold predict_scale. rewrite !nmaxR. change (@neps R _) with Reps.
  rewrite (Rmax_right _ (d_p a)), (Rmax_right _ (d_p b)) by assumption. cbv zeta.
  change (d_p b <=~ d_p a) with (Rleb (d_p b) (d_p a)). change (d_p a <=~ d_p b) with (Rleb (d_p a) (d_p b)).
  split; [|split].
  - rewrite limit_within by (rnum; lra). rnum. unfold within, Rmax, Rmin. destruct (Rle_dec _ 1); destruct (Rle_dec _ _); lra.
  - intros G P P' T Ga. destruct (Rleb_spec (d_p b) (d_p a)); [|lra]. rewrite G. cbn [andb].
    rewrite iso_eq by (assumption || lra). rewrite tuned_scale by (assumption || lra). lra.
  - intros G P P' T Ga. destruct (Rleb_spec (d_p b) (d_p a)); [lra|]. cbn [andb]. destruct (Rleb_spec (d_p a) (d_p b)); [|lra]. rewrite G. cbn [andb].
    rewrite iso_eq by (assumption || lra). rewrite tuned_scale by (assumption || lra). lra.
Qed.
Print Assumptions C155_tune.
Example C155_nonvacuous : exists (a b : @fl R), Reps <= d_p b /\ Reps <= d_p a /\ d_gas a = true /\ d_p b < d_p a /\
  Reps * d_p a < d_p b /\ 0 < d_t a /\ 1 < d_gamma a.
Proof. exists (gasAt 101 28), (gasAt 100 28). pose proof Reps_pos. pose proof Reps_small. unfold gasAt. cbn. repeat split; try lra. Qed.

(** Tuning to no temperature change at equal pressures stores NaN, in binary64, whatever [pow]
    does elsewhere. *)
Definition gas64 : @fl float := mkfl 100%float 300%float 1%float 28%float true 1.5%float 1%float 1%float.
Theorem C155_nan_refuted : exists a b : @fl float, d_p a = d_p b /\ d_gas a = true /\
  forall pw : float -> float -> float, (forall y, pw 1%float y = 1%float) -> is_nan (predict_scale pw 0%float a b) = true.
Proof.
  exists gas64, gas64. split; [reflexivity|]. split; [reflexivity|]. intros pw H.
  assert (E : predict_scale pw 0%float gas64 gas64 =
    limit_range 0%float (nopp (nabs 0%float) /~ (300%float *~ (pw (100%float /~ 100%float) ((1.5%float -~ 1%float) /~ 1.5%float) -~ 1%float))) 1%float).
  { unfold predict_scale, gas64. cbn [d_p d_gas d_t d_gamma].
    replace ((nmax neps 100%float <=~ nmax neps 100%float) && true) with true by (vm_compute; reflexivity).
    replace (nmax neps 100%float) with 100%float by (vm_compute; reflexivity). reflexivity. }
  rewrite E. replace (100%float /~ 100%float) with 1%float by (vm_compute; reflexivity). rewrite H. vm_compute. reflexivity.
Qed.
Print Assumptions C155_nan_refuted.

(** ** C156: heat *)
Notation convR := (conv_flux exp).
(** The fluid leaves a wall at a temperature between its own and the wall's, closer to the wall by
    the factor exp(-NTU) with NTU at most 100, and the heat is its enthalpy's change. *)
Theorem C156_convection : forall (f : @fl R) h flow ua wall, 0 < d_cp f -> Reps < Rabs flow -> Reps < ua ->
  let m := Rabs flow in
  let out := fst (convR f h flow ua wall) in
  out - wall = exp (- Rmin (ua / (m * d_cp f)) 100) * (d_t f - wall) /\
  snd (convR f h flow ua wall) = m * (h (d_t f) - h out) /\
  (wall <= d_t f -> wall <= out <= d_t f) /\ (d_t f <= wall -> d_t f <= out <= wall).
Proof.
  intros f h flow ua wall C M U. cbv zeta. unfold conv_flux. change (nabs flow) with (Rabs flow). change (neps <~ Rabs flow) with (Rltb Reps (Rabs flow)).
  change (neps <~ ua) with (Rltb Reps ua). rewrite !Rltb_true by assumption. cbn [andb fst snd]. rewrite nminR.
  set (m := Rabs flow) in *. clearbody m. pose proof Reps_pos as E0.
  assert (X : Rmin ua (ndec 100 0 *~ m *~ d_cp f) / m / d_cp f = Rmin (ua / (m * d_cp f)) 100).
  { assert (Pm : 0 < m * d_cp f) by (apply Rmult_lt_0_compat; lra).
    assert (Y : (ndec 100 0 *~ m *~ d_cp f : R) = 100 * (m * d_cp f)) by (rnum; unfold Rdec; cbn; ring). rewrite Y.
    unfold Rmin. destruct (Rle_dec ua (100 * (m * d_cp f))) as [Q|Q], (Rle_dec (ua / (m * d_cp f)) 100) as [Q'|Q'].
    - field. lra.
    - exfalso. apply Q'. apply Rmult_le_reg_r with (m * d_cp f); [exact Pm|]. unfold Rdiv. rewrite Rmult_assoc, Rinv_l by lra. lra.
    - exfalso. apply Q. apply Rmult_le_reg_r with (/ (m * d_cp f)); [apply Rinv_0_lt_compat; exact Pm|]. rewrite Rmult_assoc, Rinv_r by lra. unfold Rdiv in Q'. lra.
    - field. lra. }
  change (nopp (Rmin ua (ndec 100 0 *~ m *~ d_cp f) /~ m /~ d_cp f)) with (- (Rmin ua (ndec 100 0 *~ m *~ d_cp f) / m / d_cp f)). rewrite X.
  assert (N : 0 <= Rmin (ua / (m * d_cp f)) 100).
  { unfold Rmin. destruct (Rle_dec _ _); [|lra]. apply Rmult_le_pos; [lra|]. left. apply Rinv_0_lt_compat. apply Rmult_lt_0_compat; lra. }
  set (n := Rmin _ 100) in *. clearbody n. pose proof (exp_pos (- n)) as P.
  assert (L : exp (- n) <= 1). { rewrite <- exp_0. destruct N as [N|N]; [left; apply exp_increasing; lra|rewrite <- N, Ropp_0; lra]. }
  set (e := exp (- n)) in *. clearbody e. rnum. split; [ring|]. split; [reflexivity|]. split; intro W.
  - pose proof (Rmult_le_pos e (d_t f - wall) ltac:(lra) ltac:(lra)). pose proof (Rmult_le_pos (1 - e) (d_t f - wall) ltac:(lra) ltac:(lra)). lra.
  - pose proof (Rmult_le_pos e (wall - d_t f) ltac:(lra) ltac:(lra)). pose proof (Rmult_le_pos (1 - e) (wall - d_t f) ltac:(lra) ltac:(lra)). lra.
Qed.
Print Assumptions C156_convection.
(** Without flow or conductance nothing changes; with an enthalpy that grows with temperature the
    fluid gives heat to a colder wall, never more than it has above the wall's temperature. *)
Theorem C156_convection_heat : forall (f : @fl R) h flow ua wall, 0 < d_cp f -> (forall x y, x <= y -> h x <= h y) ->
  let q := snd (convR f h flow ua wall) in
  ((Rabs flow <= Reps \/ ua <= Reps) -> convR f h flow ua wall = (d_t f, 0)) /\
  (wall <= d_t f -> 0 <= q <= Rabs flow * (h (d_t f) - h wall)) /\
  (d_t f <= wall -> Rabs flow * (h (d_t f) - h wall) <= q <= 0).
Proof.
  intros f h flow ua wall C I. cbv zeta.
  assert (Z : (Rabs flow <= Reps \/ ua <= Reps) -> convR f h flow ua wall = (d_t f, 0)).
  { intro H. unfold conv_flux. change (nabs flow) with (Rabs flow). change (neps <~ Rabs flow) with (Rltb Reps (Rabs flow)). change (neps <~ ua) with (Rltb Reps ua).
    destruct H as [H|H]; [rewrite (Rltb_false _ (Rabs flow)) by exact H; reflexivity|rewrite (Rltb_false _ ua) by exact H; rewrite andb_false_r; reflexivity]. }
  split; [exact Z|]. pose proof (Rabs_pos flow) as B.
  destruct (Rle_dec (Rabs flow) Reps) as [A|A]; [|destruct (Rle_dec ua Reps) as [A'|A']].
  - rewrite Z by (left; exact A). cbn [snd]. split; intro W; specialize (I _ _ W).
    + pose proof (Rmult_le_pos _ (h (d_t f) - h wall) B). lra.
    + pose proof (Rmult_le_pos _ (h wall - h (d_t f)) B). lra.
  - rewrite Z by (right; exact A'). cbn [snd]. split; intro W; specialize (I _ _ W).
    + pose proof (Rmult_le_pos _ (h (d_t f) - h wall) B). lra.
    + pose proof (Rmult_le_pos _ (h wall - h (d_t f)) B). lra.
  - destruct (C156_convection f h flow ua wall C) as (_ & Q & L & U); [lra|lra|]. rewrite Q. split; intro W.
    + specialize (L W). pose proof (I _ _ (proj1 L)). pose proof (I _ _ (proj2 L)). set (o := h (fst _)) in *. clearbody o.
      split; [apply Rmult_le_pos; lra|apply Rmult_le_compat_l; lra].
    + specialize (U W). pose proof (I _ _ (proj1 U)). pose proof (I _ _ (proj2 U)). set (o := h (fst _)) in *. clearbody o.
      split; [apply Rmult_le_compat_l; lra|]. pose proof (Rmult_le_pos (Rabs flow) (o - h (d_t f)) B). lra.
Qed.
Print Assumptions C156_convection_heat.
Example C156_convection_nonvacuous : exists (f : @fl R) (h : R -> R), 0 < d_cp f /\ (forall x y, x <= y -> h x <= h y) /\ 300 <= d_t f.
Proof. exists (gasAt 100 28), (fun x => x). cbn. repeat split; try lra. auto. Qed.

(** Conduction between two fluids: Fourier's law with the mean of the conductivities by length;
    it throws only for no length; seen from the other side it is the opposite heat. *)
Theorem C156_conduction : forall area (a b : @fl R) l0 l1,
  (l0 + l1 <= Reps -> cond_flux area a b l0 l1 = None) /\
  (Reps < l0 + l1 -> exists q, cond_flux area a b l0 l1 = Some q /\
     q * (l0 + l1) = area * ((d_k a * l0 + d_k b * l1) / (l0 + l1)) * (d_t a - d_t b) /\
     cond_flux area b a l1 l0 = Some (- q) /\
     (0 <= area -> 0 <= d_k a -> 0 <= d_k b -> 0 <= l0 -> 0 <= l1 -> 0 <= q * (d_t a - d_t b))).
Proof.
  intros area a b l0 l1. unfold cond_flux. change (l0 +~ l1 <=~ neps) with (Rleb (l0 + l1) Reps). change (l1 +~ l0 <=~ neps) with (Rleb (l1 + l0) Reps).
  split; intro H; destruct (Rleb_spec (l0 + l1) Reps) as [Q|Q]; try lra; [reflexivity|].
  eexists. split; [reflexivity|]. pose proof Reps_pos as E0. rnum. split; [field; lra|]. split.
  - destruct (Rleb_spec (l1 + l0) Reps); [lra|]. f_equal. field. lra.
  - intros A K0 K1 L0 L1. set (d := d_t a - d_t b).
    replace (area * ((d_k a * l0 + d_k b * l1) * (1 / (l0 + l1))) * d * (1 / (l0 + l1)) * d) with
      (area * (d_k a * l0 + d_k b * l1) * Rsqr (d * / (l0 + l1))) by (unfold Rsqr; field; lra).
    apply Rmult_le_pos; [|apply Rle_0_sqr]. apply Rmult_le_pos; [exact A|]. pose proof (Rmult_le_pos _ _ K0 L0). pose proof (Rmult_le_pos _ _ K1 L1). lra.
Qed.
Print Assumptions C156_conduction.

(** The capacitance of a volume of fluid: never negative; for a gas whose density goes with the
    pressure, the moles it takes for each unit of pressure, at any pressure. *)
Theorem C154_capacitance : forall (f : @fl R) rho volume k b, 0 < d_mw f ->
  0 <= capacitance f rho volume /\
  ((forall p, rho p = k * p + b) -> 0 <= k -> 0 <= volume -> capacitance f rho volume = k * volume / d_mw f).
Proof.
  intros f rho volume k b W. unfold capacitance. rewrite !nmaxR. split; [apply Rmax_l|]. intros H K V. rewrite !H.
  assert (F : 0 < (feps : R)) by (unfold feps; rnum; unfold Rdec; apply Rdiv_lt_0_compat; apply IZR_lt; reflexivity).
  change (d_p f <~ feps) with (Rltb (d_p f) feps).
  assert (P : 0 < (if Rltb (d_p f) feps then feps else d_p f)) by (destruct (Rltb_spec (d_p f) feps); lra).
  set (p := if Rltb (d_p f) feps then feps else d_p f) in *. clearbody p. clear F.
  assert (D1 : (ndec 999 (-3) : R) = 999 / 1000) by (rnum; unfold Rdec; cbn; lra). assert (D2 : (ndec 1001 (-3) : R) = 1001 / 1000) by (rnum; unfold Rdec; cbn; lra). rewrite D1, D2. rnum.
  assert (E : (k * (p * (1001 / 1000)) + b - (k * (p * (999 / 1000)) + b)) * volume / (d_mw f * (p * (1001 / 1000) - p * (999 / 1000))) = k * volume / d_mw f) by (field; repeat split; lra).
  rewrite E. apply Rmax_right. apply Rmult_le_pos; [apply Rmult_le_pos; assumption|]. left. apply Rinv_0_lt_compat. exact W.
Qed.
Print Assumptions C154_capacitance.
