(** C140, C141: thermoelectric devices, heat sources and radiation. *)
From Coq Require Import Floats.
From Coq Require Import Reals Lra Lia List Arith Bool ZArith.
From Verif Require Import Num Ord Loops MathUtil Props_Math BasicLinks Props_BasicFlow Thermal Spec_Valve Props_Valve Props_Thermal.
Import ListNotations.
Local Open Scope R_scope.

(** ** C140 *)
(** The integral of a0 + a1 x + a2 x^2 from [c] to [h]. *)
Definition integral (a0 a1 a2 c h : R) : R := a0 * (h - c) + a1 / 2 * (h ^ 2 - c ^ 2) + a2 / 3 * (h ^ 3 - c ^ 3).
(** The temperatures as limited to the range of the coefficients, and the scale of a malfunction. *)
Definition hot (e : ted R) : R := within (e_min e) (e_th e) (e_max e).
Definition cold (e : ted R) : R := within (e_min e) (e_tc e) (e_max e).
Definition scale (e : ted R) : R := if e_malf e then Rmax 0 (e_scale e) else 1.

Lemma dec2 : Rdec 2 0 = 2. Proof. unfold Rdec; cbn; lra. Qed.
Lemma dec3 : Rdec 3 0 = 3. Proof. unfold Rdec; cbn; lra. Qed.
Lemma dec51 : Rdec 5 (-1) = / 2. Proof. unfold Rdec; cbn; lra. Qed.

(** Resistance, conductance, voltage and heats of the effect. *)
Lemma ted_eq (e : ted R) : e_min e <= e_max e ->
  let h := hot e in let c := cold e in let m := scale e in
  let res := Rmax (e_r0 e + e_r1 e * ((c + h) / 2)) Reps in
  let o := ted_update e in
  let far := Rltb Reps (Rabs (h - c)) in
  o_k o = (if far then integral (e_k0 e) (e_k1 e) (e_k2 e) c h / (h - c) else e_k0 e) /\
  o_g o = / res /\ o_thru o = o_k o * (e_th e - e_tc e) /\
  o_hot o = e_i e ^ 2 * res / 2 - e_i e * h * (m * (e_s0 e + e_s1 e * h + e_s2 e * h ^ 2)) /\
  o_cold o = e_i e ^ 2 * res / 2 + e_i e * c * (m * (e_s0 e + e_s1 e * c + e_s2 e * c ^ 2)) /\
  o_v o = m * (if far then integral (e_s0 e) (e_s1 e) (e_s2 e) c h else e_s0 e * (h - c)).
Proof.
  intro B. cbv zeta. assert (EP := Reps_pos). unfold ted_update. rewrite !limit_within by exact B.
  fold (hot e). fold (cold e). set (h := hot e). set (c := cold e). clearbody h c. rewrite !nmaxR. rnum. rewrite dec2, dec3, dec51.
  replace (/ 2 * (c + h)) with ((c + h) / 2) by field. set (res := Rmax _ Reps).
  assert (RP : 0 < res) by (unfold res; eapply Rlt_le_trans; [exact EP|apply Rmax_r]). clearbody res.
  unfold scale. destruct (Rltb_spec Reps (Rabs (h - c))) as [F|F].
  - assert (NZ : h - c <> 0) by (intro Z; rewrite Z, Rabs_R0 in F; lra).
    destruct (e_malf e); cbn [o_k o_g o_thru o_hot o_cold o_v]; unfold integral; repeat split; field; lra.
  - destruct (e_malf e); cbn [o_k o_g o_thru o_hot o_cold o_v]; repeat split; field; lra.
Qed.

(** The averages are those of the properties over the range between the temperatures. *)
Theorem C140_averages : forall e : ted R, e_min e <= e_max e -> Reps < Rabs (hot e - cold e) ->
  let o := ted_update e in
  o_k o * (hot e - cold e) = integral (e_k0 e) (e_k1 e) (e_k2 e) (cold e) (hot e) /\
  o_v o = scale e * integral (e_s0 e) (e_s1 e) (e_s2 e) (cold e) (hot e) /\
  o_g o = / Rmax (e_r0 e + e_r1 e * ((cold e + hot e) / 2)) Reps /\ 0 < o_g o.
Proof.
  intros e B F. cbv zeta. assert (EP := Reps_pos). destruct (ted_eq e B) as (K & G & _ & _ & _ & V). cbv zeta in K, G, V.
  rewrite (Rltb_true Reps) in K, V by exact F.
  assert (NZ : hot e - cold e <> 0) by (intro Z; rewrite Z, Rabs_R0 in F; lra).
  split; [rewrite K; field; exact NZ|]. split; [exact V|]. split; [exact G|]. rewrite G. apply Rinv_0_lt_compat. eapply Rlt_le_trans; [exact EP|apply Rmax_r].
Qed.
Print Assumptions C140_averages.

(** The first law: the heat given to the nodes and the electric power given out make up the
    electric power lost in the resistance, with a constant Seebeck coefficient.  Otherwise the
    Thomson heat along the device is missing. *)
Theorem C140_first_law : forall (e : ted R) (b : @base R), e_min e <= e_max e ->
  let e := device_effect e b in
  let s := device_step e b in
  let o := ted_update e in
  Reps < Rabs (hot e - cold e) \/ hot e = cold e ->
  forall t0 t1,
  let into := device_into (with_pot s t0 t1) in
  fst into + snd into + e_i e * o_v o = e_i e ^ 2 / o_g o
    - e_i e * scale e * (e_s1 e / 2 * (hot e ^ 2 - cold e ^ 2) + 2 * e_s2 e / 3 * (hot e ^ 3 - cold e ^ 3)) /\
  (e_s1 e = 0 -> e_s2 e = 0 -> fst into + snd into + e_i e * o_v o = e_i e ^ 2 / o_g o) /\
  device_power (with_pot s t0 t1) = snd into - b_w0 s.
Proof.
  intros e0 b B e s o F t0 t1 into. assert (EP := Reps_pos).
  assert (B' : e_min e <= e_max e) by exact B.
  assert (IN : fst into + snd into = o_hot o + o_cold o).
  { unfold into, device_into. cbn [fst snd].
    assert (W : b_w0 (with_pot s t0 t1) = o_hot o /\ b_w1 (with_pot s t0 t1) = o_cold o) by (split; reflexivity).
    destruct W as [W0 W1]. rewrite W0, W1. rnum. ring. }
  assert (E : fst into + snd into + e_i e * o_v o = e_i e ^ 2 / o_g o
    - e_i e * scale e * (e_s1 e / 2 * (hot e ^ 2 - cold e ^ 2) + 2 * e_s2 e / 3 * (hot e ^ 3 - cold e ^ 3))).
  { rewrite IN. unfold o. clear IN into o s. destruct (ted_eq e B') as (_ & G & _ & Ho & Co & V). cbv zeta in G, Ho, Co, V.
    rewrite G, Ho, Co, V. set (res := Rmax _ Reps).
    assert (RP : 0 < res) by (unfold res; eapply Rlt_le_trans; [exact EP|apply Rmax_r]). clearbody res.
    assert (Z : (if Rltb Reps (Rabs (hot e - cold e)) then integral (e_s0 e) (e_s1 e) (e_s2 e) (cold e) (hot e) else e_s0 e * (hot e - cold e)) = integral (e_s0 e) (e_s1 e) (e_s2 e) (cold e) (hot e)).
    { destruct F as [F|F]; [rewrite Rltb_true by exact F; reflexivity|]. destruct (Rltb _ _); [reflexivity|]. unfold integral. rewrite F. ring. }
    rewrite Z. unfold integral. field. lra. }
  split; [exact E|]. split.
  - intros Z1 Z2. rewrite E, Z1, Z2. field. intro G. destruct (ted_eq e B') as (_ & G' & _). cbv zeta in G'. fold o in G'. rewrite G' in G.
    assert (0 < / Rmax (e_r0 e + e_r1 e * ((cold e + hot e) / 2)) Reps) by (apply Rinv_0_lt_compat; eapply Rlt_le_trans; [exact EP|apply Rmax_r]). lra.
  - unfold into, device_into, device_power. cbn [snd]. rnum. reflexivity.
Qed.
Print Assumptions C140_first_law.
Lemma set_adm_a0 (b : @base R) a : b_a0 (set_adm b a) = a.
Proof.
  unfold set_adm. rnum. destruct (Rltb_spec 0 (Rabs (b_a0 b - a))) as [A|A]; [reflexivity|].
  assert (Z := Rabs_pos (b_a0 b - a)). assert (ZZ : Rabs (b_a0 b - a) = 0) by lra.
  apply Rminus_diag_uniq. destruct (Req_dec (b_a0 b - a) 0) as [H|H]; [exact H|]. apply Rabs_no_R0 in H. lra.
Qed.
(** Which side is which: port 0 is the hot side. *)
Theorem C140_ports : forall (e : ted R) (b : @base R) t0 t1, e_min e <= e_max e ->
  let h := within (e_min e) (b_p0 b) (e_max e) in let c := within (e_min e) (b_p1 b) (e_max e) in
  let seebeck t := scale e * (e_s0 e + e_s1 e * t + e_s2 e * t ^ 2) in
  let loss := e_i e ^ 2 * Rmax (e_r0 e + e_r1 e * ((c + h) / 2)) Reps in
  let s := with_pot (device_step e b) t0 t1 in
  let through := if Rltb (Rabs (t0 - t1)) (Rmax t0 t1 * (100 * Reps)) then 0 else (t0 - t1) * b_a0 s in
  device_into s = (loss / 2 - e_i e * h * seebeck h - through, loss / 2 + e_i e * c * seebeck c + through) /\
  0 <= through * (t0 - t1) /\
  b_a0 s = within 0 (o_k (ted_update (device_effect e b)) * (1 - (if b_malf b then b_malfv b else 0))) (10 ^ 15).
Proof.
  intros e0 b t0 t1 B h c seebeck loss s through. assert (EP := Reps_pos). set (e := device_effect e0 b). destruct (ted_eq e B) as (_ & _ & _ & Ho & Co & _). cbv zeta in Ho, Co.
  assert (F : device_flux s = through).
  { unfold device_flux, flux_dead, through, s, with_drop, with_pot, delta, eps100. cbn [b_p0 b_p1 b_drop b_a0]. rewrite nmaxR. rnum. replace (Rdec 100 0) with 100 by (unfold Rdec; cbn; lra). reflexivity. }
  split; [|split].
  - unfold device_into. rewrite F.
    replace (b_w0 s) with (o_hot (ted_update e)) by reflexivity. replace (b_w1 s) with (o_cold (ted_update e)) by reflexivity.
    rewrite Ho, Co. unfold seebeck, loss, h, c. change (hot e) with (within (e_min e0) (b_p0 b) (e_max e0)). change (cold e) with (within (e_min e0) (b_p1 b) (e_max e0)).
    change (scale e) with (scale e0). unfold e, device_effect. cbn [e_i e_s0 e_s1 e_s2 e_r0 e_r1]. rnum. f_equal; ring.
  - unfold through. destruct (Rltb _ _); [lra|].
    assert (G : 0 <= b_a0 s).
    { unfold s, device_step, with_pot, with_src. cbn [b_a0]. rewrite set_adm_a0. rewrite limit_within; [unfold within; apply Rmax_l|]. rewrite limit_value. rnum. apply pow_le. lra. }
    replace ((t0 - t1) * b_a0 s * (t0 - t1)) with (b_a0 s * (t0 - t1) ^ 2) by ring. apply Rmult_le_pos; [exact G|apply pow2_ge_0].
  - unfold s, device_step, with_pot, with_src. cbn [b_a0]. rewrite set_adm_a0. rewrite limit_within; [|rewrite limit_value; rnum; apply pow_le; lra].
    rewrite limit_value. rnum. destruct (b_malf b); [reflexivity|]. rewrite Rminus_0_r, Rmult_1_r. reflexivity.
Qed.
Print Assumptions C140_ports.
(** With a Seebeck coefficient that varies heat is made or lost. *)
Theorem C140_first_law_refuted : exists e : ted R, e_min e <= e_max e /\
  let o := ted_update e in o_hot o + o_cold o + e_i e * o_v o <> e_i e ^ 2 / o_g o.
Proof.
  exists (mkted 1 0 1 1 0 1 0 0 0 1000 false 1 1 2 1). cbn [e_min e_max e_i]. split; [lra|]. cbv zeta. assert (EP := Reps_pos). assert (ES := Reps_small).
  set (e := mkted _ _ _ _ _ _ _ _ _ _ _ _ _ _ _). destruct (ted_eq e ltac:(cbn; lra)) as (_ & G & _ & Ho & Co & V). cbv zeta in G, Ho, Co, V.
  assert (H : hot e = 2) by (unfold hot, within, Rmin, Rmax, e; cbn; destruct (Rle_dec 2 1000), (Rle_dec 0 _); lra).
  assert (C : cold e = 1) by (unfold cold, within, Rmin, Rmax, e; cbn; destruct (Rle_dec 1 1000), (Rle_dec 0 _); lra).
  rewrite Ho, Co, V, G, H, C. unfold scale, e. cbn [e_malf e_r0 e_r1 e_i e_s0 e_s1 e_s2]. rewrite Rmax_left by lra.
  replace (Rabs (2 - 1)) with 1 by (rewrite Rabs_right; lra). rewrite Rltb_true by lra. unfold integral. lra.
Qed.
Print Assumptions C140_first_law_refuted.
(** At equal temperatures the conductance leaves out the dependence on temperature. *)
Theorem C140_equal_refuted : exists e : ted R, e_min e <= e_max e /\ hot e = cold e /\
  o_k (ted_update e) <> e_k0 e + e_k1 e * hot e + e_k2 e * hot e ^ 2.
Proof.
  exists (mkted 1 0 1 0 0 1 1 0 0 1000 false 1 1 2 2). split; [cbn; lra|].
  set (e := mkted _ _ _ _ _ _ _ _ _ _ _ _ _ _ _). destruct (ted_eq e ltac:(cbn; lra)) as (K & _). cbv zeta in K. assert (EP := Reps_pos).
  assert (H : hot e = 2) by (unfold hot, within, Rmin, Rmax, e; cbn; destruct (Rle_dec 2 1000), (Rle_dec 0 _); lra).
  assert (C : cold e = 2) by (unfold cold, within, Rmin, Rmax, e; cbn; destruct (Rle_dec 2 1000), (Rle_dec 0 _); lra).
  rewrite K, H, C. replace (2 - 2) with 0 by ring. rewrite Rabs_R0, Rltb_false by lra. split; [reflexivity|]. unfold e. cbn [e_k0 e_k1 e_k2]. lra.
Qed.
Print Assumptions C140_equal_refuted.
(** The end plates lie in series with the device. *)
Theorem C140_plates : forall num geom r0 r1 s0 s1 s2 k0 k1 k2 plate tmin tmax malf sc i th tc,
  0 < num -> 0 < geom -> 0 < k0 -> Reps < plate ->
  let e := ted_init num geom r0 r1 s0 s1 s2 k0 k1 k2 plate tmin tmax malf sc i th tc in
  / e_k0 e = / (2 * num * geom * k0) + / plate + / plate /\ e_k0 e < 2 * num * geom * k0 /\
  e_r0 e = 2 * num * r0 / geom /\ e_s0 e = 2 * num * s0.
Proof.
  intros. assert (EP := Reps_pos). unfold e, ted_init. rnum. rewrite dec2. rewrite (Rltb_true Reps plate) by assumption. cbn [e_k0 e_r0 e_s0].
  assert (K : 0 < 2 * num * geom * k0) by (repeat apply Rmult_lt_0_compat; lra). set (k := 2 * num * geom * k0) in *. clearbody k.
  assert (0 < 1 / k + 2 / plate) by (apply Rplus_lt_0_compat; (apply Rmult_lt_0_compat; [lra|apply Rinv_0_lt_compat; lra])).
  split; [field; split; [lra|]; split; lra|]. split; [|split; reflexivity].
  apply Rmult_lt_reg_r with (1 / k + 2 / plate); [assumption|]. replace (1 / (1 / k + 2 / plate) * (1 / k + 2 / plate)) with 1 by (field; split; [lra|]; split; lra).
  replace (k * (1 / k + 2 / plate)) with (1 + 2 * (k / plate)) by (field; lra). assert (0 < k / plate) by (apply Rmult_lt_0_compat; [lra|apply Rinv_0_lt_compat; lra]). lra.
Qed.
Print Assumptions C140_plates.
Example ex_C140 : (let e := ted_init 2 1 1 0 0.5 0 0 1 0 0 8 0 1000 false 1 2 400 300 in let o := ted_update e in
  (o_k o, o_g o, o_thru o, o_hot o, o_cold o, o_v o) = (2, 0.25, 200, 8 - 1600, 8 + 1200, 200))%float.
Proof. vm_compute. reflexivity. Qed.

(** ** C141 *)
(** What a configuration accepted by a heat source means, and what its nodes get. *)
Theorem C141_source : forall ports (fracs : list R) demand flux, source_valid ports fracs demand = true ->
  0 <= demand /\ length fracs = ports /\ fracs <> [] /\
  length (source_vector fracs flux) = ports /\
  Rabs (total (source_vector fracs flux) - flux) <= 0.011 * Rabs flux /\
  (0 <= flux -> Forall (fun w => 0 <= w <= flux) (source_vector fracs flux)).
Proof.
  intros ports fracs demand flux V. unfold source_valid in V. rewrite !andb_true_iff in V. destruct V as [[[[V1 V2] V3] V4] V5].
  apply Nat.eqb_eq in V2. split.
  { revert V3. rnum. destruct (Rltb_spec demand 0); [discriminate|]. intros _. lra. }
  split; [congruence|]. split; [intros ->; discriminate|]. split; [unfold source_vector; rewrite map_length; congruence|].
  assert (T : total (source_vector fracs flux) = total fracs * flux).
  { clear. unfold source_vector. induction fracs as [|f l IH]; cbn [map total fold_right]; [ring|]. fold (total l). unfold total in IH at 1. rewrite IH. rnum. ring. }
  split.
  - rewrite T. replace (total fracs * flux - flux) with (- (1 - total fracs) * flux) by ring. rewrite Rabs_mult, Rabs_Ropp.
    apply Rmult_le_compat_r; [apply Rabs_pos|]. revert V5. rewrite sum_total. unfold fraction_tolerance. rnum. destruct (Rltb_spec (Rdec 11 (-3)) (Rabs (1 - total fracs))) as [A|A]; [discriminate|].
    intros _. unfold Rdec in A. cbn in A. lra.
  - intro P. unfold source_vector. apply Forall_forall. intros w W. apply in_map_iff in W. destruct W as (f & <- & I).
    rewrite forallb_forall in V4. specialize (V4 f I). unfold is_in_range in V4. revert V4. rnum. destruct (Rleb_spec 0 f), (Rleb_spec f 1); try discriminate. intros _.
    split; [apply Rmult_le_pos; lra|]. rewrite <- (Rmult_1_l flux) at 2. apply Rmult_le_compat_r; lra.
Qed.
Print Assumptions C141_source.
(** An override replaces the flux, also of a blocked source. *)
Theorem C141_override : forall (tuning demand v : R) malf malfv,
  source_flux tuning demand true v malf malfv = v /\
  source_flux tuning demand false v false malfv = tuning * demand /\
  source_flux tuning demand false v true 1 = 0 /\
  (0 <= tuning * demand -> 0 <= malfv <= 1 -> 0 <= source_flux tuning demand false v true malfv <= tuning * demand).
Proof.
  intros. unfold source_flux. rnum. split; [reflexivity|]. split; [reflexivity|]. split; [ring|]. intros A B. split.
  - apply Rmult_le_pos; lra.
  - rewrite <- (Rmult_1_r (tuning * demand)) at 2. apply Rmult_le_compat_l; lra.
Qed.
(** A panel starts with the demand of its configuration, and absorbs no more than falls on it. *)
Theorem C141_panel : forall absorptivity area demand incident : R, panel_valid absorptivity area = true ->
  (absorptivity <> 0 -> area <> 0 -> panel_demand absorptivity area (panel_incident demand absorptivity area) = demand) /\
  (0 <= incident -> 0 <= panel_demand absorptivity area incident <= incident * area).
Proof.
  intros a ar d i V. unfold panel_valid, is_in_range in V. revert V. rnum. unfold panel_demand, panel_incident. rnum.
  destruct (Rleb_spec 0 a), (Rleb_spec a 1), (Rltb_spec ar 0); try discriminate. intros _. split.
  - intros. field. auto.
  - intro P. assert (0 <= ar * i) by (apply Rmult_le_pos; lra). split; nra.
Qed.
Print Assumptions C141_panel.
(** A white panel is accepted, and then its heat flux is not a number. *)
Theorem C141_panel_refuted : exists absorptivity area demand : float, panel_valid absorptivity area = true /\
  PrimFloat.is_nan (panel_demand absorptivity area (panel_incident demand absorptivity area)) = true.
Proof. exists 0%float, 1%float, 10%float. split; vm_compute; reflexivity. Qed.
(** The five fluxes on a panel. *)
Theorem C141_multi : forall (l : list (R * R * R)) area, 0 <= area ->
  Forall (fun x => let '(a, v, f) := x in 0 <= a <= 1 /\ 0 <= v <= 1 /\ 0 <= f) l ->
  multi_demand l area = area * total (map (fun x => let '(a, v, f) := x in a * v * f) l) /\
  0 <= multi_demand l area <= area * total (map snd l).
Proof.
  intros l area A H.
  assert (E : multi_demand l area = area * total (map (fun x => let '(a, v, f) := x in a * v * f) l)).
  { unfold multi_demand. assert (G : forall (l : list (R * R * R)) s, fold_left (fun s x => let '(a, v, f) := x in s +~ a *~ v *~ f) l s = s + total (map (fun x => let '(a, v, f) := x in a * v * f) l)).
    { clear. induction l as [|[[a v] f] l IH]; intro s; cbn [fold_left map total fold_right]; [ring|]. rewrite IH. rnum. unfold total. ring. }
    rewrite G. rnum. ring. }
  split; [exact E|]. rewrite E. assert (B : 0 <= total (map (fun x => let '(a, v, f) := x in a * v * f) l) <= total (map snd l)).
  { clear E. induction H as [|[[a v] f] l (H1 & H2 & H3) H IH]; cbn [map total fold_right snd]; [lra|].
    fold (total (map snd l)). fold (total (map (fun x => let '(a, v, f) := x in a * v * f) l)).
    assert (0 <= a * v <= 1) by nra. assert (0 <= a * v * f <= f) by nra. lra. }
  split; [apply Rmult_le_pos; lra|apply Rmult_le_compat_l; lra].
Qed.
Print Assumptions C141_multi.

(** Radiation: the heat that flows at the temperatures the conductance was computed for. *)
Lemma set_adm_p (b : @base R) a : b_p0 (set_adm b a) = b_p0 b /\ b_p1 (set_adm b a) = b_p1 b.
Proof. unfold set_adm. destruct (n0 <~ nabs (b_a0 b -~ a)); split; reflexivity. Qed.
(** The flux that the link computes from a solution. *)
Definition radiated (s : @base R) (t0 t1 : R) : R := let s := with_pot s t0 t1 in flux_dead (with_drop s (delta s)).
Lemma radiated_eq s t0 t1 : radiated s t0 t1 = if Rltb (Rabs (t0 - t1)) (Rmax t0 t1 * (100 * Reps)) then 0 else (t0 - t1) * b_a0 s.
Proof. unfold radiated, flux_dead, with_drop, with_pot, delta, eps100. cbn [b_p0 b_p1 b_drop b_a0]. rewrite nmaxR. rnum. replace (Rdec 100 0) with 100 by (unfold Rdec; cbn; lra). reflexivity. Qed.
Lemma clamp_lim (g : R) : limit_range n0 g conductance_limit = within 0 g (10 ^ 15).
Proof. rewrite limit_within; [rewrite limit_value; reflexivity|]. rewrite limit_value. rnum. apply pow_le. lra. Qed.

Theorem C141_radiation : forall (b : @base R) view def, b_malf b = false -> 0 <= view -> 0 <= def -> 0 <= b_p0 b -> 0 <= b_p1 b ->
  Reps < Rabs (b_p0 b - b_p1 b) -> Rmax (b_p0 b) (b_p1 b) * (100 * Reps) <= Rabs (b_p0 b - b_p1 b) ->
  view * def * ((b_p0 b + b_p1 b) * (b_p0 b ^ 2 + b_p1 b ^ 2)) <= 10 ^ 15 ->
  radiated (radiation_step view def b) (b_p0 b) (b_p1 b) = view * def * (b_p0 b ^ 4 - b_p1 b ^ 4).
Proof.
  intros b view def M V D P0 P1 F F' L. assert (EP := Reps_pos). rewrite radiated_eq. rewrite Rltb_false by exact F'.
  unfold radiation_step. rewrite set_adm_a0, M, clamp_lim. unfold radiation_eff, pow4. rnum. rewrite (Rltb_true Reps) by exact F.
  assert (NZ : b_p0 b - b_p1 b <> 0) by (intro Z; rewrite Z, Rabs_R0 in F; lra).
  set (x := b_p0 b) in *. set (y := b_p1 b) in *. clearbody x y.
  replace (view * def * (x * x * x * x - y * y * y * y) / (x - y)) with (view * def * ((x + y) * (x ^ 2 + y ^ 2))) by (field; exact NZ).
  assert (G : 0 <= view * def * ((x + y) * (x ^ 2 + y ^ 2))) by (repeat apply Rmult_le_pos; try lra; nra).
  set (g := view * def * ((x + y) * (x ^ 2 + y ^ 2))) in *.
  assert (W : within 0 g (10 ^ 15) = g) by (unfold within; rewrite Rmin_left by exact L; rewrite Rmax_right by exact G; reflexivity).
  rewrite W. unfold g. ring.
Qed.
Print Assumptions C141_radiation.
(** Heat never flows from cold to hot, and none through a blocked link. *)
Theorem C141_radiation_passive : forall (b : @base R) view def t0 t1,
  let q := radiated (radiation_step view def b) t0 t1 in
  0 <= q * (t0 - t1) /\ (b_malf b = true -> b_malfv b = 1 -> q = 0).
Proof.
  intros b view def t0 t1. cbv zeta. rewrite radiated_eq. unfold radiation_step. rewrite set_adm_a0, clamp_lim.
  assert (W : forall x, 0 <= within 0 x (10 ^ 15)) by (intro x; unfold within; apply Rmax_l). split.
  - destruct (Rltb _ _); [lra|]. set (g := within _ _ _). assert (0 <= g) by apply W. clearbody g.
    replace ((t0 - t1) * g * (t0 - t1)) with (g * (t0 - t1) ^ 2) by ring. apply Rmult_le_pos; [assumption|apply pow2_ge_0].
  - intros -> ->. destruct (Rltb _ _); [reflexivity|]. rnum. replace (radiation_eff view def b * (1 - 1)) with 0 by ring.
    unfold within. rewrite Rmin_left by (apply pow_le; lra). rewrite Rmax_left by lra. ring.
Qed.
Print Assumptions C141_radiation_passive.
(** From equal temperatures heat flows through a link without a view, and far too little
    through one with a view: ten watts where the conductance around 300 K is some 10^8 W/K. *)
Theorem C141_radiation_refuted : exists b : @base R, b_malf b = false /\ b_p0 b = 300 /\ b_p1 b = 300 /\
  radiated (radiation_step 0 1 b) 310 300 = 10 /\ radiated (radiation_step 1 1 b) 310 300 = 10 /\
  forall t0 t1, 300 <= t0 -> 300 <= t1 -> Reps < Rabs (t0 - t1) ->
    4 * 300 ^ 3 <= b_a0 (radiation_step 1 1 (with_pot b t0 t1)).
Proof.
  assert (EP := Reps_pos). assert (ES := Reps_small).
  exists (mkbase 300 300 0 0 0 0 0 0 false 0 0 0 false 0). split; [reflexivity|]. split; [reflexivity|]. split; [reflexivity|].
  set (b := mkbase _ _ _ _ _ _ _ _ _ _ _ _ _ _).
  assert (P15 : 1 <= 10 ^ 15) by (apply pow_R1_Rle; lra).
  assert (G : forall v, radiated (radiation_step v 1 b) 310 300 = 10).
  { intro v. rewrite radiated_eq. unfold radiation_step. rewrite set_adm_a0, clamp_lim. unfold b, radiation_eff. cbn [b_malf b_p0 b_p1]. rnum.
    replace (300 - 300) with 0 by ring. rewrite Rabs_R0, (Rltb_false Reps) by lra. rewrite Rmax_left by lra. rewrite (Rabs_right (310 - 300)) by lra. rewrite Rltb_false by lra.
    unfold within. rewrite Rmin_left by exact P15. rewrite Rmax_right by lra. ring. }
  split; [apply G|]. split; [apply G|]. intros t0 t1 T0 T1 F.
  unfold radiation_step. rewrite set_adm_a0, clamp_lim. unfold b, with_pot, radiation_eff, pow4. cbn [b_malf b_p0 b_p1]. rnum. rewrite (Rltb_true Reps) by exact F.
  assert (NZ : t0 - t1 <> 0) by (intro Z; rewrite Z, Rabs_R0 in F; lra).
  replace (1 * 1 * (t0 * t0 * t0 * t0 - t1 * t1 * t1 * t1) / (t0 - t1)) with ((t0 + t1) * (t0 ^ 2 + t1 ^ 2)) by (field; exact NZ).
  assert (4 * 300 ^ 3 <= (t0 + t1) * (t0 ^ 2 + t1 ^ 2)).
  { assert (90000 <= t0 ^ 2) by nra. assert (90000 <= t1 ^ 2) by nra. replace (4 * 300 ^ 3) with (600 * 180000) by ring. apply Rmult_le_compat; lra. }
  unfold within. eapply Rle_trans; [|apply Rmax_r]. apply Rmin_glb; [assumption|]. rewrite (pow_IZR 10 15), (pow_IZR 300 3). cbn. lra.
Qed.
Print Assumptions C141_radiation_refuted.
Example ex_C141 : source_valid 2 [0.5%float; 0.5%float] 10%float = true /\ source_vector [0.5%float; 0.5%float] (source_flux 1%float 10%float false 0%float true 0.5%float) = [2.5%float; 2.5%float].
Proof. split; vm_compute; reflexivity. Qed.
