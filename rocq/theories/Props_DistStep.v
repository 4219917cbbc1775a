(** C220: the conductance of a distributed fluid interface. *)
From Coq Require Import Floats.
From Coq Require Import Reals Lra Lia List Arith Bool ZArith.
From Verif Require Import Num Ord MathUtil Props_Math FluidFlow Props_FluidFlow Spec_Valve Props_Valve Bus Props_Bus Props_Detector FluidFan Props_FluidFan Motor Props_Motor DistIf Props_DistIf Props_DistFlow.
Import ListNotations.
Local Open Scope R_scope.

Lemma gain_range dt (b : fbus (T := R)) : 0 <= di_gain dt b <= 1.
Proof.
  unfold di_gain. destruct (_ && _); [|cbn [n1 RNum]; lra].
  pose proof (C27_demand_limit_bounded b dt n0) as H. destruct (demand_limit b dt n0) as [g l]. cbn [fst]. tauto.
Qed.
Lemma both_known (b : fbus (T := R)) : neps < p_cap (b_out b) -> neps < p_cap (b_in b) -> (neps <~ p_cap (b_out b)) && (neps <~ p_cap (b_in b)) = true.
Proof. intros H1 H2. apply andb_true_intro. split; apply ltI; assumption. Qed.
(** The parts in series: the other side's capacitance times the gain, and the own one. *)
Theorem C220_series : forall c dt (b : fbus (T := R)), let k := di_conductivity c dt b in let g := di_gain dt b * p_cap (b_in b) / dt in
  in_demand b = true -> neps < dt -> neps < p_cap (b_out b) -> neps < p_cap (b_in b) ->
  (c_opt c = true -> k = g) /\ (g < neps -> k = g) /\
  (c_opt c = false -> neps <= g -> neps <= 1 / g + dt / p_cap (b_out b) -> k * (1 / g + dt / p_cap (b_out b)) = 1) /\
  0 <= k <= g /\ (c_opt c = false -> neps <= g -> k * dt <= p_cap (b_out b)).
Proof.
  intros c dt b k g D H HO HI. pose proof neps_pos as EP. pose proof (gain_range dt b) as G.
  assert (GP : 0 <= g). { unfold g. apply Rmult_le_pos; [apply Rmult_le_pos; lra|left; apply Rinv_0_lt_compat; lra]. }
  assert (KV : k = if c_opt c || (g <~ neps) then g else 1 / nmax (1 / g + dt / p_cap (b_out b)) neps).
  { unfold k, di_conductivity. rewrite D, both_known by assumption. rewrite (proj2 (ltI _ _) H). reflexivity. }
  clearbody k. clearbody g. rewrite fan_max in KV. set (o := p_cap (b_out b)) in *. clearbody o.
  assert (Q : 0 < dt / o) by (apply Rdiv_lt_0_compat; lra).
  split; [intro CO; rewrite CO in KV; exact KV|]. split; [intro L; rewrite (proj2 (ltI _ _) L), orb_true_r in KV; exact KV|].
  destruct (Rlt_dec g neps) as [L|L].
  { rewrite (proj2 (ltI _ _) L), orb_true_r in KV. subst k. split; [intros; lra|]. split; [lra|intros; lra]. }
  assert (GN : (g <~ neps) = false) by (apply ltN; lra). rewrite GN, orb_false_r in KV. destruct (c_opt c).
  { subst k. split; [discriminate|]. split; [lra|discriminate]. }
  assert (IG : 0 < 1 / g) by (apply Rdiv_lt_0_compat; lra).
  set (s := 1 / g + dt / o) in *. assert (SP : 0 < s) by (unfold s; lra).
  split; [intros _ _ B; rewrite Rmax_left in KV by lra; subst k; field; lra|].
  assert (KS : 0 < k /\ k * s <= 1).
  { pose proof (Rmax_l s neps) as M. set (m := Rmax s neps) in *. clearbody m. subst k. split; [apply Rdiv_lt_0_compat; lra|].
    apply (Rmult_le_reg_r m); [lra|]. replace (1 / m * s * m) with s by (field; lra). lra. }
  destruct KS as (KP & KS). split.
  - split; [lra|]. assert (X : k * (1 / g) <= 1). { assert (k * (1 / g) <= k * s) by (apply Rmult_le_compat_l; unfold s; lra). lra. }
    apply (Rmult_le_compat_r g) in X; [|lra]. replace (k * (1 / g) * g) with k in X by (field; lra). lra.
  - intros _ _. assert (X : k * (dt / o) <= 1). { assert (k * (dt / o) <= k * s) by (apply Rmult_le_compat_l; unfold s; lra). lra. }
    apply (Rmult_le_compat_r o) in X; [|lra]. replace (k * (dt / o) * o) with (k * dt) in X by (field; lra). lra.
Qed.
(** Unknown capacitances: the other side's alone. *)
Theorem C220_unknown : forall c dt (b : fbus (T := R)), in_demand b = true -> neps < dt -> p_cap (b_out b) <= neps \/ p_cap (b_in b) <= neps ->
  di_conductivity c dt b = p_cap (b_in b) / dt.
Proof.
  intros c dt b D H K. unfold di_conductivity, di_gain. rewrite D, (proj2 (ltI _ _) H). cbn [andb].
  assert (E : (neps <~ p_cap (b_out b)) && (neps <~ p_cap (b_in b)) = false) by (apply andb_false_iff; destruct K; [left|right]; now apply ltN).
  rewrite E. cbn [nmul ndiv n1 RNum]. unfold Rdiv. ring.
Qed.
(** Both sides in demand: no flow when the capacitances are known. *)
Theorem C220_both_demand : forall c dt (b : fbus (T := R)), in_demand b = true -> p_dem (b_in b) = true ->
  neps < p_cap (b_out b) -> neps < p_cap (b_in b) -> di_conductivity c dt b = 0.
Proof.
  intros c dt b D P HO HI. pose proof neps_pos as EP. unfold di_conductivity, di_gain. rewrite both_known by assumption. unfold demand_limit. rewrite D, P. cbn [negb andb fst].
  cbn [nmul ndiv n0 RNum]. replace (0 * p_cap (b_in b) / dt) with 0 by (unfold Rdiv; ring). assert (L : (0 <~ neps) = true) by (apply ltI; exact EP). rewrite L, orb_true_r. now destruct (neps <~ dt).
Qed.
(** In the supply role, or with no time step, the link conducts nothing: the flow is what is asked. *)
Theorem C220_supply : forall c dt block limit p (s : dif R), 0 <= limit -> in_demand (d_bus s) = false ->
  di_admittance c dt block limit (d_bus s) = 0 /\ di_supplied (di_admittance c dt block limit (d_bus s)) dt (d_bus s) = 0 /\
  di_flux (di_admittance c dt block limit (d_bus s)) p s = d_dflux s.
Proof.
  intros c dt block limit p s L D.
  assert (A : di_admittance c dt block limit (d_bus s) = 0).
  { unfold di_admittance, di_conductivity. rewrite D. cbn [andb]. rewrite within_limit. unfold within. cbn [n0 RNum]. rewrite (Rmin_left 0) by exact L. apply Rmax_left. lra. }
  split; [exact A|]. unfold di_supplied. rewrite D. split; [reflexivity|]. rewrite A. unfold di_flux, di_source. cbn [nadd nmul nopp RNum]. ring.
Qed.
Theorem C220_admittance : forall c dt (limit : R) b, 0 <= limit ->
  (forall block, 0 <= di_admittance c dt block limit b <= limit) /\
  (in_demand b = true -> neps < dt -> 0 <= di_conductivity c dt b <= limit -> di_admittance c dt None limit b = di_conductivity c dt b) /\
  (forall v, in_demand b = true -> neps < dt -> 0 <= di_conductivity c dt b * (1 - v) <= limit -> di_admittance c dt (Some v) limit b = di_conductivity c dt b * (1 - v)).
Proof.
  intros c dt limit b L. unfold di_admittance. cbv zeta. split; [|split].
  - intro block. rewrite within_limit. unfold within. cbn [n0 RNum]. split; [apply Rmax_l|]. apply Rmax_lub; [lra|apply Rmin_r].
  - intros -> H K. rewrite (proj2 (ltI _ _) H). cbn [andb]. rewrite within_limit. unfold within. cbn [n0 RNum]. now rewrite Rmin_left, Rmax_right.
  - intros v -> H K. rewrite (proj2 (ltI _ _) H). cbn [andb]. rewrite within_limit. unfold within. cbn [n0 n1 nmul nsub RNum]. now rewrite Rmin_left, Rmax_right.
Qed.
(** Demand: the flow goes from the higher pressure, and what passes in the step does not make the
    pressures of the two capacitances cross. *)
Theorem C220_no_overshoot : forall c dt block limit p (s : dif R), 0 <= limit -> in_demand (d_bus s) = true -> d_dflux s = 0 ->
  (forall v, block = Some v -> 0 <= v <= 1) -> c_opt c = false ->
  neps < dt -> neps < p_cap (b_out (d_bus s)) -> neps < p_cap (b_in (d_bus s)) -> neps <= di_gain dt (d_bus s) * p_cap (b_in (d_bus s)) / dt ->
  let a := di_admittance c dt block limit (d_bus s) in let q := di_flux a p s in
  q = a * (d_psrc s - p) /\ 0 <= q * (d_psrc s - p) /\
  Rabs q * dt * (1 / p_cap (b_in (d_bus s)) + 1 / p_cap (b_out (d_bus s))) <= Rabs (d_psrc s - p) /\
  di_supplied a dt (d_bus s) <= p_cap (b_out (d_bus s)) /\ di_supplied a dt (d_bus s) <= p_cap (b_in (d_bus s)).
Proof.
  intros c dt block limit p s L D DF BL CO H HO HI G a q. pose proof neps_pos as EP. pose proof (gain_range dt (d_bus s)) as GR.
  destruct (C220_series c dt (d_bus s) D H HO HI) as (_ & _ & _ & K1 & K2). specialize (K2 CO G).
  assert (KG : di_conductivity c dt (d_bus s) * (dt * (1 / p_cap (b_in (d_bus s)) + 1 / p_cap (b_out (d_bus s)))) <= 1).
  { set (g := di_gain dt (d_bus s) * p_cap (b_in (d_bus s)) / dt) in *.
    assert (KS : di_conductivity c dt (d_bus s) * (1 / g + dt / p_cap (b_out (d_bus s))) <= 1).
    { unfold di_conductivity. rewrite D, both_known by assumption. rewrite (proj2 (ltI _ _) H). cbn [andb]. cbn [nmul ndiv nadd n1 RNum]. fold g.
      assert (GN : (g <~ neps) = false) by (apply ltN; lra). rewrite GN, CO. cbn [orb]. rewrite fan_max.
      assert (0 < 1 / g) by (apply Rdiv_lt_0_compat; lra). assert (0 < dt / p_cap (b_out (d_bus s))) by (apply Rdiv_lt_0_compat; lra).
      set (z := 1 / g + dt / p_cap (b_out (d_bus s))) in *. assert (0 < z) by (unfold z; lra). clearbody z. pose proof (Rmax_l z neps). set (m := Rmax z neps) in *. clearbody m.
      apply (Rmult_le_reg_r m); [lra|]. replace (1 / m * z * m) with z by (field; lra). lra. }
    apply Rle_trans with (di_conductivity c dt (d_bus s) * (1 / g + dt / p_cap (b_out (d_bus s)))); [|exact KS].
    apply Rmult_le_compat_l; [lra|]. set (i := p_cap (b_in (d_bus s))) in *. set (o := p_cap (b_out (d_bus s))) in *. 
    assert (X : dt * (1 / i) <= 1 / g).
    { assert (GI : g <= i / dt). { unfold g. apply Rmult_le_compat_r; [left; apply Rinv_0_lt_compat; lra|]. assert (di_gain dt (d_bus s) * i <= 1 * i) by (apply Rmult_le_compat_r; lra). lra. }
      replace (dt * (1 / i)) with (/ (i / dt)) by (field; split; lra). unfold Rdiv at 2. rewrite Rmult_1_l. apply Rinv_le_contravar; lra. }
    replace (dt * (1 / i + 1 / o)) with (dt * (1 / i) + dt / o) by (field; split; lra). lra. }
  set (k := di_conductivity c dt (d_bus s)) in *.
  assert (AK : 0 <= a <= k).
  { unfold a, di_admittance. fold k. rewrite D, (proj2 (ltI _ _) H). cbn [andb]. rewrite within_limit. unfold within. cbn [n0 RNum].
    set (y := match block with Some v => _ | None => _ end). assert (Y : y <= k).
    { unfold y. destruct block as [v|]; [|lra]. specialize (BL v eq_refl). cbn [nmul nsub n1 RNum]. assert (k * (1 - v) <= k * 1) by (apply Rmult_le_compat_l; lra). lra. }
    clearbody y. split; [apply Rmax_l|]. apply Rmax_lub; [lra|]. apply Rle_trans with y; [apply Rmin_l|exact Y]. }
  clearbody a. clearbody k. assert (Q : q = a * (d_psrc s - p)). { unfold q, di_flux, di_source. rewrite DF. cbn [nadd nmul nopp RNum]. ring. }
  split; [exact Q|]. set (x := d_psrc s - p) in *. clearbody x.  split.
  { rewrite Q. replace (a * x * x) with (a * (x * x)) by ring. apply Rmult_le_pos; [lra|]. apply Rle_0_sqr. }
  split.
  { rewrite Q, Rabs_mult, (Rabs_right a) by lra. set (w := dt * (1 / p_cap (b_in (d_bus s)) + 1 / p_cap (b_out (d_bus s)))) in *.
    assert (W : 0 <= w). { unfold w. apply Rmult_le_pos; [lra|]. assert (0 < 1 / p_cap (b_in (d_bus s))) by (apply Rdiv_lt_0_compat; lra). assert (0 < 1 / p_cap (b_out (d_bus s))) by (apply Rdiv_lt_0_compat; lra). lra. }
    replace (a * Rabs x * dt * (1 / p_cap (b_in (d_bus s)) + 1 / p_cap (b_out (d_bus s)))) with (a * w * Rabs x) by (unfold w; ring). clearbody w.
    assert (a * w <= 1). { assert (a * w <= k * w) by (apply Rmult_le_compat_r; lra). lra. }
    pose proof (Rabs_pos x). assert (a * w * Rabs x <= 1 * Rabs x) by (apply Rmult_le_compat_r; lra). lra. }
  unfold di_supplied. rewrite D. cbn [nmul RNum]. assert (AD : a * dt <= k * dt) by (apply Rmult_le_compat_r; lra). split; [lra|].
  assert (KD : k * dt <= di_gain dt (d_bus s) * p_cap (b_in (d_bus s))).
  { destruct K1 as (_ & K1). apply (Rmult_le_compat_r dt) in K1; [|lra]. replace (di_gain dt (d_bus s) * p_cap (b_in (d_bus s)) / dt * dt) with (di_gain dt (d_bus s) * p_cap (b_in (d_bus s))) in K1 by (field; lra). exact K1. }
  assert (di_gain dt (d_bus s) * p_cap (b_in (d_bus s)) <= 1 * p_cap (b_in (d_bus s))) by (apply Rmult_le_compat_r; lra). lra.
Qed.
(** The capacitance told to the other side is never negative; it is the network's without what this
    link and others in demand add. *)
Theorem C220_capacitance : forall net supplied own others,
  let rest := net - supplied - fold_right (fun o a => (if (neps <~ fst o) && (neps <~ snd o) then fst o * (snd o / Rmax own neps) else 0) + a) 0 others in
  di_capacitance net supplied own others = Rmax 0 rest.
Proof.
  intros net supplied own others. cbv zeta. unfold di_capacitance. rewrite fan_max. cbn [n0 RNum]. f_equal.
  assert (E : forall z, fold_left (fun (a : R) (o : R * R) => if (neps <~ fst o) && (neps <~ snd o) then a -~ fst o *~ (snd o /~ nmax own neps) else a) others z
     = z - fold_right (fun o a => (if (neps <~ fst o) && (neps <~ snd o) then fst o * (snd o / Rmax own neps) else 0) + a) 0 others).
  { induction others as [|o os IH]; intro z; cbn [fold_left fold_right]; [ring|]. rewrite IH. rewrite fan_max. destruct (_ && _); cbn [nsub nmul ndiv RNum]; ring. }
  rewrite E. reflexivity.
Qed.
(** Two equal networks that meet with no lag: gain one, and half of either's capacitance is moved. *)
Definition met : fbus (T := R) :=
  {| b_in := {| p_count := 1; p_loop := 1; p_dem := false; p_cap := 1; p_src := 2; p_energy := 300; p_fr := [] |};
     b_out := {| p_count := 1; p_loop := 1; p_dem := true; p_cap := 1; p_src := 0; p_energy := 300; p_fr := [] |};
     b_last := false; b_since := 1; b_lat := 1; b_force := RNone; b_master := false; b_notes := [] |}.
Example half_moves : di_conductivity (mkdc 1 0 1 0 false false) 1 met = 1 / 2.
Proof.
  pose proof neps_pos as EP. pose proof fan_feps as FE. pose proof neps_small as NS.
  assert (G : di_gain 1 met = 1).
  { unfold di_gain. rewrite both_known by (cbn [p_cap b_in b_out met]; lra). transitivity (fst (demand_limit met 1 5)); [|apply C27_example; reflexivity]. unfold demand_limit. destruct (_ && _); [destruct (_ && _)|]; reflexivity. }
  destruct (C220_series (mkdc 1 0 1 0 false false) 1 met eq_refl) as (_ & _ & S1 & _); try (cbn [p_cap b_in b_out met]; lra). rewrite G in S1. cbn [p_cap b_in b_out met c_opt] in S1. specialize (S1 eq_refl). 
  assert (H1 : neps <= 1 * 1 / 1) by lra. assert (H2 : neps <= 1 / (1 * 1 / 1) + 1 / 1) by lra. specialize (S1 H1 H2). lra.
Qed.
(** What the demand side sends is the inflow to its node, or the content if there is no inflow or it
    has negative parts. *)
Lemma none_negative (l : list R) : existsb (fun a => a <~ n0) l = false <-> Forall (fun a => 0 <= a) l.
Proof.
  induction l as [|a l IH]; [cbn; split; [constructor|reflexivity]|]. cbn [existsb]. rewrite orb_false_iff, IH, ltN. cbn [n0 RNum].
  split; [intros (A & B); now constructor|intro H; inversion H; auto].
Qed.
Theorem C219_chosen : forall i c : fluid R,
  (0 < f_temp i -> Forall (fun a => 0 <= a) (f_x i) -> Forall (fun a => 0 <= a) (f_tc i) -> demand_fluid i c = i) /\
  (f_temp i <= 0 \/ Exists (fun a => a < 0) (f_x i) \/ Exists (fun a => a < 0) (f_tc i) -> demand_fluid i c = c).
Proof.
  intros i c. unfold demand_fluid. split.
  - intros H A B. assert (L : (n0 <~ f_temp i) = true) by (apply ltI; exact H). rewrite L. unfold negative.
    rewrite (proj2 (none_negative _) A), (proj2 (none_negative _) B). reflexivity.
  - intro H. destruct (n0 <~ f_temp i) eqn:L; [|reflexivity]. apply ltI in L. cbn [n0 RNum] in L.
    assert (E : forall l : list R, Exists (fun a => a < 0) l -> existsb (fun a => a <~ n0) l = true).
    { intros l X. apply existsb_exists. apply Exists_exists in X. destruct X as (a & IN & LT). exists a. split; [exact IN|]. now apply ltI. }
    unfold negative. destruct H as [H|[H|H]]; [lra|rewrite (E _ H); reflexivity|rewrite (E _ H), orb_true_r; reflexivity].
Qed.
Print Assumptions C219_chosen.
Print Assumptions C220_series.
Print Assumptions C220_unknown.
Print Assumptions C220_both_demand.
Print Assumptions C220_supply.
Print Assumptions C220_admittance.
Print Assumptions C220_no_overshoot.
Print Assumptions C220_capacitance.
