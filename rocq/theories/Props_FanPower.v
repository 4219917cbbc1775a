(** C209, C210: the power of a fan and the curve made from its best point; pressure heads. *)
From Coq Require Import Floats.
From Coq Require Import Reals Lra Lia List Arith Bool ZArith.
From Verif Require Import Num Ord MathUtil Props_Math Spec_Valve Props_Valve Dyn FluidFlow FluidSources FluidFan Props_Detector Props_FluidFan.
Import ListNotations.
Local Open Scope R_scope.

Lemma min_mult : forall s a b : R, 0 < s -> Rmin (s * a) (s * b) = s * Rmin a b.
Proof.
  intros s a b S. destruct (Rle_dec a b) as [L|L].
  - rewrite !Rmin_left; try apply Rmult_le_compat_l; lra.
  - rewrite !Rmin_right; try apply Rmult_le_compat_l; lra.
Qed.
Section POWER.
Variables (p34 : R -> R) (lag : list R -> R -> option (R * R)) (bre : list R -> R -> R -> option R).
Notation evalR := (@evaluate R RNum powerRZ).
Notation affR := (@affinity R RNum powerRZ).
Notation initR := (@fan_init R RNum sqrt p34 powerRZ lag bre).
Notation curveR := (@fan_curve R RNum sqrt p34 powerRZ).
Notation fracR := (@spec_frac R RNum sqrt p34 powerRZ).
Notation pbepR := (@press_bep R RNum powerRZ).

(** A fan with a best point. *)
Definition with_best (c : fan_cfg R) : Prop := 0 < k_qbep c /\ 0 < k_eff c.
Lemma init_best : forall c motor wall f, initR c motor wall = Some f -> with_best c ->
  f_coef f = curveR c /\ f_ns f = spec_speed sqrt p34 powerRZ c /\
  f_pbep f = 1000 * pbepR c * k_qbep c / k_eff c /\ f_pw f = blend (fracR c) pw_radial pw_axial /\ k_qbep c < f_q f.
Proof.
  intros c motor wall f H [A B]. unfold fan_init in H.
  assert (E : ((n0 <~ k_qbep c) && (n0 <~ k_eff c))%bool = true) by (apply andb_true_iff; split; apply ltI; assumption).
  rewrite E in H. destruct (true && (n1 <~ k_eff c))%bool; [discriminate|].
  destruct (improve lag bre (curveR c) n0 (ndec 1000 0)) as [q|]; [|discriminate].
  destruct (q <=~ k_qbep c) eqn:Q; [discriminate|]. apply leN in Q. destruct (_ || _)%bool in H; [discriminate|].
  rewrite <- fan_thou. injection H as <-. cbn [f_coef f_ns f_pbep f_pw f_q]. split; [reflexivity|]. split; [reflexivity|]. split; [reflexivity|]. split; [reflexivity|exact Q].
Qed.
Lemma dec_ns : (ns_radial : R) = 2 / 10 /\ (ns_axial : R) = 5.
Proof. unfold ns_radial, ns_axial. cbn -[Rdec]. unfold Rdec. cbn. split; lra. Qed.
(** The specific speed is between those of the radial and the axial fan, its fraction between zero
    and one. *)
Theorem C209_specific_speed : forall c, 2 / 10 <= spec_speed sqrt p34 powerRZ c <= 5 /\ 0 <= fracR c <= 1.
Proof.
  intro c. unfold spec_frac. destruct dec_ns as [D1 D2]. rewrite D1, D2.
  assert (A : 2 / 10 <= spec_speed sqrt p34 powerRZ c <= 5).
  { unfold spec_speed. set (x := _ *~ p34 _). clearbody x. change (@ndec R RNum 2 (-1)) with (@ns_radial R RNum). change (@ndec R RNum 5 0) with (@ns_axial R RNum). rewrite D1, D2.
    rewrite within_limit. unfold within. split; [apply Rmax_l|]. apply Rmax_lub; [lra|]. apply Rmin_r. }
  set (x := spec_speed _ _ _ c) in *. clearbody x. split; [exact A|]. cbn [nsub ndiv RNum].
  split; [apply Rmult_le_pos; [lra|left; apply Rinv_0_lt_compat; lra]|]. apply (Rmult_le_reg_r (5 - 2 / 10)); [lra|].
  unfold Rdiv at 1. rewrite Rmult_assoc, Rinv_l by lra. lra.
Qed.
Lemma blend_pw : forall t : R, blend t pw_radial pw_axial = [42/100 + t * (158/100); 69/100 - t * (667/100); -(11/100) + t * (889/100); - t * (38/10)].
Proof.
  intro t. unfold blend, pw_radial, pw_axial. cbn [combine map fst snd].
  repeat f_equal; cbn [nadd nmul nsub n0 ndec RNum]; unfold Rdec; cbn [Z.leb Z.compare Z.opp]; try (change (10 ^ 2)%Z with 100%Z); try (change (10 ^ 1)%Z with 10%Z); try (change (10 ^ 0)%Z with 1%Z); lra.
Qed.

(** ** Power *)
Notation powerR := (@fan_power R RNum).
Lemma ns_pos : forall c, 0 < spec_speed sqrt p34 powerRZ c.
Proof. intro c. pose proof (proj1 (C209_specific_speed c)). lra. Qed.
Lemma power_on : forall c motor wall f rho vol imp p, initR c motor wall = Some f -> with_best c -> feps < imp ->
  let s := imp / k_speed c in let x := within 0 vol (f_q f * s) / Rmax (k_qbep c * s) neps in let t := fracR c in
  powerR c f rho vol imp p = s * s * s * f_pbep f * (rho / k_rho c) *
    (42/100 + t * (158/100) + (69/100 - t * (667/100)) * x + (-(11/100) + t * (889/100)) * x * x + (- t * (38/10)) * x * x * x).
Proof.
  intros c motor wall f rho vol imp p H B I s x t. destruct (init_best _ _ _ _ H B) as (_ & N & _ & W & _).
  unfold fan_power. rewrite W, N, blend_pw. fold t.
  assert (E : ((n0 <~ spec_speed sqrt p34 powerRZ c) && (feps <~ imp))%bool = true) by (apply andb_true_iff; split; apply ltI; [apply ns_pos|exact I]).
  rewrite E. rewrite within_limit, fan_max. cbn [nadd nmul ndiv RNum]. fold s. fold x. reflexivity.
Qed.
(** At the best point, which moves in proportion to speed, power is the cube of the speed ratio
    times the density ratio times the reference power: flow times pressure over efficiency. *)
Theorem C209_best_power : forall c motor wall f rho imp p, initR c motor wall = Some f -> with_best c -> feps < imp ->
  let s := imp / k_speed c in neps <= k_qbep c * s ->
  powerR c f rho (k_qbep c * s) imp p = s * s * s * (rho / k_rho c) * (1000 * pbepR c * k_qbep c / k_eff c).
Proof.
  intros c motor wall f rho imp p H B I s L. rewrite (power_on _ _ _ _ rho _ imp p H B I). fold s.
  destruct (init_best _ _ _ _ H B) as (_ & _ & PB & _ & Q). rewrite PB.
  pose proof neps_pos as EP. destruct B as [B1 B2].
  assert (S : 0 < s). { apply (Rmult_lt_reg_l (k_qbep c)); [exact B1|]. lra. }
  assert (W : within 0 (k_qbep c * s) (f_q f * s) = k_qbep c * s).
  { unfold within. rewrite Rmin_left by (apply Rmult_le_compat_r; lra). apply Rmax_right. lra. }
  rewrite W. rewrite (Rmax_left (k_qbep c * s)) by exact L.
  replace (k_qbep c * s / (k_qbep c * s)) with 1 by (field; split; lra). cbv zeta. set (t := fracR c). clearbody t. 
  match goal with |- _ * ?u = _ => replace u with 1 by lra end. ring.
Qed.
(** Flow against the fan loads it as no flow does, and flow above the free flow as free flow. *)
Theorem C209_range : forall c motor wall f rho vol vol' imp p, initR c motor wall = Some f -> with_best c -> feps < imp ->
  let s := imp / k_speed c in
  (vol <= 0 /\ vol' = 0) \/ (f_q f * s <= vol /\ vol' = f_q f * s) ->
  powerR c f rho vol imp p = powerR c f rho vol' imp p.
Proof.
  intros c motor wall f rho vol vol' imp p H B I s D. rewrite !(power_on _ _ _ _ rho _ imp p H B I). fold s. cbv zeta.
  assert (W : within 0 vol (f_q f * s) = within 0 vol' (f_q f * s)).
  { unfold within. destruct D as [[D ->] | [D ->]].
    - rewrite (Rmax_left 0 (Rmin vol _)) by (eapply Rle_trans; [apply Rmin_l|exact D]). symmetry. apply Rmax_left, Rmin_l.
    - rewrite (Rmin_right vol) by exact D. now rewrite Rmin_left by apply Rle_refl. }
  rewrite W. reflexivity.
Qed.
(** Power at a scaled flow is the cube of the speed ratio times that at reference speed. *)
Theorem C209_cube : forall c motor wall f rho vol s p p', initR c motor wall = Some f -> with_best c ->
  0 < s -> feps < s * k_speed c -> feps < k_speed c -> neps <= k_qbep c * s -> neps <= k_qbep c ->
  powerR c f rho (vol * s) (s * k_speed c) p = s * s * s * powerR c f rho vol (k_speed c) p'.
Proof.
  intros c motor wall f rho vol s p p' H B S I I' L L'.
  rewrite (power_on _ _ _ _ rho _ _ p H B I), (power_on _ _ _ _ rho _ _ p' H B I'). cbv zeta.
  pose proof feps_pos as FP. pose proof neps_pos as EP. assert (K : k_speed c <> 0) by lra.
  replace (s * k_speed c / k_speed c) with s by (field; exact K). replace (k_speed c / k_speed c) with 1 by (field; exact K).
  rewrite Rmult_1_r. rewrite (Rmax_left (k_qbep c * s)) by exact L. rewrite (Rmax_left (k_qbep c * 1)) by (rewrite Rmult_1_r; exact L'). rewrite !Rmult_1_r.
  assert (W : within 0 (vol * s) (f_q f * s) = within 0 vol (f_q f) * s).
  { unfold within. rewrite (Rmult_comm vol), (Rmult_comm (f_q f)), min_mult, (Rmult_comm (Rmax _ _)) by exact S.
    rewrite <- RmaxRmult by lra. now rewrite Rmult_0_r. }
  rewrite W. destruct B as [B1 _]. replace (within 0 vol (f_q f) * s / (k_qbep c * s)) with (within 0 vol (f_q f) / k_qbep c) by (field; split; lra).
  set (x := within 0 vol (f_q f) / k_qbep c). clearbody x. ring.
Qed.
(** Without a best point or below the threshold of speed it is flow times pressure. *)
Theorem C209_plain : forall c f rho vol imp p, f_ns f <= 0 \/ imp <= feps ->
  powerR c f rho vol imp p = 1000 * Rabs vol * p.
Proof.
  intros c f rho vol imp p H. unfold fan_power.
  assert (E : ((n0 <~ f_ns f) && (feps <~ imp))%bool = false).
  { apply andb_false_iff. destruct H as [H|H]; [left|right]; apply ltN; exact H. }
  rewrite E, fan_thou. reflexivity.
Qed.
(** ** Torque *)
Theorem C209_torque : forall c motor power : _, 
  (feps < motor -> neps < k_drive c -> @fan_torque R RNum c motor power * (motor / sec_2pi) = - power) /\
  (motor <= feps \/ k_drive c <= neps -> @fan_torque R RNum c motor power = 0).
Proof.
  intros c motor power. unfold fan_torque. split.
  - intros A B. apply ltI in A as A'. apply ltI in B. rewrite A', B. cbn [andb nopp nmul ndiv RNum]. pose proof feps_pos.
    assert (K : (sec_2pi : R) <> 0). { unfold sec_2pi. cbn [ndec RNum]. unfold Rdec. cbn [Z.leb Z.compare]. apply Rmult_integral_contrapositive_currified; [apply not_0_IZR; discriminate|]. apply Rinv_neq_0_compat, not_0_IZR; discriminate. }
    set (k := sec_2pi) in *. clearbody k. field. split; [exact K|lra].
  - intros [A|A]; apply ltN in A; rewrite A; [reflexivity|now rewrite andb_false_r].
Qed.

(** ** Efficiency and the generated curve *)
Lemma scale_poly : forall cs k p q, q <> 0 -> (0 <= k)%Z ->
  powerRZ q k * poly (@scale_from R RNum powerRZ k p q cs) q = p * poly cs 1.
Proof.
  induction cs as [|c cs IH]; intros k p q Z K; cbn [scale_from poly]; [ring|].
  assert (E : powerRZ q (k + 1) = powerRZ q k * q) by (rewrite powerRZ_add by exact Z; f_equal; apply powerRZ_1).
  pose proof (IH (k + 1)%Z p q Z ltac:(lia)) as I. rewrite E in I. cbn [nmul ndiv RNum].
  assert (P : powerRZ q k <> 0) by now apply powerRZ_NOR.
  rewrite Rmult_plus_distr_l. rewrite <- Rmult_assoc with (r2 := q). rewrite I. field. exact P.
Qed.
Lemma ref_sum : forall t : R, poly (blend t ref_radial ref_axial) 1 = 1 - t * (11 / 1000).
Proof.
  intro t. unfold blend, ref_radial, ref_axial. cbn [combine map fst snd poly].
  cbn [nadd nmul nsub n0 ndec RNum]. unfold Rdec. cbn [Z.leb Z.compare Z.opp]. 
  change (10 ^ 2)%Z with 100%Z. change (10 ^ 3)%Z with 1000%Z. lra.
Qed.
(** A curve made from the best point alone gives there the configured pressure less up to 1.1 per
    cent, by the specific speed. *)
Theorem C209_generated : forall c, defines c = true -> 0 < k_qbep c ->
  evalR (curveR c) (k_qbep c) = hd 0 (k_coef c) * (1 - fracR c * (11 / 1000)).
Proof.
  intros c D Q. rewrite C208_curve. unfold fan_curve. rewrite D. unfold press_bep. rewrite D.
  rewrite <- (ref_sum (fracR c)). rewrite <- (scale_poly _ 0 _ (k_qbep c)) by (try lia; lra).
  change (powerRZ (k_qbep c) 0) with 1. rewrite Rmult_1_l. reflexivity.
Qed.
(** A configured curve is used as it is. *)
Theorem C209_configured : forall c, defines c = false -> curveR c = k_coef c.
Proof. intros c D. unfold fan_curve. now rewrite D. Qed.
(** The hydraulic power at the best point is the best efficiency times the shaft power, at every
    speed and density; with a generated curve it is short by that factor. *)
Theorem C209_efficiency : forall c motor wall f rho imp p, initR c motor wall = Some f -> with_best c -> feps < imp ->
  let s := imp / k_speed c in let q := k_qbep c * s in neps <= q ->
  1000 * q * evalR (affR (rho / k_rho c) s (f_coef f)) q =
    k_eff c * (if defines c then 1 - fracR c * (11 / 1000) else 1) * powerR c f rho q imp p.
Proof.
  intros c motor wall f rho imp p H B I s q L. pose proof (C209_best_power _ _ _ _ rho imp p H B I L) as W. cbv zeta in W. fold s in W. fold q in W. rewrite W.
  pose proof neps_pos as EP. destruct (init_best _ _ _ _ H B) as (F & _). destruct B as [B1 B2].
  assert (S : 0 < s) by (apply (Rmult_lt_reg_l (k_qbep c)); [exact B1|]; unfold q in L; lra).
  unfold q. rewrite C208_affinity by lra. rewrite F.
  assert (G : evalR (curveR c) (k_qbep c) = pbepR c * (if defines c then 1 - fracR c * (11 / 1000) else 1)).
  { destruct (defines c) eqn:D; [rewrite C209_generated by assumption; unfold press_bep; now rewrite D|].
    rewrite C209_configured by exact D. unfold press_bep. rewrite D. ring. }
  rewrite G. set (df := rho / k_rho c). clearbody df. clear W L q. clearbody s. destruct (defines c); field; lra.
Qed.
End POWER.

(** ** Refutations *)
Definition pow34 (x : R) : R := Rpower x (3 / 4).
Definition cfg_gen (speed : R) : fan_cfg R := mkfcfg 1000 speed [1; 0; 0; 0; 0; 0] 1 1 1 1 true 1.
(** Specific speed of a fast fan with unit flow and pressure of a fluid of density 1000. *)
Lemma ns_fast : forall c, k_speed c = 100 -> k_qbep c = 1 -> k_rho c = 1000 -> press_bep powerRZ c = 1 ->
  spec_speed sqrt pow34 powerRZ c = 5 /\ spec_frac sqrt pow34 powerRZ c = 1.
Proof.
  intros c A B D E.
  assert (S : spec_speed sqrt pow34 powerRZ c = 5).
  { unfold spec_speed. rewrite A, B, D, E. change (@ndec R RNum 2 (-1)) with (@ns_radial R RNum). change (@ndec R RNum 5 0) with (@ns_axial R RNum).
    destruct dec_ns as [D1 D2]. rewrite D1, D2. rewrite within_limit. rewrite sqrt_1. unfold pow34. cbn [nmul ndiv RNum].
    assert (K : 0 < (sec_2pi : R) < 10).
    { unfold sec_2pi. cbn [ndec RNum]. unfold Rdec. cbn [Z.leb Z.compare Z.opp]. split; [apply Rdiv_lt_0_compat; apply IZR_lt; reflexivity|].
      apply (Rmult_lt_reg_r (IZR (10 ^ 16))); [apply IZR_lt; reflexivity|]. unfold Rdiv. rewrite Rmult_assoc, Rinv_l by (apply not_0_IZR; discriminate).
      rewrite Rmult_1_r, <- mult_IZR. apply IZR_lt. reflexivity. }
    replace (ndec 1 (-3) * 1000 / 1) with 1 by (cbn [ndec RNum]; unfold Rdec; cbn; lra). replace (Rpower 1 (3 / 4)) with 1 by (unfold Rpower; now rewrite ln_1, Rmult_0_r, exp_0).
    set (k := sec_2pi) in *. clearbody k. replace (100 / k * 1 * 1) with (100 / k) by (field; lra).
    assert (G : 10 < 100 / k). { apply (Rmult_lt_reg_r k); [lra|]. unfold Rdiv. rewrite Rmult_assoc, Rinv_l by lra. lra. }
    unfold within. rewrite Rmin_right by lra. apply Rmax_right. lra. }
  split; [exact S|]. unfold spec_frac. rewrite S. destruct dec_ns as [D1 D2]. rewrite D1, D2. cbn [nsub ndiv RNum]. field.
Qed.
Lemma gen_def : defines (cfg_gen 100) = true.
Proof. unfold defines, cfg_gen. cbn [k_coef tl forallb neqb n0 RNum]. destruct (Reqb_spec 0 0); [reflexivity|lra]. Qed.
Lemma gen_curve : fan_curve sqrt pow34 powerRZ (cfg_gen 100) = [169/100; -(545/100); 962/100; -(488/100); 22/1000; -(13/1000)].
Proof.
  assert (P : press_bep powerRZ (cfg_gen 100) = 1) by (unfold press_bep; rewrite gen_def; reflexivity).
  unfold fan_curve. rewrite gen_def, P. rewrite (proj2 (ns_fast (cfg_gen 100) eq_refl eq_refl eq_refl P)).
  unfold blend, ref_radial, ref_axial. cbn [combine map fst snd scale_from cfg_gen k_qbep Z.add].
  assert (I : forall k, powerRZ 1 (Z.of_nat k) = 1) by (intro k; rewrite <- pow_powerRZ; apply pow1).
  pose proof (I 0%nat) as I0. pose proof (I 1%nat) as I1. pose proof (I 2%nat) as I2. pose proof (I 3%nat) as I3. pose proof (I 4%nat) as I4. pose proof (I 5%nat) as I5.
  cbn [Z.of_nat Pos.of_succ_nat Pos.succ] in *. cbn [Pos.add Pos.succ]. rewrite I0, I1, I2, I3, I4, I5.
  cbn [nadd nmul nsub ndiv ndec RNum]. unfold Rdec. cbn [Z.leb Z.compare Z.opp]. change (10 ^ 2)%Z with 100%Z. change (10 ^ 3)%Z with 1000%Z.
  repeat (apply (f_equal2 (@cons R)); [lra|]). reflexivity.
Qed.
Lemma gen_root : exists z, 1 <= z <= 2 /\ poly [169/100; -(545/100); 962/100; -(488/100); 22/1000; -(13/1000)] z = 0.
Proof.
  set (g := fun z => - poly [169/100; -(545/100); 962/100; -(488/100); 22/1000; -(13/1000)] z).
  assert (G : continuity g) by (unfold g; cbn [poly]; reg).
  destruct (IVT_cor g 1 2 G) as (z & Z1 & Z2); [lra|unfold g; cbn [poly]; lra|].
  exists z. split; [exact Z1|]. unfold g in Z2. lra.
Qed.
(** Not: a curve made from the best point goes through the best point. *)
Theorem C209_generated_refuted : exists lag bre c motor wall f,
  fan_init sqrt pow34 powerRZ lag bre c motor wall = Some f /\ with_best c /\ evaluate powerRZ (f_coef f) (f_q f) = 0 /\
  hd 0 (k_coef c) = 1 /\ evaluate powerRZ (f_coef f) (k_qbep c) = 989 / 1000.
Proof.
  destruct gen_root as (z & Z & E).
  set (cs := [169/100; -(545/100); 962/100; -(488/100); 22/1000; -(13/1000)]) in *.
  assert (Z1 : 1 < z). { destruct (Req_dec z 1) as [->|]; [unfold cs in E; cbn [poly] in E; lra|lra]. }
  exists (fun _ _ => Some (z, 0)), no_brent, (cfg_gen 100), 100, 300.
  set (c := cfg_gen 100). exists (mkfan cs z (spec_speed sqrt pow34 powerRZ c) (1000 * press_bep powerRZ c * k_qbep c / k_eff c) (blend (spec_frac sqrt pow34 powerRZ c) pw_radial pw_axial)).
  assert (W : with_best c) by (split; cbn; lra).
  split; [|split; [exact W|split; [rewrite C208_curve; exact E|split; [reflexivity|rewrite C208_curve; unfold cs; cbn [f_coef c cfg_gen k_qbep poly]; lra]]]].
  unfold fan_init, improve, is_in_range. rewrite fan_thou. fold c. change (fan_curve sqrt pow34 powerRZ c) with (fan_curve sqrt pow34 powerRZ (cfg_gen 100)). rewrite gen_curve. fold cs.
  pose proof Reps_pos as EP. pose proof Reps_small as ES.
  cbn [c cfg_gen k_qbep k_eff k_rho k_speed k_drive]. cbn [nlt nle n0 n1 nabs neps RNum]. rewrite Rabs_R0.
  repeat (match goal with |- context [Rltb ?a ?b] => destruct (Rltb_spec a b); try lra | |- context [Rleb ?a ?b] => destruct (Rleb_spec a b); try lra end; cbn [andb orb hd cs]); try reflexivity.
Qed.
Definition fan2 : fan R := mkfan [2; -1; 0; 0; 0; 0] 2 5 1000 (blend 1 pw_radial pw_axial).
Lemma two_init : fan_init sqrt pow34 powerRZ two_solver no_brent (cfg2 1 1 100 true) 100 300 = Some fan2.
Proof.
  assert (D : defines (cfg2 1 1 100 true) = false).
  { unfold defines, cfg2. cbn [k_coef tl forallb neqb n0 RNum]. destruct (Reqb_spec (-1) 0); [lra|reflexivity]. }
  assert (P : press_bep powerRZ (cfg2 1 1 100 true) = 1) by (unfold press_bep; rewrite D, C208_curve; cbn [cfg2 k_coef k_qbep poly]; ring).
  destruct (ns_fast (cfg2 1 1 100 true) eq_refl eq_refl eq_refl P) as [N F].
  unfold fan_init, fan_curve. rewrite D, P, N, F. unfold improve, two_solver, is_in_range. rewrite fan_thou.
  pose proof Reps_pos as EP. pose proof Reps_small as ES.
  cbn [cfg2 k_coef k_qbep k_eff k_rho k_speed k_drive]. cbn [nlt nle n0 n1 nabs neps RNum]. rewrite Rabs_R0.
  repeat (match goal with |- context [Rltb ?a ?b] => destruct (Rltb_spec a b); try lra | |- context [Rleb ?a ?b] => destruct (Rleb_spec a b); try lra end; cbn [andb orb hd]); try (cbn [hd] in *; lra).
  unfold fan2. do 2 f_equal. cbn [nmul ndiv RNum]. field.
Qed.
(** Not: turning the impeller always takes power.  A fast fan with a free flow of twice its best
    flow gives the shaft power when it moves its free flow, and drives the motor. *)
Theorem C209_takes_power_refuted : exists lag bre c motor wall f vol,
  fan_init sqrt pow34 powerRZ lag bre c motor wall = Some f /\ evaluate powerRZ (f_coef f) (f_q f) = 0 /\ 0 < vol <= f_q f /\
  let w := fan_power c f (k_rho c) vol (k_speed c) 0 in w < 0 /\ 0 < fan_torque c motor w.
Proof.
  exists two_solver, no_brent, (cfg2 1 1 100 true), 100, 300, fan2, 2. split; [exact two_init|].
  split; [rewrite C208_curve; cbn [fan2 f_coef f_q poly]; ring|]. split; [cbn; lra|]. cbv zeta.
  assert (B : with_best (cfg2 1 1 100 true)) by (split; cbn; lra). pose proof neps_pos as EP. pose proof Reps_small as ES. pose proof fan_feps as [FP FE].
  assert (F : spec_frac sqrt pow34 powerRZ (cfg2 1 1 100 true) = 1).
  { apply ns_fast; try reflexivity. unfold press_bep. assert (D : defines (cfg2 1 1 100 true) = false).
    { unfold defines, cfg2. cbn [k_coef tl forallb neqb n0 RNum]. destruct (Reqb_spec (-1) 0); [lra|reflexivity]. }
    rewrite D, C208_curve; cbn [cfg2 k_coef k_qbep poly]; ring. }
  assert (W : fan_power (cfg2 1 1 100 true) fan2 (k_rho (cfg2 1 1 100 true)) 2 (k_speed (cfg2 1 1 100 true)) 0 = - 5240).
  { cbn [k_rho k_speed cfg2]. change (mkfcfg 1000 100 [2; -1; 0; 0; 0; 0] 1 1 1 1 true 1) with (cfg2 1 1 100 true). rewrite (power_on _ _ _ _ _ _ fan2 1000 2 100 0 two_init B) by (eapply Rlt_trans; [exact FE|lra]).
    rewrite F. cbn [fan2 cfg2 k_speed k_rho k_qbep f_q f_pbep].
    replace (100 / 100) with 1 by field. replace (1000 / 1000) with 1 by field. 
    replace (Rmax (1 * 1) neps) with 1 by (rewrite Rmax_left; [ring|change (neps : R) with Reps; lra]).
    unfold within. rewrite Rmin_left, Rmax_right by lra.
    replace (2 / 1) with 2 by field. lra. }
  rewrite W. split; [lra|].
  destruct (C209_torque (cfg2 1 1 100 true) 100 (-5240)) as [Q _].
  assert (T : fan_torque (cfg2 1 1 100 true) 100 (-5240) * (100 / sec_2pi) = - -5240).
  { apply Q; [eapply Rlt_trans; [exact FE|lra]|cbn [cfg2 k_drive]; change (neps : R) with Reps; lra]. }
  assert (K : 0 < (sec_2pi : R)).
  { unfold sec_2pi. cbn [ndec RNum]. unfold Rdec. cbn [Z.leb Z.compare Z.opp]. apply Rdiv_lt_0_compat; apply IZR_lt; reflexivity. }
  set (k := sec_2pi) in *. set (t := fan_torque _ _ _) in *. clearbody k t.
  assert (0 < 100 / k) by (apply Rdiv_lt_0_compat; lra). destruct (Rlt_dec 0 t) as [|N]; [assumption|].
  assert (0 <= - t * (100 / k)) by (apply Rmult_le_pos; lra). lra.
Qed.
Example C209_example :
  fan_power (cfg2 1 1 100 true) fan2 1000 1 100 0 = 1000 /\ fan_power (cfg2 1 1 100 true) fan2 500 2 200 0 = 4000.
Proof.
  assert (B : with_best (cfg2 1 1 100 true)) by (split; cbn; lra). pose proof neps_pos as EP. pose proof Reps_small as ES. pose proof fan_feps as [FP FE].
  assert (F : press_bep powerRZ (cfg2 1 1 100 true) = 1).
  { unfold press_bep. assert (D : defines (cfg2 1 1 100 true) = false).
    { unfold defines, cfg2. cbn [k_coef tl forallb neqb n0 RNum]. destruct (Reqb_spec (-1) 0); [lra|reflexivity]. }
    rewrite D, C208_curve; cbn [cfg2 k_coef k_qbep poly]; ring. }
  split.
  - pose proof (C209_best_power _ _ _ _ _ _ fan2 1000 100 0 two_init B) as Q. rewrite F in Q. cbn [cfg2 k_qbep k_speed k_rho k_eff] in Q.
    replace (1 * (100 / 100)) with 1 in Q by field. rewrite Q; [field|eapply Rlt_trans; [exact FE|lra]|change (neps : R) with Reps; lra].
  - pose proof (C209_best_power _ _ _ _ _ _ fan2 500 200 0 two_init B) as Q. rewrite F in Q. cbn [cfg2 k_qbep k_speed k_rho k_eff] in Q.
    replace (1 * (200 / 100)) with 2 in Q by field. rewrite Q; [field|eapply Rlt_trans; [exact FE|lra]|change (neps : R) with Reps; lra].
Qed.

Print Assumptions C209_specific_speed.
Print Assumptions C209_best_power.
Print Assumptions C209_range.
Print Assumptions C209_cube.
Print Assumptions C209_plain.
Print Assumptions C209_torque.
Print Assumptions C209_generated.
Print Assumptions C209_configured.
Print Assumptions C209_efficiency.
Print Assumptions C209_generated_refuted.
Print Assumptions C209_takes_power_refuted.
