(** C211, C212: gas turbines and the shafts they share with fans. *)
From Coq Require Import Floats.
From Coq Require Import Reals Lra Lia List Arith Bool ZArith Permutation.
From Verif Require Import Num Ord MathUtil Props_Math Spec_Valve Props_Valve FluidFlow Props_FluidFlow FluidFan Props_Detector Props_FluidFan Turbine.
Import ListNotations.
Local Open Scope R_scope.

Lemma sec_range : 0 < (sec_2pi : R) < 10.
Proof.
  unfold sec_2pi. cbn [ndec RNum]. unfold Rdec. cbn [Z.leb Z.compare Z.opp]. split; [apply Rdiv_lt_0_compat; apply IZR_lt; reflexivity|].
  apply (Rmult_lt_reg_r (IZR (10 ^ 16))); [apply IZR_lt; reflexivity|]. unfold Rdiv. rewrite Rmult_assoc, Rinv_l by (apply not_0_IZR; discriminate).
  rewrite Rmult_1_r, <- mult_IZR. apply IZR_lt. reflexivity.
Qed.
Definition mix (y : R * R) (f : R) : R := fst y + f * (snd y - fst y).
Lemma interpR : forall y f, interp y f = mix y f.
Proof. reflexivity. Qed.

(** ** The turbine *)
(** Speed at the reference temperature of the source. *)
Definition corrected (c : tb_cfg R) (imp temp : R) : R := imp / (Rmax neps temp / Rmax neps (t_temp c)).
Lemma fracE : forall c imp temp, tb_frac c imp temp =
  (within (fst (t_speed c)) (corrected c imp temp) (snd (t_speed c)) - fst (t_speed c)) / (snd (t_speed c) - fst (t_speed c)).
Proof. intros. unfold tb_frac, tb_corrected. rewrite within_limit, !fan_max. reflexivity. Qed.
(** Where the turbine is between the maps of low and high speed. *)
Theorem C211_maps : forall c imp temp, fst (t_speed c) < snd (t_speed c) ->
  0 <= tb_frac c imp temp <= 1 /\
  (corrected c imp temp <= fst (t_speed c) -> tb_frac c imp temp = 0) /\
  (snd (t_speed c) <= corrected c imp temp -> tb_frac c imp temp = 1) /\
  (fst (t_speed c) <= corrected c imp temp <= snd (t_speed c) -> mix (t_speed c) (tb_frac c imp temp) = corrected c imp temp).
Proof.
  intros c imp temp L. rewrite fracE. unfold mix. set (x := corrected c imp temp). clearbody x. destruct (t_speed c) as [a b]. cbn [fst snd] in *.
  assert (W : a <= within a x b <= b) by (unfold within; split; [apply Rmax_l|apply Rmax_lub; [lra|apply Rmin_r]]).
  split; [|split; [|split]].
  - split; [apply Rmult_le_pos; [lra|left; apply Rinv_0_lt_compat; lra]|]. apply (Rmult_le_reg_r (b - a)); [lra|].
    unfold Rdiv. rewrite Rmult_assoc, Rinv_l by lra. lra.
  - intro H. unfold within. rewrite Rmin_left, Rmax_left by lra. field. lra.
  - intro H. unfold within. rewrite Rmin_right, Rmax_right by lra. field. lra.
  - intros [H1 H2]. unfold within. rewrite Rmin_left, Rmax_right by lra. field. lra.
Qed.
(** Speed and temperature that grow in proportion leave it on its map. *)
Theorem C211_similar : forall c imp temp k, 0 < k -> neps <= temp -> neps <= k * temp ->
  tb_frac c (k * imp) (k * temp) = tb_frac c imp temp.
Proof.
  intros c imp temp k K A B. rewrite !fracE. unfold corrected. rewrite !(Rmax_right neps temp), !(Rmax_right neps (k * temp)) by assumption.
  pose proof neps_pos. pose proof (Rmax_l neps (t_temp c)). set (r := Rmax neps (t_temp c)) in *. clearbody r.
  replace (k * imp / (k * temp / r)) with (imp / (temp / r)); [reflexivity|]. field. repeat split; lra.
Qed.

(** A turbine's map: flow at the reference conditions by the pressure ratio. *)
Definition mapR (m a b r : R) : R := m * ((r - 1) * (r - 1) + a * (r - 1)) / Rmax neps (r * r + b).
Section TB.
Notation flowR := (@tb_flow R RNum sqrt).
Lemma flow_on : forall c imp rho temp press pot s s', flowR c imp rho temp press pot s = Some s' -> feps < rho ->
  let p := Rmax neps press in let f := tb_frac c imp temp in
  b_drop s' = t_gain c * pot + (1 - t_gain c) * b_drop s /\
  b_ratio s' = Rmax 1 (p / Rmax neps (p - b_drop s')) /\
  b_pred s' = mapR (mix (t_flow c) f) (mix (t_c1 c) f) (mix (t_c2 c) f) (b_ratio s') * (p / Rmax neps (t_press c) / sqrt (Rmax neps temp / Rmax neps (t_temp c))).
Proof.
  intros c imp rho temp press pot s s' H D p f. unfold tb_flow in H. destruct (nabs _ <~ neps); [discriminate|].
  assert (E : (feps <~ nmax neps rho) = true) by (apply ltI; rewrite fan_max; eapply Rlt_le_trans; [exact D|apply Rmax_r]).
  rewrite E in H. injection H as <-. cbn [b_drop b_ratio b_pred]. unfold tb_map. unfold p, f, mapR. rewrite <- !fan_max. repeat split; reflexivity.
Qed.
(** The flow it predicts: the map's at the pressure ratio, at the conditions of the source. *)
Theorem C211_flow : forall c imp rho temp press pot s s', flowR c imp rho temp press pot s = Some s' -> feps < rho ->
  let p := Rmax neps press in let f := tb_frac c imp temp in
  b_drop s' = t_gain c * pot + (1 - t_gain c) * b_drop s /\
  b_ratio s' = Rmax 1 (p / Rmax neps (p - b_drop s')) /\
  b_pred s' = mapR (mix (t_flow c) f) (mix (t_c1 c) f) (mix (t_c2 c) f) (b_ratio s') * (p / Rmax neps (t_press c) / sqrt (Rmax neps temp / Rmax neps (t_temp c))).
Proof. exact flow_on. Qed.
(** Without fluid there is none. *)
Theorem C211_empty : forall c imp rho temp press pot s s', flowR c imp rho temp press pot s = Some s' -> rho <= feps -> neps <= feps ->
  b_pred s' = 0 /\ b_drop s' = b_drop s /\ b_ratio s' = b_ratio s.
Proof.
  intros c imp rho temp press pot s s' H D N. unfold tb_flow in H. destruct (nabs _ <~ neps); [discriminate|].
  assert (E : (feps <~ nmax neps rho) = false) by (apply ltN; rewrite fan_max; apply Rmax_lub; assumption).
  rewrite E in H. injection H as <-. repeat split; reflexivity.
Qed.
(** The pressure ratio is at least one; one without drop; else inlet over outlet pressure. *)
Theorem C211_ratio : forall c imp rho temp press pot s s', flowR c imp rho temp press pot s = Some s' -> feps < rho ->
  1 <= b_ratio s' /\ (b_drop s' <= 0 -> b_ratio s' = 1 /\ b_pred s' = 0) /\
  (0 <= b_drop s' -> b_drop s' <= press - neps -> b_ratio s' = press / (press - b_drop s')).
Proof.
  intros c imp rho temp press pot s s' H D. destruct (flow_on _ _ _ _ _ _ _ _ H D) as (_ & E & P).
  pose proof neps_pos as EP. pose proof (Rmax_l neps press) as PL. set (p := Rmax neps press) in *.
  split; [rewrite E; apply Rmax_l|split].
  - intro L. assert (Q : b_ratio s' = 1).
    { rewrite E. apply Rmax_left. rewrite (Rmax_right neps (p - b_drop s')) by lra.
      apply (Rmult_le_reg_r (p - b_drop s')); [lra|]. unfold Rdiv. rewrite Rmult_assoc, Rinv_l by lra. lra. }
    split; [exact Q|]. rewrite P, Q. unfold mapR. replace (1 - 1) with 0 by ring. rewrite !Rmult_0_r, Rplus_0_r, Rmult_0_r. unfold Rdiv at 1. rewrite !Rmult_0_l. reflexivity.
  - intros L M. assert (Q : p = press) by (unfold p; apply Rmax_right; lra). rewrite E, Q.
    rewrite (Rmax_right neps (press - b_drop s')) by lra. apply Rmax_right.
    apply (Rmult_le_reg_r (press - b_drop s')); [lra|]. unfold Rdiv. rewrite Rmult_assoc, Rinv_l by lra. lra.
Qed.
(** The flow on a map is not negative, and below the map's greatest flow for coefficients in
    their usual ranges. *)
Theorem C211_range : forall m a b r, 0 <= m -> 1 <= r -> 0 <= a -> -1 < b -> 
  0 <= mapR m a b r /\ (a <= 2 -> mapR m a b r <= m).
Proof.
  intros m a b r M R1 A B. unfold mapR. pose proof neps_pos as EP.
  pose proof (Rmax_l neps (r * r + b)) as PL. pose proof (Rmax_r neps (r * r + b)) as PR. set (d := Rmax _ _) in *. clearbody d.
  assert (S : 0 <= (r - 1) * (r - 1)) by (apply Rmult_le_pos; lra). assert (A1 : 0 <= a * (r - 1)) by (apply Rmult_le_pos; lra).
  split.
  - apply Rmult_le_pos; [apply Rmult_le_pos; lra|left; apply Rinv_0_lt_compat; lra].
  - intro A2. apply (Rmult_le_reg_r d); [lra|]. unfold Rdiv. rewrite Rmult_assoc, Rinv_l by lra. rewrite Rmult_1_r.
    apply Rmult_le_compat_l; [exact M|]. assert (U : a * (r - 1) <= 2 * (r - 1)) by (apply Rmult_le_compat_r; lra). lra.
Qed.
(** The conductivity lets the predicted flow through, at the pressure drop between the nodes. *)
Theorem C211_realised : forall c minp (a b : @fl R) s, 0 <= b_pred s ->
  Reps < Rabs (d_p a - d_p b) -> Reps < flow_rho a b -> Reps < flow_mw a b ->
  admittance sqrt powR (tb_conductivity sqrt powR c minp a b s) minp a b (1 / 2) * lin_drop minp a b * flow_mw a b = b_pred s.
Proof.
  intros c minp a b s P H1 H2 H3. unfold tb_conductivity. assert (E : (n0 <=~ b_pred s) = true) by (apply leI; exact P). rewrite E, halfR.
  destruct (C154_predict (b_pred s) minp a b (1 / 2) H1 H2 H3) as [Q _]. rewrite Q. apply Rabs_right. lra.
Qed.
(** Efficiency is between zero and one, and zero outside the range of pressure ratios. *)
Theorem C211_efficiency : forall c imp temp r, let f := tb_frac c imp temp in
  0 <= tb_efficiency powerRZ c imp temp r <= 1 /\
  (r < mix (t_min c) f \/ mix (t_max c) f < r -> tb_efficiency powerRZ c imp temp r = 0) /\
  (mix (t_min c) f <= r <= mix (t_max c) f -> tb_efficiency powerRZ c imp temp r =
     within 0 (poly (map (fun ab => mix ab f) (combine (fst (t_eff c)) (snd (t_eff c)))) r) 1).
Proof.
  intros c imp temp r f. unfold tb_efficiency. fold f. rewrite within_limit, C208_curve.
  change (mix (t_min c) f) with (interp (t_min c) f). change (mix (t_max c) f) with (interp (t_max c) f).
  assert (W : forall x, 0 <= within n0 x n1 <= 1).
  { intro x. unfold within. split; [apply Rmax_l|apply Rmax_lub; [cbn; lra|apply Rmin_r]]. }
  split; [|split].
  - destruct (_ && _)%bool; [apply W|cbn; lra].
  - intros [L|L]; [apply leN in L; rewrite L; reflexivity|]. apply leN in L. rewrite L, andb_false_r. reflexivity.
  - intros [A B]. apply leI in A, B. rewrite A, B. reflexivity.
Qed.
(** It never gives more than the power of the flow, takes none from a flow that loses pressure, and
    torque times speed is minus its power. *)
Theorem C211_power : forall c motor vol drop eff, 0 <= eff <= 1 -> 0 <= drop ->
  let '(p, t) := tb_power c motor vol drop eff in
  - (1000 * Rabs vol * drop) <= p <= 0 /\ t * (motor / sec_2pi) = - p /\
  (feps < motor -> neps < t_drive c -> p = - (1000 * Rabs vol * drop * eff) /\ 0 <= t) /\
  (motor <= feps \/ t_drive c <= neps -> p = 0 /\ t = 0).
Proof.
  intros c motor vol drop eff E D. unfold tb_power. rewrite fan_thou. pose proof (proj1 sec_range) as K. set (k := sec_2pi) in *. clearbody k.
  pose proof feps_pos as FP. pose proof (Rabs_pos vol) as V. assert (VD : 0 <= 1000 * Rabs vol * drop) by (apply Rmult_le_pos; lra).
  assert (VE : 0 <= 1000 * Rabs vol * drop * eff) by (apply Rmult_le_pos; lra).
  assert (VL : 1000 * Rabs vol * drop * eff <= 1000 * Rabs vol * drop * 1) by (apply Rmult_le_compat_l; lra).
  cbn [nopp nmul nabs ndiv RNum]. replace (- (1000) * Rabs vol * drop * eff) with (- (1000 * Rabs vol * drop * eff)) by ring.
  set (u := 1000 * Rabs vol * drop) in *. clearbody u.
  assert (Z : - u <= 0 <= 0 /\ 0 * (motor / k) = - 0) by (split; [split; lra|ring]).
  destruct (feps <~ motor) eqn:A; destruct (neps <~ t_drive c) eqn:B; cbn [andb n0 RNum].
  - apply ltI in A, B. split; [split; lra|]. split; [field; split; lra|]. split.
    + intros _ _. split; [reflexivity|]. apply Rmult_le_pos; [apply Rmult_le_pos; lra|left; apply Rinv_0_lt_compat; lra].
    + intros [H|H]; exfalso; [apply (Rlt_not_le _ _ A H)|apply (Rlt_not_le _ _ B H)].
  - apply ltN in B. split; [apply Z|]. split; [apply Z|]. split; [intros _ H; exfalso; apply (Rlt_not_le _ _ H B)|intros _; split; reflexivity].
  - apply ltN in A. split; [apply Z|]. split; [apply Z|]. split; [intros H _; exfalso; apply (Rlt_not_le _ _ H A)|intros _; split; reflexivity].
  - apply ltN in A. split; [apply Z|]. split; [apply Z|]. split; [intros H _; exfalso; apply (Rlt_not_le _ _ H A)|intros _; split; reflexivity].
Qed.
End TB.

(** ** The shaft *)
Definition sumR (l : list R) : R := fold_right Rplus 0 l.
Lemma fold_sum : forall l a, fold_left nadd l a = a + sumR l.
Proof. induction l as [|x l IH]; intro a; cbn [fold_left sumR fold_right]; [lra|]. rewrite IH. cbn [nadd RNum]. unfold sumR. lra. Qed.
(** The load is the sum of all torques, less the jam's part of it. *)
Theorem C212_load : forall jam ts fs, sh_load jam ts fs = (1 - match jam with Some v => v | None => 0 end) * sumR (ts ++ fs).
Proof.
  intros jam ts fs. unfold sh_load. rewrite !fold_sum. assert (A : sumR (ts ++ fs) = sumR ts + sumR fs).
  { unfold sumR. induction ts as [|x ts IH]; cbn [app fold_right]; [ring|]. rewrite IH. ring. }
  rewrite A. destruct jam; cbn [nsub nmul n0 RNum]; ring.
Qed.
Theorem C212_order : forall jam (ts ts' fs fs' : list R), Permutation ts ts' -> Permutation fs fs' -> sh_load jam ts fs = sh_load jam ts' fs'.
Proof.
  assert (P : forall l l', Permutation l l' -> sumR l = sumR l') by (intros l l' H; induction H; unfold sumR in *; cbn [fold_right] in *; lra).
  intros jam ts ts' fs fs' A B. rewrite !C212_load. f_equal. apply P. apply Permutation_app; assumption.
Qed.
(** Torques that are each minus a power over the common speed make a load that is minus the sum of
    the powers over it. *)
Theorem C212_energy : forall (w k : R) (ts fs : list (R * R)), w <> 0 -> k <> 0 ->
  Forall (fun tp => fst tp * (w / k) = - snd tp) (ts ++ fs) ->
  sh_load None (map fst ts) (map fst fs) * (w / k) = - sumR (map snd (ts ++ fs)).
Proof.
  intros w k ts fs W K H. rewrite C212_load, <- map_app. set (l := ts ++ fs) in *. clearbody l. rewrite Rminus_0_r, Rmult_1_l.
  induction H as [|[t p] l H _ IH]; unfold sumR in *; cbn [map fst snd fold_right] in *; [ring|]. rewrite Rmult_plus_distr_r, IH, H. ring.
Qed.
Theorem C212_excess : forall ts fs, sh_excess ts fs =
  sumR (map (fun t => let '(e, m, h0, h1, q) := t in e * m * (h0 - h1) - q) ts) -
  sumR (map (fun t => let '(m, h0, h1, q) := t in m * (h1 - h0) - q) fs).
Proof.
  intros ts fs. unfold sh_excess.
  assert (A : forall a, fold_left (fun r t => let '(e, m, h0, h1, q) := t in r +~ (e *~ m *~ (h0 -~ h1) -~ q)) ts a =
    a + sumR (map (fun t => let '(e, m, h0, h1, q) := t in e * m * (h0 - h1) - q) ts)).
  { induction ts as [|[[[[e m] h0] h1] q] ts IH]; intro a; cbn [fold_left map]; unfold sumR in *; cbn [fold_right]; [lra|]. rewrite IH. cbn [nadd nsub nmul RNum]. lra. }
  assert (B : forall a, fold_left (fun r t => let '(m, h0, h1, q) := t in r +~ (m *~ (h1 -~ h0) -~ q)) fs a =
    a + sumR (map (fun t => let '(m, h0, h1, q) := t in m * (h1 - h0) - q) fs)).
  { induction fs as [|[[[m h0] h1] q] fs IH]; intro a; cbn [fold_left map]; unfold sumR in *; cbn [fold_right]; [lra|]. rewrite IH. cbn [nadd nsub nmul RNum]. lra. }
  rewrite A, B. cbn [nsub n0 RNum]. lra.
Qed.
Lemma preE : forall c dt load w, sh_pre c dt load None w =
  Rmax (w + (load - s_fric c * Rmax w (s_min c)) * dt * sec_2pi / s_inertia c) neps.
Proof. intros. unfold sh_pre, sh_friction. rewrite !fan_max. f_equal. cbn [nadd nmul ndiv nopp RNum]. f_equal. unfold Rdiv. ring. Qed.
(** A shaft that is not overridden turns forward after every step, and its momentum changes by load
    and friction over the step unless it comes to a stop. *)
Theorem C212_momentum : forall c dt load w, 0 < s_inertia c -> let w' := sh_pre c dt load None w in
  neps <= w' /\ (neps < w' -> s_inertia c * ((w' - w) / sec_2pi) = (load - s_fric c * Rmax w (s_min c)) * dt).
Proof.
  intros c dt load w I w'. unfold w'. rewrite preE. split; [apply Rmax_r|]. intro H. pose proof (proj1 sec_range) as K. set (k := sec_2pi) in *. clearbody k.
  set (u := (load - s_fric c * Rmax w (s_min c)) * dt) in *. clearbody u.
  assert (E : Rmax (w + u * k / s_inertia c) neps = w + u * k / s_inertia c).
  { apply Rmax_left. destruct (Rle_dec neps (w + u * k / s_inertia c)) as [|N]; [assumption|]. rewrite Rmax_right in H by lra. exfalso. apply (Rlt_irrefl _ H). }
  rewrite E. field. split; lra.
Qed.
(** Under a constant load the speed approaches load over friction: the distance shrinks by a
    constant factor in each of any number of steps. *)
Theorem C212_settles : forall c dt load w n, 0 < s_inertia c -> 0 < s_fric c ->
  let a := s_fric c * dt * sec_2pi / s_inertia c in let e := load / s_fric c in
  0 <= a <= 1 -> Rmax neps (s_min c) <= w -> Rmax neps (s_min c) <= e ->
  Nat.iter n (sh_pre c dt load None) w = e + (1 - a) ^ n * (w - e).
Proof.
  intros c dt load w n I F a e A W E. pose proof (proj1 sec_range) as K.
  assert (STEP : forall x, Rmax neps (s_min c) <= x -> sh_pre c dt load None x = e + (1 - a) * (x - e)).
  { intros x X. rewrite preE. pose proof (Rmax_l neps (s_min c)) as X1. pose proof (Rmax_r neps (s_min c)) as X2.
    rewrite (Rmax_left x) by lra.
    assert (Q : x + (load - s_fric c * x) * dt * sec_2pi / s_inertia c = e + (1 - a) * (x - e)).
    { unfold e, a. set (k := sec_2pi) in *. clearbody k. field. split; lra. }
    rewrite Q. apply Rmax_left.
    assert (P1 : 0 <= (1 - a) * (x - Rmax neps (s_min c))) by (apply Rmult_le_pos; lra).
    assert (P2 : 0 <= a * (e - Rmax neps (s_min c))) by (apply Rmult_le_pos; lra). lra. }
  assert (BOTH : Rmax neps (s_min c) <= Nat.iter n (sh_pre c dt load None) w /\ Nat.iter n (sh_pre c dt load None) w = e + (1 - a) ^ n * (w - e)); [|apply BOTH].
  clearbody a e. induction n as [|n [IH1 IH2]]; [split; [exact W|cbn; ring]|].
  change (Nat.iter (S n) (sh_pre c dt load None) w) with (sh_pre c dt load None (Nat.iter n (sh_pre c dt load None) w)).
  rewrite STEP by exact IH1. split.
  - set (x := Nat.iter n _ w) in *. clearbody x.
    assert (P1 : 0 <= (1 - a) * (x - Rmax neps (s_min c))) by (apply Rmult_le_pos; lra).
    assert (P2 : 0 <= a * (e - Rmax neps (s_min c))) by (apply Rmult_le_pos; lra). lra.
  - rewrite IH2. cbn [pow]. ring.
Qed.
(** More load never makes it slower, more friction never faster. *)
Theorem C212_monotone : forall c dt load load' w, 0 <= dt -> 0 < s_inertia c -> load <= load' ->
  sh_pre c dt load None w <= sh_pre c dt load' None w.
Proof.
  intros c dt load load' w D I L. rewrite !preE. pose proof (proj1 sec_range) as K. set (k := sec_2pi) in *. clearbody k.
  assert (M : (load - s_fric c * Rmax w (s_min c)) * dt * k / s_inertia c <= (load' - s_fric c * Rmax w (s_min c)) * dt * k / s_inertia c).
  { unfold Rdiv. apply Rmult_le_compat_r; [left; apply Rinv_0_lt_compat; exact I|]. apply Rmult_le_compat_r; [lra|]. apply Rmult_le_compat_r; lra. }
  apply Rmax_lub; [eapply Rle_trans; [|apply Rmax_l]; lra|apply Rmax_r].
Qed.
Theorem C212_override : forall (c : sh_cfg R) dt load v w, sh_pre c dt load (Some v) w = v.
Proof. reflexivity. Qed.

(** ** Refutations and examples *)
Definition tb0 (speed : R * R) (flow c1 : R * R) : tb_cfg R :=
  mktb 300 100 flow c1 (0, 0) ([1; 0; 0; 0; 0; 0], [1; 0; 0; 0; 0; 0]) speed 1 1 (1, 1) (10, 10) 1.
Lemma tb0_valid : forall speed flow c1, 1 <= fst speed -> 1 <= snd speed -> 1 <= Rabs (fst speed - snd speed) -> 1 <= fst flow -> 1 <= snd flow ->
  tb_valid (tb0 speed flow c1) 100 300 = true.
Proof.
  intros speed flow c1 A B D E F. pose proof Reps_pos as EP. pose proof Reps_small as ES.
  unfold tb_valid, tb0. cbn [t_press t_temp t_drive t_flow t_speed t_max t_min fst snd]. cbn [nlt nabs nsub neps n0 RNum].
  repeat (match goal with |- context [Rltb ?a ?b] => destruct (Rltb_spec a b); [exfalso; lra|] end; cbn [orb]). reflexivity.
Qed.
(** Not: a turbine that initializes uses its high speed map at high speed.  With the speeds the
    wrong way round it always uses the low one. *)
Theorem C211_order_refuted : exists c, tb_valid c 100 300 = true /\ snd (t_speed c) < fst (t_speed c) /\
  forall imp temp, tb_frac c imp temp = 0.
Proof.
  exists (tb0 (2000, 1000) (1, 2) (1, 1)). split; [apply tb0_valid; cbn [fst snd]; try lra; rewrite Rabs_right; lra|]. split; [cbn; lra|].
  intros imp temp. rewrite fracE. cbn [tb0 t_speed fst snd]. unfold within.
  rewrite Rmax_left by (eapply Rle_trans; [apply Rmin_r|lra]). field.
Qed.
(** Not: the flow on a map is at most its greatest flow for every accepted coefficient. *)
Theorem C211_greatest_refuted : exists c f r, tb_valid c 100 300 = true /\ 1 <= r /\
  interp (t_flow c) f < tb_map c f r.
Proof.
  exists (tb0 (1000, 2000) (1, 1) (10, 10)), 0, 2.
  split; [apply tb0_valid; cbn [fst snd]; try lra; rewrite Rabs_left; lra|]. split; [lra|].
  unfold tb_map, interp. cbn [tb0 t_flow t_c1 t_c2 fst snd]. rewrite fan_max. cbn [nadd nsub nmul ndiv n1 RNum].
  pose proof Reps_small. change (neps : R) with Reps. rewrite Rmax_right by lra. lra.
Qed.
(** Not: a jammed shaft is never faster for it: of a braking load the jam takes its part as well. *)
Theorem C212_jam_refuted : exists c dt jam ts fs w, sh_valid c jam = true /\ 0 < dt /\
  sh_pre c dt (sh_load None ts fs) None w < sh_pre c dt (sh_load (Some jam) ts fs) None w.
Proof.
  exists (mksh 0 0 10), 1, 1, [], [-1], 10. pose proof Reps_pos as EP. pose proof Reps_small as ES.
  split.
  { unfold sh_valid. cbn [s_fric s_min s_inertia nlt nle n0 neps RNum].
    repeat (match goal with |- context [Rltb ?a ?b] => destruct (Rltb_spec a b); [exfalso; lra|] | |- context [Rleb ?a ?b] => destruct (Rleb_spec a b); [exfalso; lra|] end; cbn [orb]). reflexivity. }
  split; [lra|]. rewrite !C212_load, !preE. cbn [s_fric s_min s_inertia app sumR fold_right]. pose proof sec_range as K. set (k := sec_2pi) in *. clearbody k.
  change (neps : R) with Reps. rewrite !(Rmax_left 10) by lra. rewrite !Rmax_left by lra. lra.
Qed.
(** Not: the impellers never turn backwards: the override is not limited. *)
Theorem C212_backwards_refuted : exists c dt load v w, sh_valid c 0 = true /\ sh_pre c dt load (Some v) w < 0.
Proof.
  exists (mksh 0 0 10), 1, 0, (-1), 10. pose proof Reps_small as ES. split; [|cbn; lra].
  unfold sh_valid. cbn [s_fric s_min s_inertia nlt nle n0 neps RNum].
  repeat (match goal with |- context [Rltb ?a ?b] => destruct (Rltb_spec a b); [exfalso; lra|] | |- context [Rleb ?a ?b] => destruct (Rleb_spec a b); [exfalso; lra|] end; cbn [orb]). reflexivity.
Qed.
(** A turbine at half the inlet pressure: ratio two, and a quarter of the map's flow plus. *)
Example C211_example : exists s', tb_flow sqrt (tb0 (1000, 2000) (1, 2) (1, 1)) 2000 1 300 100 50 (mktbs 1 0 0) = Some s' /\
  b_ratio s' = 2 /\ b_pred s' = 1.
Proof.
  assert (V : exists s', tb_flow sqrt (tb0 (1000, 2000) (1, 2) (1, 1)) 2000 1 300 100 50 (mktbs 1 0 0) = Some s').
  { unfold tb_flow. assert (E : (nabs (fst (t_speed (tb0 (1000, 2000) (1, 2) (1, 1))) -~ snd (t_speed (tb0 (1000, 2000) (1, 2) (1, 1)))) <~ neps) = false).
    { apply ltN. cbn [tb0 t_speed fst snd nsub nabs RNum]. pose proof Reps_small. change (neps : R) with Reps. rewrite Rabs_left; lra. }
    rewrite E. destruct (feps <~ _); eexists; reflexivity. }
  destruct V as [s' V]. exists s'. split; [exact V|]. pose proof fan_feps as [FP FE]. pose proof Reps_pos as EP. pose proof Reps_small as ES.
  assert (D1 : feps < 1) by (eapply Rlt_trans; [exact FE|lra]).
  destruct (flow_on _ _ _ _ _ _ _ _ V D1) as (D & E & P). cbn [tb0 t_gain b_drop] in D.
  assert (DD : b_drop s' = 50) by lra.
  destruct (C211_ratio _ _ _ _ _ _ _ _ V D1) as (_ & _ & Q). rewrite DD in Q.
  assert (QQ : b_ratio s' = 2) by (rewrite Q; [field|lra|change (neps : R) with Reps; lra]). split; [exact QQ|].
  assert (F : tb_frac (tb0 (1000, 2000) (1, 2) (1, 1)) 2000 300 = 1).
  { apply C211_maps; cbn [tb0 t_speed fst snd]; [lra|]. unfold corrected. cbn [tb0 t_temp]. change (neps : R) with Reps. rewrite !Rmax_right by lra. lra. }
  rewrite P, QQ, F. unfold mapR, mix. cbn [tb0 t_flow t_c1 t_c2 t_press t_temp fst snd]. change (neps : R) with Reps.
  rewrite !Rmax_right by lra. replace (300 / 300) with 1 by field. rewrite sqrt_1. field.
Qed.
Example C212_example : sh_load None [3] [-1; -1] = 1 /\ sh_load (Some (1 / 2)) [3] [-1; -1] = 1 / 2.
Proof. rewrite !C212_load. cbn [app sumR fold_right]. split; lra. Qed.

Print Assumptions C211_maps.
Print Assumptions C211_similar.
Print Assumptions C211_flow.
Print Assumptions C211_empty.
Print Assumptions C211_ratio.
Print Assumptions C211_range.
Print Assumptions C211_realised.
Print Assumptions C211_efficiency.
Print Assumptions C211_power.
Print Assumptions C212_load.
Print Assumptions C212_order.
Print Assumptions C212_energy.
Print Assumptions C212_excess.
Print Assumptions C212_momentum.
Print Assumptions C212_settles.
Print Assumptions C212_monotone.
Print Assumptions C212_override.
Print Assumptions C211_order_refuted.
Print Assumptions C211_greatest_refuted.
Print Assumptions C212_jam_refuted.
Print Assumptions C212_backwards_refuted.
