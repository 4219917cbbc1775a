(** C234, C235: strings of photovoltaic cells. *)
From Coq Require Import Floats.
From Coq Require Import Reals Lra Lia List Arith Bool ZArith.
From Verif Require Import Num Ord MathUtil Props_Math FluidFlow Props_FluidFlow Spec_Valve Props_Valve Props_Detector FluidFan Props_FluidFan PvString.
Import ListNotations.
Local Open Scope R_scope.

Lemma nnatR k : nnat k = INR k.
Proof. induction k as [|k IH]; [reflexivity|]. cbn [nnat]. rewrite S_INR, IH. reflexivity. Qed.
Lemma nmaxR (a b : R) : nmax a b = Rmax a b.
Proof. unfold nmax. destruct (a <~ b) eqn:E; [apply ltI in E; rewrite Rmax_right; lra|apply ltN in E; rewrite Rmax_left; lra]. Qed.

(** ** Shadowed groups *)
Lemma count_below (x : R) n : 0 <= x -> let cnt := length (filter (fun k => nnat k <~ x) (seq 0 n)) in (x <= INR n -> x <= INR cnt < x + 1) /\ (INR n < x -> cnt = n).
Proof.
  intro X. induction n as [|n IH]; cbv zeta in *.
  - cbn. split; intro; [lra|reflexivity].
  - rewrite seq_S, filter_app, app_length. cbn [filter Nat.add]. destruct IH as [I1 I2]. rewrite S_INR. destruct (nnat n <~ x) eqn:E.
    + apply ltI in E. rewrite nnatR in E. rewrite (I2 E). cbn [length]. split; intro H; [|lia]. rewrite Nat.add_1_r, S_INR. lra.
    + apply ltN in E. rewrite nnatR in E. cbn [length]. rewrite Nat.add_0_r. split; intro H; [apply I1; lra|lra].
Qed.
(** The groups that are bypassed are those in the shadow, a part of one counted as one, and no fewer than failed;
    never more than there are. *)
Theorem C234_bypassed : forall (c : pvc R) i, 0 <= f_exp i <= 1 -> let ng := (e_cells c / e_int c)%nat in
  (bypassed c i <= ng)%nat /\ INR ng * (1 - f_exp i) <= INR (bypassed c i) /\ (f_grp i = None -> INR (bypassed c i) < INR ng * (1 - f_exp i) + 1) /\
  (forall g, f_grp i = Some g -> (Z.min g (Z.of_nat ng) <= Z.of_nat (bypassed c i))%Z).
Proof.
  intros c i E. cbv zeta. unfold bypassed. cbv zeta. set (ng := (e_cells c / e_int c)%nat).
  assert (D : nnat ng *~ (n1 -~ limit_range n0 (f_exp i) n1) = INR ng * (1 - f_exp i)).
  { rewrite nnatR. replace (limit_range n0 (f_exp i) n1) with (f_exp i); [reflexivity|]. rewrite within_limit. cbn [n0 n1 RNum]. unfold within. rewrite Rmin_left by lra. rewrite Rmax_right by lra. reflexivity. }
  rewrite D. set (x := INR ng * (1 - f_exp i)). pose proof (pos_INR ng) as PN.
  assert (X : 0 <= x <= INR ng) by (unfold x; nra). destruct (count_below x ng (proj1 X)) as [C1 _]. cbv zeta in C1. specialize (C1 (proj2 X)). set (nb := length _) in *.
  assert (B : (nb <= ng)%nat) by (apply Nat.lt_succ_r, INR_lt; rewrite S_INR; lra). clearbody nb.
  destruct (f_grp i) as [g|]; refine (conj _ (conj _ (conj _ _))).
  - lia.
  - eapply Rle_trans; [exact (proj1 C1)|]. apply le_INR. lia.
  - discriminate.
  - intros g' G. injection G as <-. lia.
  - exact B.
  - lra.
  - intros _. lra.
  - discriminate.
Qed.
Print Assumptions C234_bypassed.

(** ** The curve *)
Definition well (s : pvs R) : Prop := let m := w_mpp s in
  0 < t_v m < w_voc s /\ 0 < t_i m < w_isc s /\ t_p m = t_v m * t_i m /\ t_g m * t_v m = t_i m.
(** Straight from the short circuit to the point of most power and from there to the open circuit. *)
Definition on_curve (s : pvs R) (v i : R) : Prop := let m := w_mpp s in
  0 <= v <= t_v m /\ (w_isc s - i) * t_v m = (w_isc s - t_i m) * v \/ t_v m <= v <= w_voc s /\ i * (w_voc s - t_v m) = t_i m * (w_voc s - v).
(** A string that gives power has a falling curve, and at the point of most power gives its light current less that of
    its shunt. *)
Theorem C234_curve : forall (c : pvc R) i, pv_valid c i = true -> 1 / 1000000 <= nnat (e_cells c - bypassed c i * e_int c) * e_rs c -> 1 / 1000000 <= e_rsh c ->
  let s := pv_update c i in Reps < t_v (w_mpp s) -> well s /\ t_i (w_mpp s) = w_il s - w_vsh s / w_rsh s.
Proof.
  intros c i V RS RH. cbv zeta. unfold pv_update. cbv zeta. set (nb := bypassed c i) in *. set (act := (e_cells c - nb * e_int c)%nat) in *. set (na := nnat act : R) in *.
  set (vsh := na *~ e_voc c *~ _). set (il := if neps <~ vsh then _ else _). cbn [nadd nsub nmul ndiv n0 n1 RNum].
  assert (DI : (diode : R) = 1000000) by (unfold diode; cbn [ndec RNum]; unfold Rdec; cbn; lra).
  rewrite DI, !nmaxR. rewrite (Rmax_right (1 / 1000000) (e_rsh c)) by exact RH. rewrite (Rmax_right (1 / 1000000) (na * e_rs c)) by exact RS.
  set (rsh := e_rsh c) in *. set (rs := na * e_rs c) in *. set (vs := e_block c + nnat nb * e_byp c).
  assert (VP : 0 <= vsh).
  { unfold vsh. cbn [nmul nadd n1 n0 RNum]. rewrite nmaxR. apply Rmult_le_pos; [|apply Rmax_r]. apply Rmult_le_pos; [unfold na; rewrite nnatR; apply pos_INR|].
    unfold pv_valid in V. repeat (apply andb_true_iff in V; destruct V as [V ?]). match goal with H : negb (e_voc c <~ neps) = true |- _ => apply negb_true_iff in H; apply ltN in H; pose proof Reps_pos; change (neps : R) with Reps in H; lra end. }
  clearbody vs. clearbody vsh. clearbody il. destruct (0 <? act)%nat; cbn [w_mpp w_voc w_isc w_il w_vsh w_rsh].
  2: { cbn [no_pt t_v n0 RNum]. pose proof Reps_pos. lra. }
  unfold mpp. cbv zeta. cbn [nadd nsub nmul ndiv n0 n1 RNum]. rewrite !nmaxR.
  set (is := il - vsh / rsh). set (p := Rmax 0 _). destruct (n0 <~ p) eqn:E.
  2: { cbn [n0 RNum] in E. rewrite E. cbn [no_pt t_v n0 RNum]. pose proof Reps_pos. lra. }
  cbn [n0 RNum] in E. rewrite E. apply ltI in E. cbn [t_v t_i t_p t_g]. change (neps : R) with Reps. set (v0 := vsh - is * rs - vs).
  intro W. pose proof Reps_pos as E0. assert (VM : Rmax Reps v0 = v0) by (destruct (Rle_dec Reps v0); [rewrite Rmax_right by assumption; reflexivity|exfalso; rewrite Rmax_left in W by lra; lra]). rewrite VM in *. assert (V0 : 0 < v0) by lra.
  assert (PE : p = is * v0).
  { assert (Q : vsh * il - vsh * (vsh / rsh) - is * vs - is * is * na * e_rs c = is * v0) by (unfold v0, is, rs; ring). unfold p in *. rewrite Q in *. unfold Rmax in *. destruct (Rle_dec 0 (is * v0)); [reflexivity|lra]. }
  assert (IP : 0 < is) by nra. assert (CI : p / v0 = is) by (rewrite PE; field; lra). rewrite CI.
  assert (RP : 0 < rsh) by lra. assert (RSP : 0 < rs) by lra. assert (ILE : il = is + vsh / rsh) by (unfold is; ring).
  assert (VR : 0 <= vsh / rsh) by (apply Rmult_le_pos; [exact VP|left; now apply Rinv_0_lt_compat]).
  assert (SC : is < (il * rsh - vs) / (rsh + rs)).
  { apply (Rmult_lt_reg_r (rsh + rs)); [lra|]. replace ((il * rsh - vs) / (rsh + rs) * (rsh + rs)) with (il * rsh - vs) by (field; lra). replace (il * rsh) with (is * rsh + vsh) by (rewrite ILE; field; lra). unfold v0 in V0. nra. }
  split; [|reflexivity]. unfold well. cbn [w_mpp w_voc w_isc t_v t_i t_p t_g]. refine (conj (conj V0 _) (conj (conj IP _) (conj _ _))).
  - unfold v0. assert (0 < il * rsh / 1000000) by (apply Rmult_lt_0_compat; [apply Rmult_lt_0_compat; lra|lra]). nra.
  - eapply Rlt_le_trans; [exact SC|apply Rmax_r].
  - rewrite PE. ring.
  - field. lra.
Qed.
Print Assumptions C234_curve.

(** ** Loads *)
Lemma voltage_on s v : well s -> Reps <= v <= w_voc s -> on_curve s v (current_at s v).
Proof.
  unfold well, on_curve. intros (V & I & P & G) H. pose proof Reps_pos as E0. unfold current_at, is_in_range. change (neps : R) with Reps.
  assert (A : (Reps <=~ v) && (v <=~ w_voc s) = true) by (apply andb_true_iff; split; apply leI; lra). rewrite A. cbn [negb].
  destruct (v <=~ t_v (w_mpp s)) eqn:E; [apply leI in E; left|apply leN in E; right]; (split; [lra|]); cbn [nadd nsub nmul ndiv RNum]; field; lra.
Qed.
(** At a voltage the load is on the curve; outside of the curve's voltages nothing flows. *)
Theorem C235_voltage : forall s v, well s -> let t := load_voltage s v in t_v t = v /\ t_i t = current_at s v /\
  (Reps <= v <= w_voc s -> on_curve s v (t_i t) /\ t_p t = v * t_i t /\ t_g t * v = t_i t) /\ (v < Reps \/ w_voc s < v -> t_i t = 0 /\ t_p t = 0 /\ t_g t = 0).
Proof.
  intros s v W. cbv zeta. pose proof Reps_pos as E0. unfold load_voltage. destruct (negb (is_in_range neps v (w_voc s))) eqn:E; cbn [t_v t_i t_p t_g].
  - assert (C0 : current_at s v = 0) by (unfold current_at; rewrite E; reflexivity). rewrite C0. refine (conj eq_refl (conj eq_refl (conj _ _))); [|intros _; repeat split].
    intro H. exfalso. apply negb_true_iff in E. unfold is_in_range in E. change (neps : R) with Reps in E. assert (A : (Reps <=~ v) && (v <=~ w_voc s) = true) by (apply andb_true_iff; split; apply leI; lra). congruence.
  - refine (conj eq_refl (conj eq_refl (conj _ _))).
    + intro H. split; [now apply voltage_on|]. cbn [nmul ndiv RNum]. split; [reflexivity|field; lra].
    + intro H. exfalso. apply negb_false_iff in E. unfold is_in_range in E. apply andb_true_iff in E. destruct E as [A B]. apply leI in A. apply leI in B. change (neps : R) with Reps in A. lra.
Qed.
(** With a conductance the load is on the curve and obeys Ohm's law. *)
Theorem C235_conductance : forall s g, well s -> Reps <= g -> Reps <= w_isc s -> let t := load_cond s g in
  on_curve s (t_v t) (t_i t) /\ t_i t = g * t_v t /\ t_p t = t_v t * t_i t /\ t_g t = g /\ 0 < t_v t < w_voc s.
Proof.
  intros s g (V & I & P & G) HG HI. cbv zeta. pose proof Reps_pos as E0. unfold load_cond. change (neps : R) with Reps.
  assert (A : (g <~ Reps) || (w_isc s <~ Reps) = false) by (apply orb_false_iff; split; apply ltN; lra). rewrite A. cbn [t_v t_i t_p t_g]. unfold on_curve.
  set (vm := t_v (w_mpp s)) in *. set (im := t_i (w_mpp s)) in *. set (gm := t_g (w_mpp s)) in *. set (voc := w_voc s) in *. set (isc := w_isc s) in *. clearbody vm im gm voc isc.
  destruct (g <=~ gm) eqn:E; [apply leI in E|apply leN in E]; cbn [nadd nsub nmul ndiv nopp n1 RNum].
  - assert (D : 0 < im + g * (voc - vm)) by nra. assert (D2 : 1 - g * (vm - voc) / im = (im + g * (voc - vm)) / im) by (field; lra). rewrite D2.
    assert (VE : g * voc / ((im + g * (voc - vm)) / im) / g = voc * im / (im + g * (voc - vm))) by (field; repeat split; lra).
    assert (IE : g * voc / ((im + g * (voc - vm)) / im) = g * (voc * im / (im + g * (voc - vm)))) by (field; repeat split; lra).
    rewrite VE, IE. set (v := voc * im / (im + g * (voc - vm))). assert (VV : v * (im + g * (voc - vm)) = voc * im) by (unfold v; field; lra). clearbody v.
    assert (GV : g * vm <= im) by (rewrite <- G; apply Rmult_le_compat_r; lra).
    assert (V0 : 0 < v) by (apply (Rmult_lt_reg_r (im + g * (voc - vm))); [exact D|]; rewrite Rmult_0_l, VV; apply Rmult_lt_0_compat; lra).
    assert (V1 : vm <= v) by (apply (Rmult_le_reg_r (im + g * (voc - vm))); [exact D|]; rewrite VV; pose proof (Rmult_le_compat_r (voc - vm) _ _ ltac:(lra) GV); lra).
    assert (V2 : v < voc) by (apply (Rmult_lt_reg_r (im + g * (voc - vm))); [exact D|]; rewrite VV; assert (0 < voc * (g * (voc - vm))) by (repeat apply Rmult_lt_0_compat; lra); lra).
    refine (conj _ (conj eq_refl (conj _ (conj eq_refl (conj V0 V2))))); [|ring]. right. split; [lra|]. nra.
  - assert (SL : vm / (im - isc) = - (vm / (isc - im))) by (field; split; lra). set (k := vm / (isc - im)) in *. assert (K0 : 0 < k) by (unfold k; apply Rmult_lt_0_compat; [lra|apply Rinv_0_lt_compat; lra]). assert (KE : k * (isc - im) = vm) by (unfold k; field; lra). rewrite SL.
    assert (D : 0 < 1 + g * k) by nra. clearbody k.
    assert (VE : - g * - k * isc / (1 - g * - k) / g = k * isc / (1 + g * k)) by (field; repeat split; lra).
    assert (IE : - g * - k * isc / (1 - g * - k) = g * (k * isc / (1 + g * k))) by (field; repeat split; lra).
    rewrite VE, IE. set (v := k * isc / (1 + g * k)). assert (VV : v * (1 + g * k) = k * isc) by (unfold v; field; lra). clearbody v.
    assert (GV : im < g * vm) by (rewrite <- G; apply Rmult_lt_compat_r; lra). assert (V0 : 0 < v) by (apply (Rmult_lt_reg_r (1 + g * k)); [exact D|]; rewrite Rmult_0_l, VV; apply Rmult_lt_0_compat; lra). assert (V1 : v < vm).
    { apply (Rmult_lt_reg_r (1 + g * k)); [lra|]. rewrite VV. assert (k * im < k * (g * vm)) by (apply Rmult_lt_compat_l; lra). nra. }
    refine (conj _ (conj eq_refl (conj _ (conj eq_refl (conj V0 _))))); [|ring|lra]. left. split; [lra|].
    apply (Rmult_eq_reg_l k); [|lra]. replace (k * ((isc - g * v) * vm)) with ((k * isc - g * k * v) * vm) by ring. rewrite <- VV, <- KE. ring.
Qed.
(** One point of the curve obeys Ohm's law for a conductance, so that loads given by voltage and by conductance agree. *)
Theorem C235_unique : forall s g v1 i1 v2 i2, well s -> 0 < g -> on_curve s v1 i1 -> on_curve s v2 i2 -> i1 = g * v1 -> i2 = g * v2 -> v1 = v2 /\ i1 = i2.
Proof.
  intros s g v1 i1 v2 i2 (V & I & _) G C1 C2 -> ->. unfold on_curve in *.
  set (vm := t_v (w_mpp s)) in *. set (im := t_i (w_mpp s)) in *. set (voc := w_voc s) in *. set (isc := w_isc s) in *. clearbody vm im voc isc.
  assert (X : forall a b, 0 <= a <= vm -> (isc - g * a) * vm = (isc - im) * a -> vm <= b <= voc -> g * b * (voc - vm) = im * (voc - b) -> a = b).
  { intros a b A1 A2 B1 B2. assert (A3 : a * (g * vm + (isc - im)) = isc * vm) by lra. assert (B3 : b * (g * (voc - vm) + im) = im * voc) by lra.
    assert (GP : 0 < g * (voc - vm)) by (apply Rmult_lt_0_compat; lra). assert (GV : 0 < g * vm) by (apply Rmult_lt_0_compat; lra).
    destruct (Rlt_le_dec (g * vm) im) as [L|L].
    - exfalso. assert (a * (g * vm + (isc - im)) <= vm * (g * vm + (isc - im))) by (apply Rmult_le_compat_r; lra). assert (vm * (g * vm) < vm * im) by (apply Rmult_lt_compat_l; lra). lra.
    - assert (H1 : vm * (g * (voc - vm) + im) <= b * (g * (voc - vm) + im)) by (apply Rmult_le_compat_r; lra).
      assert (H2 : im * (voc - vm) <= g * vm * (voc - vm)) by (apply Rmult_le_compat_r; lra).
      assert (E1 : (g * vm - im) * (voc - vm) = 0) by lra. apply Rmult_integral in E1. destruct E1 as [E1|E1]; [|lra].
      assert (E2 : (b - vm) * (g * (voc - vm) + im) = 0) by (replace im with (g * vm) in * by lra; lra). apply Rmult_integral in E2. destruct E2 as [E2|E2]; [|lra].
      assert (E3 : (a - vm) * isc = 0) by (replace (g * vm) with im in A3 by lra; lra). apply Rmult_integral in E3. destruct E3 as [E3|E3]; lra. }
  assert (Q : v1 = v2); [|rewrite Q; auto]. destruct C1 as [[R1 E1]|[R1 E1]], C2 as [[R2 E2]|[R2 E2]].
  - assert (H : (v1 - v2) * (g * vm + (isc - im)) = 0) by lra. apply Rmult_integral in H. destruct H as [H|H]; [lra|]. assert (0 < g * vm) by (apply Rmult_lt_0_compat; lra). lra.
  - now apply X.
  - symmetry. now apply X.
  - assert (H : (v1 - v2) * (g * (voc - vm) + im) = 0) by lra. apply Rmult_integral in H. destruct H as [H|H]; [lra|]. assert (0 < g * (voc - vm)) by (apply Rmult_lt_0_compat; lra). lra.
Qed.
Print Assumptions C235_voltage.
Print Assumptions C235_conductance.
Print Assumptions C235_unique.

(** ** Loads of a given power *)
(** Below the most power the load is on the curve and has the power asked for; on the short side the voltage is
    no more than that of the most power, on the open side no less. *)
Theorem C235_power : forall s p short t0, well s -> 0 < p < t_p (w_mpp s) -> let t := load_power sqrt s p short t0 in
  on_curve s (t_v t) (t_i t) /\ t_p t = p /\ t_v t * t_i t = p /\ t_g t * t_v t = t_i t /\ (if short then t_v t <= t_v (w_mpp s) else t_v (w_mpp s) <= t_v t).
Proof.
  intros s p short t0 (V & I & P & G) HP. cbv zeta. unfold load_power. cbv zeta.
  assert (A : (n0 <~ p) && (p <~ t_p (w_mpp s)) && (t_i (w_mpp s) <~ w_isc s) = true) by (rewrite !andb_true_iff; repeat split; apply ltI; cbn; lra). rewrite A. clear A.
  rewrite P in HP. unfold on_curve. set (vm := t_v (w_mpp s)) in *. set (im := t_i (w_mpp s)) in *. set (voc := w_voc s) in *. set (isc := w_isc s) in *. clearbody vm im voc isc.
  assert (F4 : (ndec 4 0 : R) = 4) by (cbn [ndec RNum]; unfold Rdec; cbn; lra). assert (F5 : (ndec 5 (-1) : R) = 1 / 2) by (cbn [ndec RNum]; unfold Rdec; cbn; lra).
  (* a root of a falling or rising part of the power *)
  assert (FIN : forall i, 0 < i -> p / i * i = p /\ i / (p / i) * (p / i) = i) by (intros i Hi; split; field; repeat split; lra).
  destruct short; cbn [nadd nsub nmul ndiv nopp n0 n1 RNum]; rewrite F4, F5.
  - assert (SL : vm / (im - isc) = - (vm / (isc - im))) by (field; split; lra). rewrite SL. set (k := vm / (isc - im)) in *. assert (K0 : 0 < k) by (unfold k; apply Rmult_lt_0_compat; [lra|apply Rinv_0_lt_compat; lra]). assert (KE : k * (isc - im) = vm) by (unfold k; field; lra). clearbody k. clear SL.
    set (d := - - k * isc * (- - k * isc) - 4 * - k * - p). assert (DE : d = (k * isc) * (k * isc) - 4 * k * p) by (unfold d; ring).
    assert (DQ : (k * (2 * im - isc)) * (k * (2 * im - isc)) < d) by (rewrite DE; assert (k * p < k * (vm * im)) by (apply Rmult_lt_compat_l; lra); rewrite <- KE in *; lra).
    assert (D0 : 0 < d) by (pose proof (Rle_0_sqr (k * (2 * im - isc))); unfold Rsqr in *; lra).
    assert (B : (n0 <~ d) && (- k <~ n0) = true) by (apply andb_true_iff; split; apply ltI; cbn; lra). cbn [n0 RNum] in B. rewrite B. cbn [t_v t_i t_p t_g].
    set (r := sqrt d). assert (RR : r * r = d) by (apply sqrt_sqrt; lra). assert (R0 : 0 < r) by (apply sqrt_lt_R0; exact D0). clearbody r. clear B.
    set (i := 1 / 2 * (- (1) * r - - - k * isc) / - k). assert (IE : 2 * k * i = r + k * isc) by (unfold i; field; lra). clearbody i.
    assert (RU : r < k * isc) by (apply Rsqr_incrst_0; unfold Rsqr; [rewrite RR, DE; assert (0 < k * p) by (apply Rmult_lt_0_compat; lra); lra|lra|apply Rmult_le_pos; lra]).
    assert (RL : k * (2 * im - isc) < r) by (destruct (Rle_lt_dec (k * (2 * im - isc)) 0) as [L|L]; [lra|apply Rsqr_incrst_0; unfold Rsqr; [rewrite RR; exact DQ|lra|lra]]).
    assert (I1 : im < i) by (apply (Rmult_lt_reg_l (2 * k)); lra). assert (I2 : i < isc) by (apply (Rmult_lt_reg_l (2 * k)); lra).
    assert (PV : p = k * (isc - i) * i).
    { apply (Rmult_eq_reg_l (4 * k)); [|lra]. assert (R2 : r = 2 * k * i - k * isc) by lra. rewrite R2 in RR. rewrite DE in RR. lra. }
    assert (VI : p / i = k * (isc - i)) by (rewrite PV; field; lra). destruct (FIN i ltac:(lra)) as [F1 F2].
    assert (VU : k * (isc - i) <= vm) by (rewrite <- KE; apply Rmult_le_compat_l; lra). assert (VL : 0 <= k * (isc - i)) by (apply Rmult_le_pos; lra).
    refine (conj _ (conj eq_refl (conj F1 (conj F2 _)))); rewrite VI; [|exact VU]. left. split; [lra|]. rewrite <- KE. ring.
  - assert (SL : (vm - voc) / im = - ((voc - vm) / im)) by (field; lra). rewrite SL. set (k := (voc - vm) / im) in *. assert (K0 : 0 < k) by (unfold k; apply Rmult_lt_0_compat; [lra|apply Rinv_0_lt_compat; lra]). assert (KE : k * im = voc - vm) by (unfold k; field; lra). clearbody k. clear SL.
    set (d := voc * voc - 4 * - k * - p). assert (DE : d = voc * voc - 4 * k * p) by (unfold d; ring).
    assert (DQ : (voc - 2 * k * im) * (voc - 2 * k * im) < d) by (rewrite DE; assert (k * p < k * (vm * im)) by (apply Rmult_lt_compat_l; lra); replace vm with (voc - k * im) in * by lra; lra).
    assert (D0 : 0 < d) by (pose proof (Rle_0_sqr (voc - 2 * k * im)); unfold Rsqr in *; lra).
    assert (B : (n0 <~ d) && (- k <~ n0) = true) by (apply andb_true_iff; split; apply ltI; cbn; lra). cbn [n0 RNum] in B. rewrite B. cbn [t_v t_i t_p t_g].
    set (r := sqrt d). assert (RR : r * r = d) by (apply sqrt_sqrt; lra). assert (R0 : 0 < r) by (apply sqrt_lt_R0; exact D0). clearbody r. clear B.
    set (i := 1 / 2 * (1 * r - voc) / - k). assert (IE : 2 * k * i = voc - r) by (unfold i; field; lra). clearbody i.
    assert (RU : r < voc) by (apply Rsqr_incrst_0; unfold Rsqr; [rewrite RR, DE; assert (0 < k * p) by (apply Rmult_lt_0_compat; lra); lra|lra|lra]).
    assert (RL : voc - 2 * k * im < r) by (destruct (Rle_lt_dec (voc - 2 * k * im) 0) as [L|L]; [lra|apply Rsqr_incrst_0; unfold Rsqr; [rewrite RR; exact DQ|lra|lra]]).
    assert (I1 : 0 < i) by (apply (Rmult_lt_reg_l (2 * k)); lra). assert (I2 : i < im) by (apply (Rmult_lt_reg_l (2 * k)); lra).
    assert (PV : p = (voc - k * i) * i).
    { apply (Rmult_eq_reg_l (4 * k)); [|lra]. assert (R2 : r = voc - 2 * k * i) by lra. rewrite R2 in RR. rewrite DE in RR. lra. }
    assert (VI : p / i = voc - k * i) by (rewrite PV; field; lra). destruct (FIN i I1) as [F1 F2].
    assert (KI : k * i <= k * im) by (apply Rmult_le_compat_l; lra). assert (KP : 0 <= k * i) by (apply Rmult_le_pos; lra).
    refine (conj _ (conj eq_refl (conj F1 (conj F2 _)))); rewrite VI; [|lra]. right. split; [lra|]. rewrite <- KE. ring.
Qed.
Print Assumptions C235_power.
(** A power that is not between nothing and the most power gives no load at all. *)
Theorem C235_power_none : forall s p short t0, p <= 0 \/ t_p (w_mpp s) <= p -> load_power sqrt s p short t0 = no_pt.
Proof.
  intros s p short t0 H. unfold load_power. cbv zeta. destruct (n0 <~ p) eqn:E1; [|reflexivity]. destruct (p <~ t_p (w_mpp s)) eqn:E2; [|reflexivity]. apply ltI in E1. apply ltI in E2. cbn in E1. lra.
Qed.
Print Assumptions C235_power_none.
(** ** Refutations *)
Definition cell (rs rsh : float) (n : nat) (byp : float) : pvc float := (mkpvc 1 1 rs rsh 1 300 0 0 n 1%nat 0 byp)%float.
(** Refuted: the point of most power has the most power of the loads.  With a large series resistance a load at half the
    voltage has more. *)
Theorem C234_most_refuted : exists (c : pvc float) i v, pv_valid c i = true /\ let s := pv_update c i in (t_p (w_mpp s) <~ t_p (load_voltage s v)) = true.
Proof. exists (cell 0.6 1000 1%nat 0)%float, (mkpvi 1 1 300 None None)%float, 0.5%float. split; vm_compute; reflexivity. Qed.
(** Refuted: a string in the dark has no power.  If its bypass diodes drop more than its cells give, it is said to. *)
Theorem C234_dark_refuted : exists (c : pvc float) i, pv_valid c i = true /\ f_flux i = 0%float /\ let s := pv_update c i in
  w_il s = 0%float /\ (0.4 <~ t_p (w_mpp s))%float = true /\ (w_voc s <~ 0)%float = true.
Proof. exists (cell 0.1 1 2%nat 2)%float, (mkpvi 0 0.5 300 None None)%float. split; [|split; [|split; [|split]]]; vm_compute; reflexivity. Qed.
(** Refuted: a load of the most power can be asked for.  It gives none. *)
Theorem C235_most_refuted : exists (c : pvc float) i, pv_valid c i = true /\ let s := pv_update c i in (0.9 <~ t_p (w_mpp s))%float = true /\
  t_p (load_power PrimFloat.sqrt s (t_p (w_mpp s)) true no_pt) = 0%float /\ (0.9 <~ t_p (load_voltage s (t_v (w_mpp s))))%float = true.
Proof. exists (cell 0.01 1000 1%nat 0)%float, (mkpvi 1 1 300 None None)%float. split; [|split; [|split]]; vm_compute; reflexivity. Qed.
Print Assumptions C234_most_refuted.
Print Assumptions C234_dark_refuted.
Print Assumptions C235_most_refuted.
(** There are falling curves. *)
Example C235_any : well (mkpvs 10 1 2 100 1 10 3 (mkpt 8 2 16 (1 / 4))) /\ on_curve (mkpvs 10 1 2 100 1 10 3 (mkpt 8 2 16 (1 / 4))) 9 1.
Proof. unfold well, on_curve. cbn. split; [repeat split; lra|right; lra]. Qed.
(** A valid string that C234_curve speaks of. *)
Example C234_any : let c := (cell 0.01 1000 4%nat 0.1)%float in let i := (mkpvi 1 0.75 300 None None)%float in let s := pv_update c i in
  (pv_valid c i = true /\ bypassed c i = 1%nat /\ (1e-6 <=~ nnat (e_cells c - bypassed c i * e_int c)%nat *~ e_rs c) = true /\ (2 <~ t_v (w_mpp s)) = true /\ (0.9 <~ t_i (w_mpp s)) = true)%float.
Proof. vm_compute. repeat split; reflexivity. Qed.
