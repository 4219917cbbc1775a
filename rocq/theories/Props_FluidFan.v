(** C208: the pressure of a fan. *)
From Coq Require Import Floats.
From Coq Require Import Reals Lra Lia List Arith Bool ZArith.
From Verif Require Import Num Ord MathUtil Props_Math Spec_Valve Props_Valve Dyn FluidFlow FluidSources FluidFan Props_Detector.
Import ListNotations.
Local Open Scope R_scope.

(** A polynomial by its coefficients. *)
Fixpoint poly (cs : list R) (q : R) : R := match cs with [] => 0 | c :: cs' => c + q * poly cs' q end.

Lemma neps_pos : 0 < (neps : R).
Proof. exact Reps_pos. Qed.

Section FAN.
Variables (p34 : R -> R) (lag : list R -> R -> option (R * R)) (bre : list R -> R -> R -> option R).
Notation evalR := (@evaluate R RNum powerRZ).
Notation affR := (@affinity R RNum powerRZ).
Notation srcR := (@source_pressure R RNum sqrt powerRZ lag bre).
Notation updR := (@fan_update R RNum sqrt powerRZ lag bre).
Notation impR := (@improve R RNum lag bre).
Notation initR := (@fan_init R RNum sqrt p34 powerRZ lag bre).

Lemma fan_feps : 0 < (feps : R) < 1 / 10.
Proof.
  unfold feps. rnum. unfold Rdec. cbn [Z.leb Z.compare]. split; [apply Rdiv_lt_0_compat; apply IZR_lt; reflexivity|].
  apply (Rmult_lt_reg_r (IZR (10 ^ 23))); [apply IZR_lt; reflexivity|]. unfold Rdiv. rewrite Rmult_assoc, Rinv_l by (apply not_0_IZR; discriminate). rewrite Rmult_1_r.
  apply (Rmult_lt_reg_l 10); [lra|]. replace (10 * (1 * / 10 * IZR (10 ^ 23))) with (IZR (10 ^ 23)) by lra. rewrite <- mult_IZR. apply IZR_lt. reflexivity.
Qed.
Lemma feps_pos : 0 < (feps : R).
Proof. apply fan_feps. Qed.
Lemma eval_poly : forall cs k q r, (0 <= k)%Z ->
  @eval_from R RNum powerRZ k cs q r = r + powerRZ q k * poly cs q.
Proof.
  induction cs as [|c cs IH]; intros k q r K; cbn [eval_from poly]; [lra|].
  rewrite IH by lia. cbn [nadd nmul RNum].
  assert (P : powerRZ q (k + 1) = powerRZ q k * q).
  { replace k with (Z.of_nat (Z.to_nat k)) by (apply Z2Nat.id; lia). replace (Z.of_nat (Z.to_nat k) + 1)%Z with (Z.of_nat (S (Z.to_nat k))) by lia.
    rewrite <- !pow_powerRZ. cbn. ring. }
  rewrite P. ring.
Qed.
Lemma evalE : forall cs q, evalR cs q = poly cs q.
Proof. intros cs q. unfold evaluate. rewrite eval_poly by lia. cbn. ring. Qed.

(** Evaluating a curve is the polynomial of its coefficients. *)
Theorem C208_curve : forall cs q, evalR cs q = poly cs q.
Proof. exact evalE. Qed.

Lemma aff_poly : forall cs k df s q, s <> 0 -> (0 <= k)%Z ->
  powerRZ (q * s) k * poly (@affinity_from R RNum powerRZ k df s cs) (q * s) = df * (s * s) * (powerRZ q k * poly cs q).
Proof.
  induction cs as [|c cs IH]; intros k df s q Z K; cbn [affinity_from poly]; [ring|].
  cbn [nmul RNum].
  assert (E : forall x, powerRZ x (k + 1) = powerRZ x k * x).
  { intro x. replace k with (Z.of_nat (Z.to_nat k)) by (apply Z2Nat.id; lia). replace (Z.of_nat (Z.to_nat k) + 1)%Z with (Z.of_nat (S (Z.to_nat k))) by lia.
    rewrite <- !pow_powerRZ. cbn. ring. }
  pose proof (IH (k + 1)%Z df s q Z ltac:(lia)) as I. rewrite !E in I.
  assert (P : powerRZ s (2 - k) * powerRZ s k = s * s) by (rewrite <- powerRZ_add by exact Z; replace (2 - k + k)%Z with 2%Z by lia; change (powerRZ s 2) with (s * (s * 1)); ring).
  assert (D : powerRZ (q * s) k = powerRZ q k * powerRZ s k).
  { replace k with (Z.of_nat (Z.to_nat k)) by (apply Z2Nat.id; lia). rewrite <- !pow_powerRZ. apply Rpow_mult_distr. }
  rewrite D in *. rewrite !Rmult_plus_distr_l.
  replace (powerRZ q k * powerRZ s k * (c * df * powerRZ s (2 - k))) with (powerRZ q k * c * df * (powerRZ s (2 - k) * powerRZ s k)) by ring.
  rewrite P.
  replace (powerRZ q k * powerRZ s k * (q * s * poly (affinity_from powerRZ (k + 1) df s cs) (q * s)))
    with (powerRZ q k * powerRZ s k * (q * s) * poly (affinity_from powerRZ (k + 1) df s cs) (q * s)) by ring.
  match goal with |- _ + ?x = _ => replace x with (df * (s * s) * (powerRZ q k * q * poly cs q)) by (rewrite <- I; reflexivity) end. ring.
Qed.
Lemma affE : forall cs df s q, s <> 0 -> poly (affR df s cs) (q * s) = df * (s * s) * poly cs q.
Proof. intros cs df s q Z. pose proof (aff_poly cs 0 df s q Z ltac:(lia)) as A. cbn [powerRZ] in A. rewrite !Rmult_1_l in A. exact A. Qed.

(** The affinity laws: at [s] times the reference speed and [df] times the reference density, the
    curve at [s] times a flow is [df] times the square of [s] times the reference curve. *)
Theorem C208_affinity : forall cs df s q, s <> 0 ->
  evalR (affR df s cs) (q * s) = df * (s * s) * evalR cs q.
Proof. intros cs df s q Z. rewrite !evalE. now apply affE. Qed.
(** The flow at which the fan makes no pressure is proportional to speed, at every density. *)
Theorem C208_free_flow : forall cs df s q, s <> 0 -> evalR cs q = 0 -> evalR (affR df s cs) (q * s) = 0.
Proof. intros cs df s q Z E. rewrite C208_affinity, E by exact Z. ring. Qed.

Lemma aff_hd : forall cs df s, s <> 0 -> hd 0 (affR df s cs) = hd 0 cs * df * (s * s).
Proof. intros [|c cs] df s Z; cbn [affinity affinity_from hd]; [lra|]. cbn [nmul RNum]. change (powerRZ s (2 - 0)) with (s * (s * 1)). ring. Qed.
Lemma aff_len : forall cs k df s, length (@affinity_from R RNum powerRZ k df s cs) = length cs.
Proof. induction cs as [|c cs IH]; intros; cbn; [reflexivity|now rewrite IH]. Qed.

Lemma fan_thou : (ndec 1000 0 : R) = 1000.
Proof. cbn -[Rdec]. unfold Rdec. cbn. lra. Qed.
Lemma fan_max : forall a b : R, nmax a b = Rmax a b.
Proof. intros a b. unfold nmax. cbn [nlt RNum]. destruct (Rltb_spec a b); [rewrite Rmax_right; lra|rewrite Rmax_left; lra]. Qed.
Definition running (s : fst_ R) (rho : R) : Prop := feps < m_imp s /\ feps < rho.
Lemma run_dec : forall s rho, ((feps <~ m_imp s) && (feps <~ rho))%bool = true <-> running s rho.
Proof. intros. rewrite andb_true_iff, !ltI. reflexivity. Qed.
Lemma src_off : forall c f rho vol s, ~ running s rho -> srcR c f rho vol s = mkfst (m_imp s) (m_sys s) (m_q s) 0.
Proof.
  intros c f rho vol s H. unfold source_pressure.
  destruct ((feps <~ m_imp s) && (feps <~ rho))%bool eqn:E; [exfalso; apply H; now apply run_dec|reflexivity].
Qed.
Lemma src_on : forall c f rho vol s, running s rho ->
  srcR c f rho vol s =
    let df := rho / k_rho c in let sf := m_imp s / k_speed c in
    let a := affR df sf (f_coef f) in
    let g := sys_filter (k_gain c) (sys_now sqrt f sf vol (m_p s) (hd 0 a)) (m_sys s) in
    let q := match impR (less_system g a) (m_q s) (f_q f * sf) with Some q => q | None => m_q s end in
    mkfst (m_imp s) g q (nmax 0 (evalR a q)).
Proof. intros c f rho vol s H. apply run_dec in H. unfold source_pressure. rewrite H. reflexivity. Qed.

(** A stopped impeller or one without fluid makes no pressure and forgets nothing. *)
Theorem C208_stopped : forall c f rho vol s, ~ running s rho ->
  srcR c f rho vol s = mkfst (m_imp s) (m_sys s) (m_q s) 0.
Proof. exact src_off. Qed.
(** Otherwise the pressure is that of the affinity curve at the predicted flow, at least zero. *)
Theorem C208_pressure : forall c f rho vol s, running s rho -> 
  let s' := srcR c f rho vol s in
  m_p s' = Rmax 0 (evalR (affR (rho / k_rho c) (m_imp s / k_speed c) (f_coef f)) (m_q s')).
Proof. intros c f rho vol s H. cbv zeta. rewrite (src_on c f rho vol s H). cbn [m_p m_q]. cbv zeta. apply fan_max. Qed.
Theorem C208_not_negative : forall c f rho vol s, 0 <= m_p (srcR c f rho vol s).
Proof.
  intros c f rho vol s. destruct (Rlt_dec feps (m_imp s)) as [A|A]; [destruct (Rlt_dec feps rho) as [B|B]|].
  - rewrite C208_pressure by now split. apply Rmax_l.
  - rewrite src_off by (intros [_ D]; exact (B D)). apply Rle_refl.
  - rewrite src_off by (intros [D _]; exact (A D)). apply Rle_refl.
Qed.

Lemma less_poly : forall g cs q, neps < g -> (3 <= length cs)%nat ->
  poly (less_system g cs) q = poly cs q - (q / g) * (q / g).
Proof.
  intros g cs q G L. unfold less_system. destruct (neps <~ g) eqn:E; [|apply ltN in E; lra].
  assert (0 < g) by (pose proof neps_pos; lra).
  destruct cs as [|a [|b [|c r]]]; cbn in L; try lia. cbn [poly]. cbn [nsub ndiv n1 RNum]. field. lra.
Qed.
(** When the solver ends on a root of the difference of curves, the fan's pressure there is the
    system's: the square of flow over system constant. *)
Theorem C208_meets : forall c f rho vol s, running s rho -> length (f_coef f) = 6%nat ->
  let s' := srcR c f rho vol s in
  let a := affR (rho / k_rho c) (m_imp s / k_speed c) (f_coef f) in
  neps < m_sys s' -> evalR (less_system (m_sys s') a) (m_q s') = 0 ->
  m_p s' = (m_q s' / m_sys s') * (m_q s' / m_sys s').
Proof.
  intros c f rho vol s H L s' a G E. unfold s', a in *. rewrite (C208_pressure c f rho vol s H).
  rewrite evalE in E |- *. rewrite less_poly in E by (try exact G; unfold affinity; rewrite aff_len, L; lia).
  set (q := m_q (srcR c f rho vol s)) in *. set (g := m_sys (srcR c f rho vol s)) in *.
  pose proof (Rle_0_sqr (q / g)) as S. unfold Rsqr in S. rewrite Rmax_right; lra.
Qed.
(** A solver's exception keeps the predicted flow; the pressure follows the speed on the curve. *)
Theorem C208_unsolved : forall c f rho vol s, running s rho ->
  (forall cs q m, impR cs q m = None) -> m_q (srcR c f rho vol s) = m_q s.
Proof. intros c f rho vol s H I. rewrite (src_on c f rho vol s H). cbn [m_q]. cbv zeta. now rewrite I. Qed.

(** The flow solver: a real root in range is used as it is, and otherwise Brent's result. *)
Theorem C208_solver : forall cs q m r, impR cs q m = Some r ->
  (exists im, lag cs q = Some (r, im) /\ 0 <= r <= m /\ Rabs im < neps) \/
  (bre cs 0 (m + feps) = Some r /\ exists re im, lag cs q = Some (re, im) /\ (re < 0 \/ m < re \/ neps <= Rabs im)).
Proof.
  intros cs q m r H. unfold improve in H. destruct (lag cs q) as [[re im]|] eqn:L; [|discriminate].
  destruct (is_in_range n0 re m) eqn:A; destruct (nabs im <~ neps) eqn:D; cbn [andb] in H.
  - injection H as <-. left. exists im. unfold is_in_range in A. apply andb_true_iff in A. destruct A as [A B]. apply leI in A, B. apply ltI in D.
    split; [reflexivity|]. split; [split; assumption|exact D].
  - right. split; [exact H|]. exists re, im. split; [reflexivity|]. right. right. apply ltN in D. exact D.
  - right. split; [exact H|]. exists re, im. split; [reflexivity|]. unfold is_in_range in A. apply andb_false_iff in A.
    destruct A as [A|A]; apply leN in A; [left; exact A|right; left; exact A].
  - right. split; [exact H|]. exists re, im. split; [reflexivity|]. right. right. apply ltN in D. exact D.
Qed.

(** ** The system constant *)
Lemma within_limit : forall lo x hi : R, limit_range lo x hi = within lo x hi.
Proof.
  intros lo x hi. unfold limit_range, within. rewrite fan_max, Rmax_comm. f_equal. unfold nmin, Rmin. cbn [nlt RNum].
  destruct (Rltb_spec hi x), (Rle_dec x hi); lra.
Qed.
(** With a filter gain between zero and one it stays positive. *)
Theorem C208_system_positive : forall c f rho vol s, running s rho ->
  0 <= k_gain c <= 1 -> 0 < f_q f -> 0 < k_speed c -> 0 < m_sys s -> 0 < m_sys (srcR c f rho vol s).
Proof.
  intros c f rho vol s H G Q K M. rewrite (src_on c f rho vol s H). cbn [m_sys]. cbv zeta.
  set (p := hd 0 _). clearbody p. destruct H as [I _]. pose proof feps_pos as F.
  assert (S : 0 < m_imp s / k_speed c) by (apply Rdiv_lt_0_compat; lra).
  unfold sys_filter, sys_now. rewrite within_limit. unfold within.
  assert (P : 0 < Rmax neps (Rmin (m_p s) p)) by (pose proof (Rmax_l neps (Rmin (m_p s) p)); pose proof neps_pos; lra).
  assert (W : 0 < nmax (f_q f *~ (m_imp s / k_speed c) *~ ndec 1 (-4)) vol).
  { assert (0 < f_q f * (m_imp s / k_speed c) * Rdec 1 (-4)).
    { apply Rmult_lt_0_compat; [apply Rmult_lt_0_compat; assumption|unfold Rdec; cbn; lra]. }
    unfold nmax. cbn [nlt nmul ndec RNum]. rcases; lra. }
  pose proof (sqrt_lt_R0 _ P) as Q1. pose proof (Rdiv_lt_0_compat _ _ W Q1) as Q2.
  cbn [nadd nmul nsub ndiv n1 RNum]. set (w := nmax _ _ / _) in *. clearbody w.
  destruct (Req_dec (k_gain c) 0) as [->|Z]; [lra|].
  assert (0 < k_gain c * w) by (apply Rmult_lt_0_compat; lra).
  assert (0 <= (1 - k_gain c) * m_sys s) by (apply Rmult_le_pos; lra). lra.
Qed.
(** The filter: with a constant measurement the distance to it shrinks by one minus the gain in
    each of any number of steps. *)
Theorem C208_filter : forall gain now old n,
  Nat.iter n (sys_filter gain now) old - now = (1 - gain) ^ n * (old - now).
Proof.
  intros gain now old n. induction n as [|n IH]; [cbn; lra|].
  change (Nat.iter (S n) (sys_filter gain now) old) with (sys_filter gain now (Nat.iter n (sys_filter gain now) old)).
  set (x := Nat.iter n _ old) in *. clearbody x. unfold sys_filter. cbn [nadd nmul nsub n1 RNum pow].
  replace (gain * now + (1 - gain) * x - now) with ((1 - gain) * (x - now)) by ring. rewrite IH. ring.
Qed.
(** A steady point: where flow is the predicted one, the system constant fits flow and pressure
    and the solver stays, nothing changes, with any gain. *)
Theorem C208_steady : forall c f rho s,
  let df := rho / k_rho c in let sf := m_imp s / k_speed c in let a := affR df sf (f_coef f) in
  running s rho -> f_q f * sf / 10000 <= m_q s -> neps <= m_p s <= hd 0 a ->
  m_sys s * sqrt (m_p s) = m_q s -> evalR a (m_q s) = m_p s ->
  impR (less_system (m_sys s) a) (m_q s) (f_q f * sf) = Some (m_q s) ->
  srcR c f rho (m_q s) s = s.
Proof.
  intros c f rho s df sf a H V P G E I. rewrite (src_on c f rho (m_q s) s H). cbv zeta. fold df sf. fold a.
  pose proof neps_pos as EP.   assert (S0 : 0 < sqrt (m_p s)) by (apply sqrt_lt_R0; lra).
  assert (W : sys_now sqrt f sf (m_q s) (m_p s) (hd 0 a) = m_sys s).
  { unfold sys_now. rewrite within_limit. unfold within. rewrite Rmin_left by apply P. rewrite Rmax_right by (cbn; apply P).
    replace (nmax (f_q f *~ sf *~ ndec 1 (-4)) (m_q s)) with (m_q s).
    - cbn [ndiv RNum]. rewrite <- G. field. lra.
    - unfold nmax. cbn [nlt nmul ndec RNum]. replace (Rdec 1 (-4)) with (1/10000) by (unfold Rdec; cbn; lra). rcases; lra. }
  rewrite W. assert (F : sys_filter (k_gain c) (m_sys s) (m_sys s) = m_sys s) by (unfold sys_filter; cbn; ring).
  rewrite F, I, E, fan_max. rewrite Rmax_right by lra. destruct s; reflexivity.
Qed.

(** ** The check valve and the speed *)
Theorem C208_check : forall c f motor rho vol p0 p1 s s' v g, updR c f motor rho vol p0 p1 s = (s', v, g) ->
  (k_check c = false \/ p1 < m_p s' + p0 -> v = 1 /\ g = k_cond c) /\
  (k_check c = true -> m_p s' + p0 <= p1 -> v = 0 /\ g = 0).
Proof.
  intros c f motor rho vol p0 p1 s s' v g H. unfold fan_update in H. injection H as H1 <- <-. rewrite H1. clear H1.
  unfold check_valve. cbn [nadd nsub nlt n0 n1 nmul RNum]. split.
  - intros [-> |K]; [rewrite orb_true_r; split; [reflexivity|ring]|]. 
    rewrite (Rltb_true 0 (m_p s' + p0 - p1)) by lra. cbn. split; [reflexivity|ring].
  - intros -> K. destruct (Rltb_spec 0 (m_p s' + p0 - p1)); [lra|]. cbn. split; [reflexivity|ring].
Qed.
Theorem C208_speed : forall c f motor rho vol p0 p1 s, neps < k_drive c ->
  m_imp (fst (fst (updR c f motor rho vol p0 p1 s))) * k_drive c = motor.
Proof.
  intros c f motor rho vol p0 p1 s D. unfold fan_update. cbn [fst]. pose proof neps_pos. 
  assert (I : imp_speed c motor (m_imp s) = motor / k_drive c) by (unfold imp_speed; destruct (neps <~ k_drive c) eqn:E; [reflexivity|apply ltN in E; lra]).
  rewrite I. unfold source_pressure. cbn [m_imp]. destruct (_ && _)%bool; cbn [m_imp]; cbn [ndiv nmul RNum]; field; lra.
Qed.
(** A zero drive ratio leaves the impeller at its speed. *)
Theorem C208_disconnected : forall c f motor rho vol p0 p1 s, k_drive c <= neps ->
  m_imp (fst (fst (updR c f motor rho vol p0 p1 s))) = m_imp s.
Proof.
  intros c f motor rho vol p0 p1 s D. unfold fan_update. cbn [fst]. 
  assert (I : imp_speed c motor (m_imp s) = m_imp s) by (unfold imp_speed; destruct (neps <~ k_drive c) eqn:E; [apply ltI in E; lra|reflexivity]).
  rewrite I. unfold source_pressure. cbn [m_imp]. now destruct (_ && _)%bool.
Qed.
(** The density is that of the node the fluid comes from, but never of the ground while the other
    port is on a node. *)
Theorem C208_source : forall g0 g1 flux r0 r1 : _, (g0 = false \/ g1 = false) ->
  @source_density R RNum g0 g1 flux r0 r1 =
    if g0 then (if Req_EM_T flux 0 then r0 else r1) else if g1 then r0 else if Rlt_dec flux 0 then r1 else r0.
Proof.
  intros g0 g1 flux r0 r1 G. unfold source_density. cbn [nlt n0 RNum].
  destruct (Rltb_spec flux 0), (Rltb_spec 0 flux), (Req_EM_T flux 0), (Rlt_dec flux 0), g0, g1; cbn; try reflexivity; try lra; destruct G; discriminate.
Qed.

(** ** Initialization *)
Theorem C208_init : forall c motor wall f, initR c motor wall = Some f ->
  neps <= k_rho c /\ neps <= k_speed c /\ neps <= hd 0 (f_coef f) /\ neps <= k_drive c /\ 0 <= motor /\ 0 <= wall /\
  k_qbep c < f_q f /\ (0 < k_qbep c -> k_eff c <= 1) /\ impR (f_coef f) 0 1000 = Some (f_q f) /\
  (0 < k_qbep c -> 0 < sys_init sqrt f).
Proof.
  intros c motor wall f H. unfold fan_init in H.
  set (bep := ((n0 <~ k_qbep c) && (n0 <~ k_eff c))%bool) in *.
  destruct (bep && (n1 <~ k_eff c))%bool eqn:B; [discriminate|].
  set (cs := if bep then fan_curve sqrt p34 powerRZ c else k_coef c) in *.
  destruct (improve lag bre cs n0 (ndec 1000 0)) as [q|] eqn:I; [|discriminate].
  destruct (q <=~ k_qbep c) eqn:Q; [discriminate|]. apply leN in Q.
  destruct (_ || _)%bool eqn:V in H; [discriminate|].
  repeat (apply orb_false_elim in V; destruct V as [V ?E]). apply ltN in V, E, E0, E1, E2, E3.
  assert (F : f_coef f = cs /\ f_q f = q) by (destruct bep; injection H as <-; split; reflexivity). destruct F as [F1 F2]. rewrite F1, F2.
  split; [exact V|]. split; [exact E3|]. split; [exact E2|]. split; [exact E1|]. split; [exact E0|]. split; [exact E|]. split; [exact Q|]. split; [|split].
  - intro Z. unfold bep in B. pose proof (Rltb_true _ _ Z) as Z'. cbn [nlt n0 n1 RNum] in B. rewrite Z' in B. cbn in B.
    destruct (Rltb_spec 0 (k_eff c)), (Rltb_spec 1 (k_eff c)); cbn in B; try discriminate; lra.
  - rewrite fan_thou in I. exact I.
  - intro Z. unfold sys_init. rewrite F1, F2. cbn [ndiv RNum]. apply Rdiv_lt_0_compat; [lra|]. apply sqrt_lt_R0.
    rewrite fan_max. eapply Rlt_le_trans; [exact neps_pos|apply Rmax_l].
Qed.
End FAN.

(** ** Refutations and examples *)
Definition two_solver : list R -> R -> option (R * R) := fun _ _ => Some (2, 0).
Definition no_solver : list R -> R -> option (R * R) := fun _ _ => None.
Definition no_brent : list R -> R -> R -> option R := fun _ _ _ => None.
Definition good_brent : list R -> R -> R -> option R := fun _ _ _ => Some 1.

(** Not: Brent's method is tried whenever Laguerre's gives no usable root; when the latter ends
    with an exception, the root that Brent's method would find is lost. *)
Theorem C208_fallback_refuted : exists lag bre cs q m r,
  evaluate powerRZ cs r = 0 /\ 0 < r < m /\ bre cs 0 (m + feps) = Some r /\ improve lag bre cs q m = None /\
  lag cs q = None.
Proof.
  exists no_solver, good_brent, [1; -1; 0; 0; 0; 0], 0, 2, 1. rewrite C208_curve.
  repeat split; try reflexivity; try lra. cbn [poly]. ring.
Qed.
(** Not: the system constant settles for every configured gain, which is not checked: with a gain
    of three it is four times as far away after two steps, and so on. *)
Theorem C208_gain_refuted : exists gain now old : R, forall n,
  Rabs (Nat.iter n (sys_filter gain now) old - now) = 2 ^ n.
Proof.
  exists 3, 0, 1. intro n. rewrite C208_filter. replace (1 - 3) with (-2) by ring. replace (1 - 0) with 1 by ring. rewrite Rmult_1_r.
  rewrite <- RPow_abs. f_equal. rewrite Rabs_left; lra.
Qed.

Definition cfg2 (qbep eff speed : R) (check : bool) : fan_cfg R :=
  mkfcfg 1000 speed [2; -1; 0; 0; 0; 0] qbep eff 1 1 check 1.
Example C208_example :
  fan_init sqrt (fun x => x) powerRZ two_solver no_brent (cfg2 0 0 100 true) 100 300 = Some (mkfan [2; -1; 0; 0; 0; 0] 2 0 0 [0; 0; 0; 0]) /\
  running (mkfst 100 1 1 1) 1000 /\
  source_pressure sqrt powerRZ (fun _ _ => Some (1, 0)) no_brent (cfg2 0 0 100 true) (mkfan [2; -1; 0; 0; 0; 0] 2 0 0 [0; 0; 0; 0]) 1000 1
    (mkfst 100 1 1 1) = mkfst 100 1 1 1.
Proof.
  pose proof Reps_pos as EP. pose proof Reps_small as ES. pose proof feps_pos as FP. pose proof fan_feps as [_ FR].
  repeat split; cbn [m_imp]; try lra.
  - assert (T : (@ndec R RNum 1000 0) = 1000) by (cbn -[Rdec]; unfold Rdec; cbn; lra).
    unfold fan_init, cfg2, improve, two_solver, is_in_range. cbn [k_qbep k_eff k_coef k_rho k_speed k_drive hd]. rewrite T.
    cbn [nlt nle n0 n1 nabs neps RNum]. rewrite Rabs_R0. cbn [hd]. clear FP FR.
    repeat match goal with |- context [Rltb ?a ?b] => destruct (Rltb_spec a b); try lra; cbn [andb orb hd] | |- context [Rleb ?a ?b] => destruct (Rleb_spec a b); try lra; cbn [andb orb hd] end. reflexivity.
  - assert (R1 : running (mkfst 100 1 1 1) 1000) by (split; cbn [m_imp]; lra).
    apply (C208_steady (fun _ _ => Some (1, 0)) no_brent (cfg2 0 0 100 true) (mkfan [2; -1; 0; 0; 0; 0] 2 0 0 [0; 0; 0; 0]) 1000 (mkfst 100 1 1 1)); 
    cbn [m_imp m_q m_p m_sys k_speed k_rho cfg2 f_q f_coef]; replace (1000 / 1000) with 1 by field; replace (100 / 100) with 1 by field.
    + exact R1.
    + lra.
    + rewrite aff_hd by lra. cbn [hd]. change (neps : R) with Reps. lra.
    + rewrite sqrt_1. ring.
    + rewrite C208_curve. cbn [affinity affinity_from poly]. cbn [nmul RNum]. change (powerRZ 1 (2 - 0)) with (1 * (1 * 1)). change (powerRZ 1 (2 - (0 + 1))) with (1 * 1). ring.
    + unfold improve, is_in_range. cbn [nlt nle n0 nabs neps RNum]. rewrite Rabs_R0. clear FP FR R1.
      repeat match goal with |- context [Rltb ?a ?b] => destruct (Rltb_spec a b); try lra; cbn [andb orb hd] | |- context [Rleb ?a ?b] => destruct (Rleb_spec a b); try lra; cbn [andb orb hd] end. reflexivity.
Qed.

Print Assumptions C208_curve.
Print Assumptions C208_affinity.
Print Assumptions C208_free_flow.
Print Assumptions C208_stopped.
Print Assumptions C208_pressure.
Print Assumptions C208_not_negative.
Print Assumptions C208_meets.
Print Assumptions C208_unsolved.
Print Assumptions C208_solver.
Print Assumptions C208_system_positive.
Print Assumptions C208_filter.
Print Assumptions C208_steady.
Print Assumptions C208_check.
Print Assumptions C208_speed.
Print Assumptions C208_disconnected.
Print Assumptions C208_source.
Print Assumptions C208_init.
Print Assumptions C208_fallback_refuted.
Print Assumptions C208_gain_refuted.
