(** Closed forms that tighten C157. *)
From Coq Require Import Floats.
From Coq Require Import Reals Lra Lia List Arith Bool ZArith.
From Verif Require Import Num Ord MathUtil Props_Math Spec_Valve Props_Valve Props_Thermal FluidFlow Props_FluidFlow Props_FluidMix Props_FluidSource.
Import ListNotations.
Local Open Scope R_scope.

(** The mean of two values over the two lengths. *)
Definition along (l0 l1 x y : R) : R := (x * l0 + y * l1) / (l0 + l1).
Lemma lambdaR : (lambda_base : R) = 13806504 / 10 ^ 30 / (1000 * (3 / 10 ^ 19)).
Proof.
  unfold lambda_base. rewrite kpaR. change (Rdec 13806504 (-30) / (1000 * Rdec 3 (-19)) = 13806504 / 10 ^ 30 / (1000 * (3 / 10 ^ 19))).
  unfold Rdec. cbn [Z.leb Z.compare Z.opp]. change 10 with (IZR 10). rewrite !pow_IZR. reflexivity.
Qed.
Lemma gas_constR : (gas_const : R) = 8314472 / 1000000.
Proof. unfold gas_const. rnum. unfold Rdec. cbn [Z.leb Z.compare Z.opp]. change (10 ^ 6)%Z with 1000000%Z. reflexivity. Qed.
(** The mobility is a third of the mean free path times the mean speed of the molecules, times the
    mean molar density, over the length. *)
Theorem C157_coefficient : forall (a b : @fl R) l0 l1, 0 <= l0 -> 0 <= l1 -> 0 < l0 + l1 ->
  (feps : R) <= d_p a -> (feps : R) <= d_p b -> Reps <= d_mw a -> Reps <= d_mw b ->
  Reps <= along l0 l1 (d_t a) (d_t b) -> Reps <= along l0 l1 (d_rho a / d_mw a) (d_rho b / d_mw b) ->
  mobility a b l0 l1 =
    (13806504 / 10 ^ 30 / (1000 * (3 / 10 ^ 19)) * along l0 l1 (d_t a / d_p a) (d_t b / d_p b)) *
    sqrt (3 * 1000 * (8314472 / 1000000) * along l0 l1 (d_t a) (d_t b) / along l0 l1 (d_mw a) (d_mw b)) / 3 *
    along l0 l1 (d_rho a / d_mw a) (d_rho b / d_mw b) / (l0 + l1).
Proof.
  intros a b l0 l1 L0 L1 L PA PB WA WB TT MM. unfold mobility, diffusivity, molar_density. rewrite lambdaR, gas_constR, !nmaxR.
  pose proof core_feps as [FE _].
  assert (E : forall x y, (x *~ l0 +~ y *~ l1) *~ (1 / (l0 + l1)) = along l0 l1 x y).
  { intros x y. change ((x * l0 + y * l1) * (1 / (l0 + l1)) = along l0 l1 x y). unfold along. field. lra. }
  change (neps : R) with Reps.
  rewrite (Rmax_left (d_p a)), (Rmax_left (d_p b)) by assumption. rewrite (Rmax_right Reps (d_mw a)), (Rmax_right Reps (d_mw b)) by assumption.
  rewrite !E. change (d_rho a /~ d_mw a) with (d_rho a / d_mw a). change (d_rho b /~ d_mw b) with (d_rho b / d_mw b).
  rewrite (Rmax_right Reps (along l0 l1 (d_rho a / d_mw a) (d_rho b / d_mw b))) by exact MM.
  rewrite (Rmax_right Reps (along l0 l1 (d_t a) (d_t b))) by exact TT.
  assert (W : Reps <= along l0 l1 (d_mw a) (d_mw b)).
  { unfold along. apply (Rmult_le_reg_r (l0 + l1)); [exact L|]. unfold Rdiv. rewrite Rmult_assoc, Rinv_l by lra. nra. }
  rewrite (Rmax_right Reps _ W).
  set (lam := 13806504 / 10 ^ 30 / (1000 * (3 / 10 ^ 19))). clearbody lam.
  replace (ndec 3000 0 : R) with (3 * 1000) by (rnum; unfold Rdec; cbn [Z.leb Z.compare]; change (10 ^ 0)%Z with 1%Z; lra).
  replace (ndec 3 0 : R) with 3 by (rnum; unfold Rdec; cbn [Z.leb Z.compare]; change (10 ^ 0)%Z with 1%Z; lra).
  replace (lam *~ (d_t a /~ d_p a *~ l0 +~ d_t b /~ d_p b *~ l1) *~ (1 / (l0 + l1))) with (lam * along l0 l1 (d_t a / d_p a) (d_t b / d_p b)).
  2: { rewrite <- E. rnum. ring. }
  reflexivity.
Qed.
Print Assumptions C157_coefficient.
Example C157_coefficient_nonvacuous : let a := mkfl 100 300 1 28 true 1 1 1 : @fl R in
  (feps : R) <= d_p a /\ Reps <= d_mw a /\ Reps <= along 1 1 (d_t a) (d_t a) /\ Reps <= along 1 1 (d_rho a / d_mw a) (d_rho a / d_mw a).
Proof. pose proof core_feps. pose proof Reps_small. unfold along. cbn [d_p d_mw d_t d_rho]. repeat split; lra. Qed.
