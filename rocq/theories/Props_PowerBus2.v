(** C228: the limits of the power bus as numbers. *)
From Coq Require Import Reals Lra List Bool ZArith.
From Verif Require Import Num UserLoad PowerBus Props_PowerBus.
Import ListNotations.
Local Open Scope R_scope.

(** The conductance below which a group of loads is taken as off, the largest resistance that counts, and
    the leak of the bus. *)
Theorem C228_limits : forall m g (d : load R), m <= 1 -> d_cp d = false -> 1 <= d_r d ->
  (m < g -> most_R m g = m) /\ (g <= m -> g < 1 / 100000000 -> most_R m g = 0) /\ (g <= m -> 1 / 100000000 <= g -> most_R m g = g) /\
  (d_r d <= 100000000 -> load_cond d = 1 / d_r d) /\ (100000000 < d_r d -> load_cond d = 0) /\ (bus_leak : R) = Reps * 10000000.
Proof.
  intros m g d M D R1. pose proof Reps_small as E1.
  assert (MC : (min_cond : R) = 1 / 100000000) by (unfold min_cond; cbn [ndec RNum]; unfold Rdec; cbn; lra).
  assert (IC : 1 / (1 / 100000000) = 100000000) by lra.
  unfold most_R, load_cond. rewrite D, MC, IC. change (neps : R) with Reps.
  refine (conj _ (conj _ (conj _ (conj _ (conj _ _))))).
  - intro H. destruct (Rlt_dec m g); [reflexivity|lra].
  - intros H1 H2. destruct (Rlt_dec m g); [lra|]. destruct (Rlt_dec g (1 / 100000000)); [reflexivity|lra].
  - intros H1 H2. destruct (Rlt_dec m g); [lra|]. destruct (Rlt_dec g (1 / 100000000)); [lra|reflexivity].
  - intro H. destruct (Rle_dec Reps (d_r d)); [|lra]. destruct (Rle_dec (d_r d) 100000000); [reflexivity|lra].
  - intro H. destruct (Rle_dec Reps (d_r d)); [|reflexivity]. destruct (Rle_dec (d_r d) 100000000); [lra|reflexivity].
  - unfold bus_leak. cbn [ndec ndiv RNum]. unfold Rdec. cbn. change (neps : R) with Reps. field.
Qed.
Print Assumptions C228_limits.
