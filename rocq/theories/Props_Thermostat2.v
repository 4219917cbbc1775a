(** C204, continued: what a thermostat accepts. *)
From Coq Require Import Floats.
From Coq Require Import Reals Lra Lia List Arith Bool ZArith.
From Verif Require Import Num Ord MathUtil Props_Math F32 Sensor Thermostat Props_Detector.
Import ListNotations.
Local Open Scope R_scope.

(** Exactly the configurations with a sensor, a logic for several, bands the right way round and
    not both command malfunctions at once. *)
Theorem C204_accepts : forall (c : thcfg R R) (m : thmalf R),
  th_valid c m = true <->
  ~ (tm_on m = true /\ tm_off m = true) /\ (1 <= tc_num c)%nat /\ ((1 < tc_num c)%nat -> tc_logic c <> SINGLE) /\
  tc_low c < tc_high c /\ tm_low m < tm_high m.
Proof.
  intros c m. unfold th_valid, htr_valid. rewrite !andb_true_iff, !negb_true_iff, !leN.
  rewrite Nat.ltb_ge. split.
  - intros ((((A & B) & D) & E) & F). split; [intros [X Y]; rewrite X, Y in A; discriminate|]. split; [exact B|].
    split; [|split; assumption]. intros L Q. rewrite Q in D. apply Nat.ltb_lt in L. rewrite L in D. discriminate.
  - intros (A & B & D & E & F). repeat split; try assumption.
    + destruct (tm_on m), (tm_off m); try reflexivity. exfalso. now apply A.
    + destruct (Nat.ltb_spec 1 (tc_num c)) as [L|L]; [|reflexivity]. cbn. specialize (D L). destruct (tc_logic c); congruence.
Qed.
Print Assumptions C204_accepts.
