(** C211, C212, continued: what turbines and shafts accept, and a turbine's speed. *)
From Coq Require Import Floats.
From Coq Require Import Reals Lra Lia List Arith Bool ZArith.
From Verif Require Import Num Ord MathUtil Props_Math FluidFlow FluidFan Props_Detector Props_FluidFan Turbine Props_Turbine.
Import ListNotations.
Local Open Scope R_scope.

Theorem C211_accepts : forall (c : tb_cfg R) motor wall, tb_valid c motor wall = true <->
  neps <= t_press c /\ neps <= t_temp c /\ neps <= t_drive c /\ neps <= fst (t_flow c) /\ neps <= snd (t_flow c) /\
  neps <= fst (t_speed c) /\ neps <= snd (t_speed c) /\ neps <= Rabs (fst (t_speed c) - snd (t_speed c)) /\
  neps <= snd (t_min c) <= snd (t_max c) /\ neps <= fst (t_min c) <= fst (t_max c) /\ 0 <= motor /\ 0 <= wall.
Proof.
  intros c motor wall. unfold tb_valid. rewrite negb_true_iff, !orb_false_iff, !ltN. cbn [nabs nsub n0 RNum]. split.
  - intros (((((((((((((((A & B) & D) & E) & F) & G) & H) & I) & J) & K) & L) & M) & N) & P) & Q) & X). repeat split; assumption.
  - intros (A & B & D & E & F & G & H & I & (J & K) & (L & M) & N & P). repeat split; try assumption.
    + exact (Rle_trans _ _ _ J K).
    + exact (Rle_trans _ _ _ L M).
Qed.
Theorem C212_accepts : forall (c : sh_cfg R) jam, sh_valid c jam = true <->
  0 <= s_fric c /\ 0 <= s_min c /\ neps < s_inertia c /\ 0 <= jam.
Proof.
  intros c jam. unfold sh_valid. rewrite negb_true_iff, !orb_false_iff, !ltN, leN. cbn [n0 RNum]. tauto.
Qed.
(** Speed: the motor's over the drive ratio, or what it was while disconnected. *)
Theorem C211_speed : forall (c : tb_cfg R) motor old,
  (neps < t_drive c -> tb_speed c motor old * t_drive c = motor) /\ (t_drive c <= neps -> tb_speed c motor old = old).
Proof.
  intros c motor old. unfold tb_speed. pose proof neps_pos as EP. split; intro H.
  - apply ltI in H as H'. rewrite H'. cbn [ndiv RNum]. field. lra.
  - apply ltN in H. now rewrite H.
Qed.
(** A negative prediction opens the turbine fully; equal speeds stop the simulation. *)
Theorem C211_negative : forall (c : tb_cfg R) sq pw minp (a b : @fl R) s, b_pred s < 0 -> tb_conductivity sq pw c minp a b s = t_cond c.
Proof. intros c sq pw minp a b s H. unfold tb_conductivity. assert (E : (n0 <=~ b_pred s) = false) by (apply leN; exact H). now rewrite E. Qed.
Theorem C211_throws : forall (c : tb_cfg R) imp rho temp press pot s,
  tb_flow sqrt c imp rho temp press pot s = None <-> Rabs (fst (t_speed c) - snd (t_speed c)) < neps.
Proof.
  intros c imp rho temp press pot s. unfold tb_flow. rewrite <- ltI. cbn [nabs nsub RNum].
  destruct (_ <~ neps); [tauto|]. destruct (feps <~ _); split; discriminate.
Qed.
Print Assumptions C211_accepts.
Print Assumptions C212_accepts.
Print Assumptions C211_speed.
Print Assumptions C211_negative.
Print Assumptions C211_throws.
