(** C207: what each sensor of the smoke detector is given. *)
From Coq Require Import Floats.
From Coq Require Import Reals Lra Lia List Arith Bool ZArith.
From Verif Require Import Num Ord MathUtil Props_Math MsgQueue F32 Sensor Props_Sensor Spec_Interp Props_Pid Spec_Valve Props_Valve Detector Props_Detector Props_Smoke.
Import ListNotations.
Local Open Scope R_scope.

(** Each sensor senses its own quantity with its own malfunctions and noise, powered when the
    detector is, and each voltage is a line of its sensor's value. *)
Theorem C207_sensors : forall k (i : sdin R R) s s', sd_update k i s = Ret s' ->
  sensor_update (obs_sensor k) (with_power (ds_load s') (di_om i)) (ds_obs s') (di_dt i) (di_od i) (ds_osens s) = Ret (ds_osens s') /\
  sensor_update (scat_sensor k) (with_power (ds_load s') (di_sm i)) (ds_scat s') (di_dt i) (di_sd i) (ds_ssens s) = Ret (ds_ssens s') /\
  ds_ovolt s' = sd_oslope k * ss_sensed (ds_osens s') + sd_oicpt k /\ ds_svolt s' = sd_sslope k * ss_sensed (ds_ssens s') + sd_sicpt k.
Proof.
  intros k i s s' H. unfold sd_update in H. set (load := (di_power i || di_force i) && negb (di_fail i)) in *. clearbody load.
  destruct (if load then _ else _) as [[[process timer] obs] scat].
  apply bindO_ret in H; destruct H as (o & HO & H). apply bindO_ret in H; destruct H as (c & HC & H). injection H as <-.
  cbn [ds_load ds_obs ds_scat ds_osens ds_ssens ds_ovolt ds_svolt]. split; [exact HO|]. split; [exact HC|]. split; reflexivity.
Qed.
(** So the truth each sensor reports is its own quantity. *)
Theorem C207_truth : forall k (i : sdin R R) s s', sd_update k i s = Ret s' -> ss_truth_out (ds_osens s') = ds_obs s' /\ ss_truth_out (ds_ssens s') = ds_scat s'.
Proof.
  intros k i s s' H. destruct (C207_sensors k i s s' H) as (HO & HC & _).
  split; [unfold sensor_update in HO; apply bindO_ret in HO; destruct HO as (x & _ & HO)|unfold sensor_update in HC; apply bindO_ret in HC; clear HO; destruct HC as (x & _ & HO)];
  apply (f_equal (fun o => match o with Ret y => ss_truth_out y | _ => 0 end)) in HO; cbv beta iota in HO; rewrite <- HO; reflexivity.
Qed.
Print Assumptions C207_sensors.
Print Assumptions C207_truth.
