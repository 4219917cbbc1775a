(** C234, C235: the light current of a string, and loads outside of its curve. *)
From Coq Require Import Floats.
From Coq Require Import Reals Lra Lia List Arith Bool ZArith.
From Verif Require Import Num Ord MathUtil Props_Math FluidFlow Props_FluidFlow Spec_Valve Props_Valve Props_Detector FluidFan Props_FluidFan PvString Props_PvString.
Import ListNotations.
Local Open Scope R_scope.

(** The light current at the shunt voltage carries the power of the light on the active cells, by the efficiency at the
    temperature and less the degradation; without shunt voltage there is none. *)
Theorem C234_light : forall (c : pvc R) i, let s := pv_update c i in let na := INR (e_cells c - bypassed c i * e_int c) in let dt := f_temp i - e_tref c in
  w_vsh s = na * e_voc c * Rmax (1 + dt * e_cv c) 0 /\ w_vs s = e_block c + INR (bypassed c i) * e_byp c /\
  w_rsh s = Rmax (1 / 1000000) (e_rsh c) /\ w_rs s = Rmax (1 / 1000000) (na * e_rs c) /\
  (Reps < w_vsh s -> w_il s * w_vsh s = f_flux i * (na * e_area c) * (e_eff c * Rmax (1 + dt * e_ci c) 0) * match f_deg i with Some d => within 0 (1 - d) 1 | None => 1 end) /\
  (w_vsh s <= Reps -> w_il s = 0).
Proof.
  intros c i. cbv zeta. pose proof Reps_pos as E0.
  assert (DI : (diode : R) = 1000000) by (unfold diode; cbn [ndec RNum]; unfold Rdec; cbn; lra).
  unfold pv_update. cbv zeta. cbn [nadd nsub nmul ndiv n0 n1 RNum]. rewrite !nnatR, DI, !nmaxR. change (neps : R) with Reps.
  set (vsh := INR _ * e_voc c * _). match goal with |- context [if Reps <~ vsh then ?a else ?b] => set (il := if Reps <~ vsh then a else b) end.
  assert (A : (Reps < vsh -> il * vsh = f_flux i * (INR (e_cells c - bypassed c i * e_int c) * e_area c) * (e_eff c * Rmax (1 + (f_temp i - e_tref c) * e_ci c) 0) * match f_deg i with Some d => within 0 (1 - d) 1 | None => 1 end) /\ (vsh <= Reps -> il = 0)).
  { unfold il. clearbody vsh. clear il. split; intro H.
    - assert (B : (Reps <~ vsh) = true) by now apply ltI. rewrite B. destruct (f_deg i) as [d|]; [rewrite within_limit|]; field; lra.
    - destruct (Reps <~ vsh) eqn:B; [apply ltI in B; lra|reflexivity]. }
  clearbody il. destruct (0 <? _)%nat; cbn [w_vsh w_vs w_il w_rsh w_rs]; repeat split; try reflexivity; apply A.
Qed.
Print Assumptions C234_light.
(** A load at a voltage outside of the curve is none, for any numbers: nothing is divided by the voltage. *)
Theorem C235_outside : forall {T : Type} {N : Num T} (s : pvs T) v, is_in_range neps v (w_voc s) = false -> load_voltage s v = mkpt v n0 n0 n0.
Proof. intros T N s v H. unfold load_voltage. rewrite H. reflexivity. Qed.
Print Assumptions C235_outside.
Example C235_outside_any : load_voltage (pv_update (cell 0.01 1000 1%nat 0)%float (mkpvi 1 1 300 None None)%float) 0%float = mkpt 0%float 0%float 0%float 0%float.
Proof. vm_compute. reflexivity. Qed.
