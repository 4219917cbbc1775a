(** C161, further: what a leak remembers of the malfunction that is not active. *)
From Coq Require Import Floats.
From Coq Require Import Reals Lra Lia List Arith Bool ZArith.
From Verif Require Import Num Ord MathUtil Props_Math Spec_Valve Props_Valve Props_Thermal FluidFlow Props_FluidFlow FluidValves Props_FluidValves.
Import ListNotations.
Local Open Scope R_scope.

(** The hole last leaked through is remembered while a rate leaks, the rate while a hole leaks. *)
Theorem C161_memory : forall minp (a b : @fl R) (l : @leak R),
  (e_hole l = true -> e_prate (leakR minp a b l) = e_prate l /\ e_phole (leakR minp a b l) = e_holev l) /\
  (e_hole l = false -> e_rate l = true -> e_phole (leakR minp a b l) = e_phole l /\ e_prate (leakR minp a b l) = e_ratev l) /\
  e_hole (leakR minp a b l) = e_hole l /\ e_holev (leakR minp a b l) = e_holev l /\ e_ratev (leakR minp a b l) = e_ratev l /\
  e_cond (leakR minp a b l) = e_eff (leakR minp a b l).
Proof.
  intros minp a b l. unfold leak_update. change (e_phole l ==~ e_holev l) with (Reqb (e_phole l) (e_holev l)).
  change (e_prate l ==~ e_ratev l) with (Reqb (e_prate l) (e_ratev l)).
  destruct (e_hole l) eqn:H; [|destruct (e_rate l) eqn:K]; cbn [e_hole e_holev e_rate e_ratev e_phole e_prate e_cond e_eff]; repeat split; try discriminate.
  - destruct (Reqb_spec (e_phole l) (e_holev l)); congruence.
  - destruct (Reqb_spec (e_prate l) (e_ratev l)); congruence.
Qed.
Print Assumptions C161_memory.
(** So a hole left for a rate and returned to keeps the size the rate's leak had. *)
Theorem C161_return : forall minp (a b a' b' : @fl R) (l : @leak R) hole rate, e_phole l = hole ->
  let l1 := leakR minp a b (set_rate (set_hole l false 0) true rate) in
  e_eff (leakR minp a' b' (set_hole l1 true hole)) = e_eff l1.
Proof.
  intros minp a b a' b' l hole rate P l1. destruct (C161_memory minp a b (set_rate (set_hole l false 0) true rate)) as (_ & M & _ & _ & _ & C).
  destruct M as [M _]; [reflexivity|reflexivity|]. fold l1 in M, C. cbn [e_phole set_rate set_hole] in M.
  unfold leak_update at 1. cbn [e_hole set_hole e_phole e_holev]. change (e_phole l1 ==~ hole) with (Reqb (e_phole l1) hole).
  destruct (Reqb_spec (e_phole l1) hole); [|congruence]. cbn [e_eff e_cond set_hole]. exact C.
Qed.
Print Assumptions C161_return.
Theorem C161_return_refuted : exists minp (a b : @fl R) rate hole, Reps < Rabs (d_p a - d_p b) /\ Reps < flow_rho a b /\ Reps < flow_mw a b /\ 0 < hole /\
  let l1 := leakR minp a b (set_hole leak0 true hole) in
  let l2 := leakR minp a b (set_rate (set_hole l1 false 0) true rate) in
  let l3 := leakR minp a b (set_hole l2 true hole) in
  e_hole l3 = true /\ e_holev l3 = hole /\ e_eff l1 = hole /\ e_eff l3 <> hole.
Proof.
  exists 0, (gasAt 110 28), (gasAt 100 28), 2, 1. pose proof Reps_pos as E0. pose proof Reps_small as E1.
  assert (B : Rabs (110 - 100) = 10) by (rewrite Rabs_right; lra).
  assert (W : flow_mw (gasAt 110 28) (gasAt 100 28) = 28) by (unfold flow_mw, gasAt; cbn [d_mw]; destruct (Rlt_dec 28 Reps); lra).
  assert (Rh : flow_rho (gasAt 110 28) (gasAt 100 28) = 1) by (unfold flow_rho, gasAt; cbn [d_rho]; lra).
  assert (D : lin_drop 0 (gasAt 110 28) (gasAt 100 28) = 10) by (unfold lin_drop, gasAt; cbn [d_p]; rewrite B; apply Rmax_right; lra).
  assert (K : predict_cond sqrt powR 2 0 (gasAt 110 28) (gasAt 100 28) half = 1 / 50).
  { rewrite predict_eq; [|cbn [d_p gasAt]; rewrite B; lra|rewrite Rh; lra]. rewrite Rh, D, halfR.
    assert (E5 : within (1 / 2) (1 / 2) 1 = 1 / 2) by (unfold within; rewrite Rmin_left, Rmax_left by lra; reflexivity).
    rewrite E5. rewrite powR_half by lra. replace (1 * (1000 * 10)) with (100 * 100) by lra. rewrite sqrt_square by lra. rewrite (Rabs_right 2) by lra. lra. }
  rewrite Rh, W. cbn [d_p gasAt]. rewrite B. do 3 (split; [lra|]). split; [lra|]. cbv zeta.
  assert (L1 : leakR 0 (gasAt 110 28) (gasAt 100 28) (set_hole leak0 true 1) = mkleak true 1 false 0 1 0 1 1).
  { unfold leak_update, set_hole, leak0. cbn [e_hole e_holev e_rate e_ratev e_phole e_prate e_cond e_eff]. change (0 ==~ 1) with (Reqb 0 1). destruct (Reqb_spec 0 1); [lra|reflexivity]. }
  rewrite L1. rewrite (C161_return 0 (gasAt 110 28) (gasAt 100 28) _ _ (mkleak true 1 false 0 1 0 1 1) 1 2 eq_refl).
  split; [reflexivity|]. split; [reflexivity|]. split; [reflexivity|].
  unfold leak_update, set_rate, set_hole. cbn [e_hole e_holev e_rate e_ratev e_phole e_prate e_cond e_eff]. change (0 ==~ 2) with (Reqb 0 2).
  destruct (Reqb_spec 0 2); [lra|]. cbn [e_eff]. rewrite K. lra.
Qed.
Print Assumptions C161_return_refuted.
