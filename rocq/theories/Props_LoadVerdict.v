(** C151: the load switch's verdict on a converged solution. *)
From Coq Require Import Floats.
From Coq Require Import Reals Lra Lia List Bool ZArith.
From Verif Require Import Num Ord MathUtil BasicLinks Trip UserLoad Props_LoadSwitch.
Import ListNotations.
Local Open Scope R_scope.

(** Before convergence nothing is judged.  After it, when no fuse blows, the switch is given the link's
    flux; the solution is put off while the switch waits to trip, rejected when it has just tripped, and else
    confirmed. *)
Theorem C151_verdict : forall k (w w' : lsw R) x, lsw_confirm k w = (w', x) ->
  ((k <= 0)%Z -> w' = w /\ x = Delay) /\
  ((0 < k)%Z -> (k = 1%Z -> Forall (holds (b_p0 (w_b w))) (w_loads w)) ->
     let f := b_flux (w_b w') in
     w_sw w' = update_flow f f (b_p0 (w_b w)) k false (w_sw w) /\ w_loads w' = w_loads w /\
     (x = Delay <-> s_wait (w_sw w') = true) /\
     (x = Reject <-> s_wait (w_sw w') = false /\ s_just (w_sw w') = true) /\
     (x = Confirm <-> s_wait (w_sw w') = false /\ s_just (w_sw w') = false)).
Proof.
  intros k w w' x H. unfold lsw_confirm in H. split.
  - intro K. destruct (Z.ltb_spec 0 k); [lia|]. injection H as <- <-. split; reflexivity.
  - intros K F. cbv zeta. destruct (Z.ltb_spec 0 k); [|lia].
    assert (E : (if (1 =? k)%Z then fuses (b_p0 (w_b w)) (w_loads w) else (w_loads w, false)) = (w_loads w, false)).
    { destruct (Z.eqb_spec 1 k) as [Q|Q]; [|reflexivity]. specialize (F (eq_sym Q)). destruct (fuses_facts (b_p0 (w_b w)) (w_loads w)) as [F1 F2].
      destruct (fuses (b_p0 (w_b w)) (w_loads w)) as [l b]. destruct b.
      - exfalso. destruct (F2 l eq_refl) as (l1 & u & l2 & E & _ & NH & _). rewrite E in F. apply Forall_app in F as [_ F]. inversion F; contradiction.
      - destruct (F1 l eq_refl) as [-> _]. reflexivity. }
    rewrite E in H. clear E F. cbn iota in H.
    assert (G : forall z : lsw R, b_p0 (w_b (lsw_flux (with_wb z (with_drop (w_b z) (delta (w_b z)))))) = b_p0 (w_b z) /\
       w_sw (lsw_flux (with_wb z (with_drop (w_b z) (delta (w_b z))))) = w_sw z /\ w_loads (lsw_flux (with_wb z (with_drop (w_b z) (delta (w_b z))))) = w_loads z).
    { intro z. unfold lsw_flux. destruct (w_ov (with_wb _ _)); [destruct (w_ground (with_wb _ _))|]; repeat split. }
    unfold lsw_trip in H. match type of H with context [lsw_flux (with_wb ?z _)] => destruct (G z) as (G1 & G2 & G3); set (y := lsw_flux _) in H, G1, G2, G3; clearbody y end.
    cbn [w_b w_sw w_loads] in G1, G2, G3. rewrite G1, G2 in H. set (s := update_flow _ _ _ _ _ _) in H. assert (S : s = update_flow (b_flux (w_b y)) (b_flux (w_b y)) (b_p0 (w_b w)) k false (w_sw w)) by reflexivity. clearbody s.
    injection H as <- <-. cbn [w_b w_sw w_loads]. split; [exact S|]. split; [exact G3|].
    destruct (s_wait s), (s_just s); repeat split; try reflexivity; try discriminate; intros [? ?]; discriminate.
Qed.
Example C151_verdict_ex : exists (w : lsw R), w_loads w = [] /\ Forall (holds (b_p0 (w_b w))) (w_loads w).
Proof. destruct C150_bare_ex as (w & w' & _ & _ & L & _). exists w. rewrite L. split; [reflexivity|constructor]. Qed.
Print Assumptions C151_verdict.
