(** C159-C161: valves and their leaks, check valves, three-way valves, leak links. *)
From Coq Require Import Floats.
From Coq Require Import Reals Lra Lia List Arith Bool ZArith.
From Verif Require Import Num Ord Loops MathUtil Props_Math Spec_Valve Props_Valve Props_Thermal FluidFlow Props_FluidFlow FluidValves.
Import ListNotations.
Local Open Scope R_scope.

(** Splits the comparisons of [Rmax], [Rmin] and [Rabs], innermost first. *)
Ltac simple_term x := lazymatch x with context [Rle_dec _ _] => fail | context [Rcase_abs _] => fail | _ => idtac end.
Ltac rmm := unfold within, Rmax, Rmin, Rabs;
  repeat match goal with
         | |- context [Rle_dec ?x ?y] => simple_term x; simple_term y; destruct (Rle_dec x y)
         | |- context [Rcase_abs ?x] => simple_term x; destruct (Rcase_abs x)
         end; try lra.

(** ** Positions that move at a limited rate *)
Lemma slewR (pos target r : R) : 0 <= pos <= 1 -> 0 <= r -> 0 <= target <= 1 -> slew pos target r = within (pos - r) target (pos + r).
Proof.
  intros P Hr Ht. unfold slew. rewrite nmaxR, nminR. rnum. rewrite limit_within by (unfold Rmax, Rmin; destruct (Rle_dec _ _); destruct (Rle_dec _ _); lra).
  rmm.
Qed.
(** Whatever the target, a position from 0 to 1 stays there and moves by no more than the limit. *)
Lemma slew_range (pos target r : R) : 0 <= pos <= 1 -> 0 <= r -> 0 <= slew pos target r <= 1 /\ Rabs (slew pos target r - pos) <= r.
Proof.
  intros P Hr. unfold slew. rewrite nmaxR, nminR. rnum. rewrite limit_within by (unfold Rmax, Rmin; destruct (Rle_dec _ _); destruct (Rle_dec _ _); lra).
  rmm.
Qed.
Lemma slew_clip (pos target r : R) : 0 <= pos <= 1 -> 0 <= r -> slew pos target r = slew pos (within 0 target 1) r.
Proof.
  intros P Hr. unfold slew. rewrite nmaxR, nminR. rnum. rewrite !limit_within by (unfold Rmax, Rmin; destruct (Rle_dec _ _); destruct (Rle_dec _ _); lra).
  rmm.
Qed.
(** Steps towards a target that stays: the distance shrinks by the limit at each, down to nothing. *)
Fixpoint repeat_n {A} (n : nat) (f : A -> A) (x : A) : A := match n with O => x | S k => repeat_n k f (f x) end.
Lemma slew_reach n : forall (pos target r : R), 0 <= pos <= 1 -> 0 <= r -> 0 <= target <= 1 ->
  Rabs (target - repeat_n n (fun x => slew x target r) pos) = Rmax 0 (Rabs (target - pos) - INR n * r).
Proof.
  induction n as [|n IH]; intros pos target r P Hr Ht.
  - cbn [repeat_n INR]. rewrite Rmult_0_l, Rminus_0_r. rewrite Rmax_right by apply Rabs_pos. reflexivity.
  - cbn [repeat_n]. destruct (slew_range pos target r P Hr) as [Q _]. rewrite IH by assumption. rewrite S_INR. rewrite slewR by assumption.
    pose proof (pos_INR n) as Hn. pose proof (Rmult_le_pos _ _ Hn Hr) as Hm.
    replace ((INR n + 1) * r) with (INR n * r + r) by ring. set (m := INR n * r) in *. clearbody m.
    rmm.
Qed.

(** ** C159: valve, leak through, check valve *)
Notation thruR := (leak_thru sqrt powR).
Theorem C159_conductivity : forall max pos (l : @through R), valve_cond max pos l = Rmax (max * pos) (r_cond l) /\ psv_cond max pos l = Rmax (max * pos) (r_cond l).
Proof.
  intros max pos l. split; [|unfold psv_cond; rewrite nmaxR; reflexivity]. unfold valve_cond. change (max *~ pos <~ r_cond l) with (Rltb (max * pos) (r_cond l)).
  unfold Rmax. destruct (Rltb_spec (max * pos) (r_cond l)), (Rle_dec (max * pos) (r_cond l)); rnum; lra.
Qed.
Print Assumptions C159_conductivity.
(** A leak that is switched on, or changed, is sized at that moment: it passes the rate asked for at
    the pressures of that moment, through a valve that is shut; later it keeps its size; without
    the malfunction there is none. *)
Theorem C159_leak : forall minp (a b : @fl R) (l : @through R),
  (r_flag l = false -> r_cond (thruR minp a b l) = 0 /\ r_prev (thruR minp a b l) = 0) /\
  (r_flag l = true -> r_prev l <> r_rate l -> Reps < Rabs (d_p a - d_p b) -> Reps < flow_rho a b -> Reps < flow_mw a b ->
     let k := valve_cond 1 0 (thruR minp a b l) in
     admR k minp a b (1 / 2) * lin_drop minp a b * flow_mw a b = Rabs (r_rate l)) /\
  (r_flag l = true -> forall a' b', thruR minp a' b' (thruR minp a b l) = thruR minp a b l).
Proof.
  intros minp a b l. unfold leak_thru. split; [|split].
  - intro H. rewrite H. split; reflexivity.
  - intros H H1 D Rh W. cbv zeta. rewrite H. change (r_prev l ==~ r_rate l) with (Reqb (r_prev l) (r_rate l)). destruct (Reqb_spec (r_prev l) (r_rate l)); [contradiction|].
    destruct (C154_predict (r_rate l) minp a b half D Rh W) as [P Q].
    rewrite (proj1 (C159_conductivity _ _ _)). cbn [r_cond]. rewrite Rmult_0_r, Rmax_right by exact Q. rewrite halfR in *. exact P.
  - intros H a' b'. rewrite H. change (r_prev l ==~ r_rate l) with (Reqb (r_prev l) (r_rate l)). destruct (Reqb_spec (r_prev l) (r_rate l)) as [E|E].
    + rewrite H. change (r_prev l ==~ r_rate l) with (Reqb (r_prev l) (r_rate l)). destruct (Reqb_spec (r_prev l) (r_rate l)); [reflexivity|contradiction].
    + cbn [r_flag r_prev r_rate]. change (r_rate l ==~ r_rate l) with (Reqb (r_rate l) (r_rate l)). destruct (Reqb_spec (r_rate l) (r_rate l)); [reflexivity|contradiction].
Qed.
Print Assumptions C159_leak.
Example C159_leak_nonvacuous : let l := mkthr true 2 0 0 in let a := gasAt 101 28 in let b := gasAt 100 28 in
  r_flag l = true /\ r_prev l <> r_rate l /\ Reps < Rabs (d_p a - d_p b) /\ Reps < flow_rho a b /\ Reps < flow_mw a b.
Proof.
  cbv zeta. unfold flow_rho, flow_mw. cbn [r_flag r_prev r_rate d_p d_rho d_mw gasAt]. pose proof Reps_pos. pose proof Reps_small.
  rewrite Rabs_right by lra. destruct (Rlt_dec 28 Reps); [lra|]. repeat split; lra.
Qed.
(** Switched on while the pressures are equal, a leak of any rate never leaks, whatever the
    pressures do afterwards. *)
Theorem C159_leak_refuted : exists (a b : @fl R) (l : @through R), r_flag l = true /\ 0 < r_rate l /\
  forall minp (later : list (@fl R * @fl R)), r_cond (fold_left (fun s p => thruR minp (fst p) (snd p) s) later (thruR minp a b l)) = 0.
Proof.
  exists (gasAt 100 28), (gasAt 100 28), (mkthr true 2 0 0). split; [reflexivity|]. split; [cbn; lra|]. intros minp later.
  assert (Z : r_cond (thruR minp (gasAt 100 28) (gasAt 100 28) (mkthr true 2 0 0)) = 0).
  { unfold leak_thru. cbn [r_flag r_prev r_rate r_cond]. change (0 ==~ 2) with (Reqb 0 2). destruct (Reqb_spec 0 2); [lra|]. cbn [r_cond].
    unfold predict_cond. cbn [d_p gasAt]. change (neps <~ nabs (100 -~ 100)) with (Rltb Reps (Rabs (100 - 100))). rewrite Rminus_diag_eq by reflexivity. rewrite Rabs_R0.
    rewrite Rltb_false by (pose proof Reps_pos; lra). reflexivity. }
  set (s := thruR minp (gasAt 100 28) (gasAt 100 28) (mkthr true 2 0 0)) in *.
  assert (K : forall a b, thruR minp a b s = s) by (intros a b; apply (proj2 (proj2 (C159_leak minp (gasAt 100 28) (gasAt 100 28) (mkthr true 2 0 0)))); reflexivity).
  clearbody s. induction later as [|p later IH]; cbn [fold_left]; [exact Z|]. rewrite K. exact IH.
Qed.
Print Assumptions C159_leak_refuted.
(** In a conductor whose pressure exponent is not a half the leak is not sized to the rate. *)
Theorem C159_leak_exponent_refuted : exists minp (a b : @fl R) (l : @through R), r_flag l = true /\ r_prev l <> r_rate l /\
  Reps < Rabs (d_p a - d_p b) /\ Reps < flow_rho a b /\ Reps < flow_mw a b /\
  let k := valve_cond 1 0 (thruR minp a b l) in
  admR k minp a b 1 * lin_drop minp a b * flow_mw a b = 100 * Rabs (r_rate l).
Proof.
  exists 0, (gasAt 110 28), (gasAt 100 28), (mkthr true 2 0 0). pose proof Reps_pos as E0. pose proof Reps_small as E1.
  assert (B : Rabs (110 - 100) = 10) by (rewrite Rabs_right; lra).
  assert (W : flow_mw (gasAt 110 28) (gasAt 100 28) = 28) by (unfold flow_mw, gasAt; cbn [d_mw]; destruct (Rlt_dec 28 Reps); lra).
  assert (Rh : flow_rho (gasAt 110 28) (gasAt 100 28) = 1) by (unfold flow_rho, gasAt; cbn [d_rho]; lra).
  assert (D : lin_drop 0 (gasAt 110 28) (gasAt 100 28) = 10) by (unfold lin_drop, gasAt; cbn [d_p]; rewrite B; apply Rmax_right; lra).
  rewrite Rh, W. cbn [r_flag r_prev r_rate d_p gasAt]. rewrite B. repeat (split; [lra||reflexivity|]). cbv zeta.
  rewrite (proj1 (C159_conductivity _ _ _)). unfold leak_thru. cbn [r_flag r_prev r_rate r_cond]. change (0 ==~ 2) with (Reqb 0 2). destruct (Reqb_spec 0 2); [lra|]. cbn [r_cond].
  rewrite predict_eq; [|cbn [d_p gasAt]; rewrite B; lra|rewrite Rh; lra]. rewrite Rh, D, halfR. 
  assert (E5 : within (1 / 2) (1 / 2) 1 = 1 / 2) by (unfold within; rewrite Rmin_left, Rmax_left by lra; reflexivity).
  assert (E6 : within (1 / 2) 1 1 = 1) by (unfold within; rewrite Rmin_left, Rmax_right by lra; reflexivity).
  rewrite E5. rewrite powR_half by lra. replace (1 * (1000 * 10)) with (100 * 100) by lra. rewrite sqrt_square by lra. rewrite (Rabs_right 2) by lra.
  rewrite Rmax_right by lra. replace 28 with (flow_mw (gasAt 110 28) (gasAt 100 28)) at 3. replace 10 with (lin_drop 0 (gasAt 110 28) (gasAt 100 28)) at 1.
  rewrite C154_admittance by (rewrite ?Rh, ?D, ?W; lra). unfold flow_law. rewrite Rh, D, E6. rewrite powR_one by lra. lra.
Qed.
Print Assumptions C159_leak_exponent_refuted.

(** The check valve. *)
Definition check_curve (c : @cvalve R) (drop : R) : R :=
  if Rle_dec (k_open c) drop then 1 else if Rle_dec drop (k_close c) then 0 else (drop - k_close c) / (k_open c - k_close c).
Lemma check_ok (c : @cvalve R) : check_valid c = true -> 0 <= k_rate c /\ k_close c <= k_open c /\ 0 <= k_failv c <= 1.
Proof.
  unfold check_valid, is_in_range. intro H. apply andb_prop in H as [H H3]. apply andb_prop in H as [H1 H2]. apply andb_prop in H3 as [H3 H4].
  change (k_rate c <~ n0) with (Rltb (k_rate c) 0) in H1. change (k_open c <~ k_close c) with (Rltb (k_open c) (k_close c)) in H2.
  change (n0 <=~ k_failv c) with (Rleb 0 (k_failv c)) in H3. change (k_failv c <=~ n1) with (Rleb (k_failv c) 1) in H4.
  destruct (Rltb_spec (k_rate c) 0); [discriminate|]. destruct (Rltb_spec (k_open c) (k_close c)); [discriminate|].
  destruct (Rleb_spec 0 (k_failv c)); [|discriminate]. destruct (Rleb_spec (k_failv c) 1); [|discriminate]. lra.
Qed.
Lemma frac_range (x y z : R) : y < x < z -> 0 <= (x - y) / (z - y) <= 1.
Proof.
  intros [A B]. split; [apply Rmult_le_pos; [lra|left; apply Rinv_0_lt_compat; lra]|].
  apply Rmult_le_reg_r with (z - y); [lra|]. unfold Rdiv. rewrite Rmult_assoc, Rinv_l by lra. lra.
Qed.
Lemma check_targetR (c : @cvalve R) drop : k_close c <= k_open c -> check_target c drop = check_curve c drop /\ 0 <= check_curve c drop <= 1.
Proof.
  intro H. unfold check_target, check_curve. change (k_open c <=~ drop) with (Rleb (k_open c) drop). change (drop <=~ k_close c) with (Rleb drop (k_close c)).
  destruct (Rleb_spec (k_open c) drop), (Rle_dec (k_open c) drop); try lra; [rnum; split; [reflexivity|lra]|].
  destruct (Rleb_spec drop (k_close c)) as [Q|Q], (Rle_dec drop (k_close c)) as [Q'|Q']; try lra; rnum; [split; [reflexivity|lra]|].
  split; [reflexivity|]. apply frac_range. lra.
Qed.
(** A check valve that is not failed moves towards the opening its pressure drop calls for, no
    faster than its rate, and is there when it has had the time; open above the one pressure,
    closed below the other, and no less open for more pressure.  Stuck it stays, failed it goes
    to its failed position. *)
Theorem C159_check : forall (c : @cvalve R) dt drop pos, check_valid c = true -> 0 <= dt -> 0 <= pos <= 1 ->
  let pos' := check_pos dt c drop pos in
  0 <= pos' <= 1 /\
  (k_stuck c = true -> pos' = pos) /\ (k_stuck c = false -> k_fail c = true -> pos' = k_failv c) /\
  (k_stuck c = false -> k_fail c = false -> pos' = within (pos - k_rate c * dt) (check_curve c drop) (pos + k_rate c * dt)).
Proof.
  intros c dt drop pos V D P. cbv zeta. destruct (check_ok c V) as (H1 & H2 & H3). pose proof (Rmult_le_pos _ _ H1 D) as H4.
  destruct (check_targetR c drop H2) as [E F]. unfold check_pos. rewrite E. rewrite clamp_frac by exact H3.
  change (k_rate c *~ dt) with (k_rate c * dt). split; [|split; [|split]].
  - destruct (k_stuck c); [exact P|]. destruct (k_fail c); [exact H3|]. apply slew_range; assumption.
  - intros ->. reflexivity.
  - intros -> ->. reflexivity.
  - intros -> ->. apply slewR; assumption.
Qed.
Print Assumptions C159_check.
Theorem C159_check_settles : forall (c : @cvalve R) dt drop pos n, check_valid c = true -> 0 <= dt -> 0 <= pos <= 1 ->
  k_stuck c = false -> k_fail c = false -> 1 <= INR n * (k_rate c * dt) ->
  repeat_n n (check_pos dt c drop) pos = check_curve c drop.
Proof.
  intros c dt drop pos n V D P S F H. destruct (check_ok c V) as (H1 & H2 & H3). pose proof (Rmult_le_pos _ _ H1 D) as H4.
  destruct (check_targetR c drop H2) as [E G]. pose proof (slew_reach n pos (check_curve c drop) (k_rate c * dt) P H4 G) as Q.
  assert (X : forall x, check_pos dt c drop x = slew x (check_curve c drop) (k_rate c * dt)) by (intro x; unfold check_pos; rewrite S, F, E; reflexivity).
  assert (Y : forall m x, repeat_n m (check_pos dt c drop) x = repeat_n m (fun x => slew x (check_curve c drop) (k_rate c * dt)) x).
  { induction m as [|m IH]; intro x; cbn [repeat_n]; [reflexivity|]. rewrite X. apply IH. }
  rewrite Y. rewrite Rmax_left in Q by (unfold Rabs; destruct (Rcase_abs _); lra).
  set (z := repeat_n _ _ _) in *. clearbody z. revert Q. rmm.
Qed.
Print Assumptions C159_check_settles.
Theorem C159_check_curve : forall (c : @cvalve R) d d', check_valid c = true ->
  (k_open c <= d -> check_curve c d = 1) /\ (d < k_open c -> d <= k_close c -> check_curve c d = 0) /\
  (k_close c < d < k_open c -> check_curve c d * (k_open c - k_close c) = d - k_close c) /\
  (d <= d' -> check_curve c d <= check_curve c d').
Proof.
  intros c d d' V. destruct (check_ok c V) as (_ & H2 & _). 
  assert (O : forall x, k_open c <= x -> check_curve c x = 1) by (intros x Hx; unfold check_curve; destruct (Rle_dec _ _); [reflexivity|lra]).
  assert (C : forall x, x < k_open c -> x <= k_close c -> check_curve c x = 0).
  { intros x Hx Hy. destruct (check_targetR c x H2) as [E _]. rewrite <- E. unfold check_target. change (k_open c <=~ x) with (Rleb (k_open c) x). change (x <=~ k_close c) with (Rleb x (k_close c)).
    destruct (Rleb_spec (k_open c) x); [lra|]. destruct (Rleb_spec x (k_close c)); [reflexivity|lra]. }
  assert (M : forall x, k_close c < x < k_open c -> check_curve c x = (x - k_close c) / (k_open c - k_close c)).
  { intros x Hx. destruct (check_targetR c x H2) as [E _]. rewrite <- E. unfold check_target. change (k_open c <=~ x) with (Rleb (k_open c) x). change (x <=~ k_close c) with (Rleb x (k_close c)).
    destruct (Rleb_spec (k_open c) x); [lra|]. destruct (Rleb_spec x (k_close c)); [lra|reflexivity]. }
  split; [apply O|]. split; [apply C|]. split; [intro Hx; rewrite M by exact Hx; field; lra|]. intro L.
  destruct (check_targetR c d H2) as [_ R1]. destruct (check_targetR c d' H2) as [_ R2].
  destruct (Rle_dec (k_open c) d') as [Q|Q]; [rewrite (O d' Q); lra|]. destruct (Rle_dec d (k_close c)) as [Q'|Q']; [rewrite (C d) by lra; lra|].
  rewrite (M d), (M d') by lra. apply Rmult_le_compat_r; [left; apply Rinv_0_lt_compat; lra|lra].
Qed.
Print Assumptions C159_check_curve.
Example C159_check_nonvacuous : check_valid (mkcv 1 2 1 false false 0 : @cvalve R) = true.
Proof. unfold check_valid, is_in_range. cbn [k_rate k_open k_close k_failv]. rnum. rewrite !Rltb_false by lra. destruct (Rleb_spec 0 0); [|lra]. destruct (Rleb_spec 0 1); [reflexivity|lra]. Qed.

(** ** C160: three-way valves *)
Lemma three_ok (band pos : R) : three_valid band pos = true -> 0 <= band <= 1 - Reps /\ 0 <= pos <= 1.
Proof.
  unfold three_valid, is_in_range. intro H. apply andb_prop in H as [H H']. apply andb_prop in H as [H1 H2]. apply andb_prop in H' as [H3 H4].
  change (n0 <=~ band) with (Rleb 0 band) in H1. change (band <=~ n1 -~ neps) with (Rleb band (1 - Reps)) in H2. change (n0 <=~ pos) with (Rleb 0 pos) in H3. change (pos <=~ n1) with (Rleb pos 1) in H4.
  destruct (Rleb_spec 0 band); [|discriminate]. destruct (Rleb_spec band (1 - Reps)); [|discriminate]. destruct (Rleb_spec 0 pos); [|discriminate]. destruct (Rleb_spec pos 1); [|discriminate]. lra.
Qed.
(** How far a path is open [x] away from its full position, when each half stroke is [w] wide. *)
Definition width (band : R) : R := if Rlt_dec 0 band then Rmax Reps ((1 - band) / 2) else 1.
Definition path (w x : R) : R := Rmax 0 (1 - x / w).
Lemma three_eq pathb (band pos : R) : three_valid band pos = true ->
  three_way pathb band pos = (path (width band) (if pathb then pos else 1 - pos), path (width band) (if pathb then 1 - pos else pos)).
Proof.
  intro V. destruct (three_ok band pos V) as [B P]. pose proof Reps_pos as E0. unfold three_way, width, path. rewrite halfR.
  change (n0 <~ band) with (Rltb 0 band). destruct (Rltb_spec 0 band) as [Q|Q], (Rlt_dec 0 band) as [Q'|Q']; try lra.
  - rewrite !nmaxR. rnum. replace (1 / 2 - 1 / 2 * band) with ((1 - band) / 2) by lra. set (w := Rmax Reps ((1 - band) / 2)). assert (W : 0 < w) by (unfold w; pose proof (Rmax_l Reps ((1 - band) / 2)); lra). clearbody w.
    assert (X : (w - pos) / w = 1 - pos / w) by (field; lra). assert (Y : (pos - (1 - w)) / w = 1 - (1 - pos) / w) by (field; lra). rewrite X, Y.
    destruct pathb; reflexivity.
  - rnum. assert (X : Rmax 0 (1 - pos / 1) = 1 - pos) by (replace (pos / 1) with pos by field; apply Rmax_right; lra).
    assert (Y : Rmax 0 (1 - (1 - pos) / 1) = pos) by (replace ((1 - pos) / 1) with (1 - pos) by field; rewrite Rmax_right; lra).
    destruct pathb; rewrite X, Y; reflexivity.
Qed.
Lemma path_facts w x : 0 < w -> 0 <= x -> 0 <= path w x <= 1 /\ (path w x = 0 <-> w <= x) /\ path w 0 = 1.
Proof.
  intros W X. unfold path. assert (Q : 0 <= x / w) by (apply Rmult_le_pos; [exact X|left; apply Rinv_0_lt_compat; exact W]).
  split; [unfold Rmax; destruct (Rle_dec _ _); lra|]. split.
  - assert (K : x = x / w * w) by (field; lra). split; intro H.
    + assert (1 <= x / w) by (revert H; unfold Rmax; destruct (Rle_dec _ _); lra). pose proof (Rmult_le_compat_r w 1 (x / w) ltac:(lra) H0). lra.
    + apply Rmax_left. assert (1 <= x / w); [|lra]. apply Rmult_le_reg_r with w; [exact W|lra].
  - unfold Rdiv. rewrite Rmult_0_l, Rminus_0_r. apply Rmax_right. lra.
Qed.
(** The paths' positions are from 0 to 1, one path is full open at each end of the stroke, the
    paths trade places with the flag; without a non-mixing band they add up to one, with one they
    are never both open, and both shut exactly within it. *)
Theorem C160_three_way : forall pathb (band pos : R), three_valid band pos = true ->
  let a := fst (three_way pathb band pos) in let b := snd (three_way pathb band pos) in
  0 <= a <= 1 /\ 0 <= b <= 1 /\
  three_way (negb pathb) band pos = (b, a) /\
  (pos = (if pathb then 0 else 1) -> a = 1 /\ b = 0) /\
  (band = 0 -> a + b = 1) /\
  (0 < band -> (a = 0 \/ b = 0) /\ (a = 0 /\ b = 0 <-> width band <= pos <= 1 - width band)).
Proof.
  intros pathb band pos V. cbv zeta. pose proof (three_ok band pos V) as [B P]. rewrite !three_eq by exact V. cbn [fst snd]. pose proof Reps_pos as E0. pose proof Reps_small as E1.
  assert (W : 0 < width band <= 1 /\ (0 < band -> width band <= 1 / 2) /\ (band = 0 -> width band = 1)).
  { unfold width. destruct (Rlt_dec 0 band); [|split; [|split]; intros; lra]. assert (Rmax Reps ((1 - band) / 2) <= 1 / 2) by (apply Rmax_lub; lra). pose proof (Rmax_l Reps ((1 - band) / 2)). repeat split; intros; lra. }
  destruct W as (W1 & W2 & W3). set (w := width band) in *. clearbody w.
  destruct (path_facts w pos) as (A1 & A2 & A3); [lra|lra|]. destruct (path_facts w (1 - pos)) as (B1 & B2 & B3); [lra|lra|].
  split; [destruct pathb; assumption|]. split; [destruct pathb; assumption|]. split; [destruct pathb; reflexivity|]. split; [|split].
  - intro H. destruct pathb; subst pos.
    + split; [exact A3|]. apply B2. lra.
    + replace (1 - 1) with 0 in * by lra. split; [exact A3 || exact B3|]. apply A2. lra.
  - intro H. rewrite (W3 H). unfold path. replace (pos / 1) with pos by field. replace ((1 - pos) / 1) with (1 - pos) by field. rewrite !Rmax_right by (destruct pathb; lra). destruct pathb; lra.
  - intro H. specialize (W2 H). split.
    + destruct (Rle_dec w pos) as [Q|Q]; [apply A2 in Q; destruct pathb; auto|]. assert (Q' : w <= 1 - pos) by lra. apply B2 in Q'. destruct pathb; auto.
    + split.
      * intros [X Y]. destruct pathb; [apply A2 in X; apply B2 in Y|apply B2 in X; apply A2 in Y]; lra.
      * intros [X Y]. assert (Q : w <= 1 - pos) by lra. apply A2 in X. apply B2 in Q. destruct pathb; auto.
Qed.
Print Assumptions C160_three_way.
Example C160_nonvacuous : three_valid (1 / 2 : R) (1 / 4) = true /\ 0 < 1 / 2.
Proof. split; [|lra]. unfold three_valid, is_in_range. rnum. pose proof Reps_small. destruct (Rleb_spec 0 (1 / 2)); [|lra]. destruct (Rleb_spec (1 / 2) (1 - Reps)); [|lra]. destruct (Rleb_spec 0 (1 / 4)); [|lra]. destruct (Rleb_spec (1 / 4) 1); [reflexivity|lra]. Qed.

Lemma tc_ok (c : @tcvalve R) : tc_valid c = true -> 0 <= t_rate c /\ Reps < t_opena c - t_mind c /\ Reps < t_openb c - t_mind c /\ 0 <= t_failv c <= 1.
Proof.
  unfold tc_valid, is_in_range. intro H. apply andb_prop in H as [H H4]. apply andb_prop in H as [H H3]. apply andb_prop in H as [H1 H2]. apply andb_prop in H4 as [H4 H5].
  change (t_rate c <~ n0) with (Rltb (t_rate c) 0) in H1. change (t_opena c -~ t_mind c <=~ neps) with (Rleb (t_opena c - t_mind c) Reps) in H2.
  change (t_openb c -~ t_mind c <=~ neps) with (Rleb (t_openb c - t_mind c) Reps) in H3. change (n0 <=~ t_failv c) with (Rleb 0 (t_failv c)) in H4. change (t_failv c <=~ n1) with (Rleb (t_failv c) 1) in H5.
  destruct (Rltb_spec (t_rate c) 0); [discriminate|]. destruct (Rleb_spec (t_opena c - t_mind c) Reps); [discriminate|]. destruct (Rleb_spec (t_openb c - t_mind c) Reps); [discriminate|].
  destruct (Rleb_spec 0 (t_failv c)); [|discriminate]. destruct (Rleb_spec (t_failv c) 1); [|discriminate]. lra.
Qed.
(** How far path A opens for a pressure difference of the paths, with the two widths. *)
Definition shuttle (mind opena openb d : R) : R :=
  if Rlt_dec (Rabs d) mind then 1 / 2
  else if Rlt_dec 0 d then Rmin 1 (1 / 2 + (d - mind) / (opena - mind) / 2)
  else if Rlt_dec d 0 then Rmax 0 (1 / 2 - (- d - mind) / (openb - mind) / 2) else 1 / 2.
Lemma shuttle_range mind oa ob d : 0 <= mind -> mind < oa -> mind < ob -> 0 <= shuttle mind oa ob d <= 1 /\
  (0 < d -> 1 / 2 <= shuttle mind oa ob d) /\ (d < 0 -> shuttle mind oa ob d <= 1 / 2).
Proof.
  intros M A B. unfold shuttle. destruct (Rlt_dec (Rabs d) mind) as [Q|Q]; [lra|].
  destruct (Rlt_dec 0 d) as [P|P].
  - rewrite Rabs_right in Q by lra. assert (0 <= (d - mind) / (oa - mind)) by (apply Rmult_le_pos; [lra|left; apply Rinv_0_lt_compat; lra]).
    unfold Rmin. destruct (Rle_dec _ _); lra.
  - destruct (Rlt_dec d 0) as [P'|P']; [|lra]. rewrite Rabs_left in Q by lra. assert (0 <= (- d - mind) / (ob - mind)) by (apply Rmult_le_pos; [lra|left; apply Rinv_0_lt_compat; lra]).
    unfold Rmax. destruct (Rle_dec _ _); lra.
Qed.
Lemma tc_targetR (c : @tcvalve R) pa pb pos : tc_valid c = true -> 0 < t_mind c -> (0 <= pa \/ 0 <= pb) ->
  tc_target c pa pb pos = let x := shuttle (t_mind c) (t_opena c) (t_opena c) (pa - pb) in if t_pathb c then 1 - x else x.
Proof.
  intros V M H. destruct (tc_ok c V) as (_ & A & B & _). pose proof Reps_pos as E0. cbv zeta. unfold tc_target. change (pa <~ n0) with (Rltb pa 0). change (pb <~ n0) with (Rltb pb 0).
  replace (Rltb pa 0 && Rltb pb 0) with false by (destruct (Rltb_spec pa 0), (Rltb_spec pb 0); cbn; lra || reflexivity).
  assert (X : (if nabs (pa -~ pb) <~ t_mind c then half else if pb <~ pa then limit_range half (half *~ (n1 +~ (pa -~ pb -~ t_mind c) /~ (t_opena c -~ t_mind c))) n1
     else if pa <~ pb then limit_range n0 (half *~ (n1 -~ (pb -~ pa -~ t_mind c) /~ (t_opena c -~ t_mind c))) half else pos) = shuttle (t_mind c) (t_opena c) (t_opena c) (pa - pb)).
  { unfold shuttle. rewrite halfR. change (nabs (pa -~ pb) <~ t_mind c) with (Rltb (Rabs (pa - pb)) (t_mind c)). change (pb <~ pa) with (Rltb pb pa). change (pa <~ pb) with (Rltb pa pb).
    destruct (Rltb_spec (Rabs (pa - pb)) (t_mind c)) as [Q|Q], (Rlt_dec (Rabs (pa - pb)) (t_mind c)) as [Q'|Q']; try lra.
    destruct (Rltb_spec pb pa) as [P|P], (Rlt_dec 0 (pa - pb)) as [P'|P']; try lra.
    - rewrite limit_within by (rnum; lra). rnum. rewrite Rabs_right in Q by lra.
      assert (0 <= (pa - pb - t_mind c) / (t_opena c - t_mind c)) by (apply Rmult_le_pos; [lra|left; apply Rinv_0_lt_compat; lra]).
      set (y := (pa - pb - t_mind c) / (t_opena c - t_mind c)) in *. clearbody y. rmm.
    - destruct (Rltb_spec pa pb) as [S|S], (Rlt_dec (pa - pb) 0) as [S'|S']; try lra.
      + rewrite limit_within by (rnum; lra). rnum. rewrite Rabs_left in Q by lra. replace (- (pa - pb) - t_mind c) with (pb - pa - t_mind c) by lra.
        assert (0 <= (pb - pa - t_mind c) / (t_opena c - t_mind c)) by (apply Rmult_le_pos; [lra|left; apply Rinv_0_lt_compat; lra]).
        set (y := (pb - pa - t_mind c) / (t_opena c - t_mind c)) in *. clearbody y. rmm.
      + exfalso. apply Q. replace (pa - pb) with 0 by lra. rewrite Rabs_R0. exact M. }
  rewrite X. destruct (t_pathb c); rnum; reflexivity.
Qed.
(** A three-way check valve that has not failed: it keeps its position when neither path can feed
    it, and otherwise moves at no more than its rate to the favour of the path with the greater
    drop (halfway for about equal ones); its position stays from 0 to 1. *)
Theorem C160_check : forall (c : @tcvalve R) dt pa pb pos, tc_valid c = true -> 0 < t_mind c -> 0 <= dt -> 0 <= pos <= 1 ->
  let pos' := tc_pos dt c pa pb pos in
  let a := if t_pathb c then 1 - pos' else pos' in                   (* how far path A is open *)
  let want := shuttle (t_mind c) (t_opena c) (t_opena c) (pa - pb) in
  0 <= pos' <= 1 /\ (t_stuck c = true -> pos' = pos) /\ (t_stuck c = false -> t_fail c = true -> pos' = t_failv c) /\
  (t_stuck c = false -> t_fail c = false ->
     (pa < 0 -> pb < 0 -> pos' = pos) /\
     ((0 <= pa \/ 0 <= pb) -> 0 <= want <= 1 /\
        a = within ((if t_pathb c then 1 - pos else pos) - t_rate c * dt) want ((if t_pathb c then 1 - pos else pos) + t_rate c * dt))).
Proof.

  intros c dt pa pb pos V M D P. cbv zeta. destruct (tc_ok c V) as (H1 & A & B & F). pose proof Reps_pos as E0. pose proof (Rmult_le_pos _ _ H1 D) as H4.
  unfold tc_pos. rewrite clamp_frac by exact F. change (t_rate c *~ dt) with (t_rate c * dt). split; [|split; [|split]].
  - destruct (t_stuck c); [exact P|]. destruct (t_fail c); [exact F|]. apply slew_range; assumption.
  - intros ->. reflexivity.
  - intros -> ->. reflexivity.
  - intros -> ->. split.
    + intros Ha Hb. unfold tc_target. change (pa <~ n0) with (Rltb pa 0). change (pb <~ n0) with (Rltb pb 0). rewrite !Rltb_true by assumption. cbn [andb].
      rewrite slewR by assumption. rmm.
    + intro H. destruct (shuttle_range (t_mind c) (t_opena c) (t_opena c) (pa - pb)) as (S1 & _); try lra. split; [exact S1|].
      rewrite tc_targetR by assumption. cbv zeta. set (w := shuttle _ _ _ _) in *. clearbody w.
      rewrite slewR; [|exact P|exact H4|destruct (t_pathb c); lra].
      destruct (t_pathb c); [|reflexivity]. rmm.
Qed.
Print Assumptions C160_check.
(** Path A is full open at its open pressure. *)
Theorem C160_check_open : forall mind oa ob d, 0 <= mind -> mind < oa -> mind < ob ->
  (oa <= d -> shuttle mind oa ob d = 1) /\ (ob <= - d -> shuttle mind oa ob d = 0) /\ (Rabs d < mind -> shuttle mind oa ob d = 1 / 2) /\
  (forall d', d <= d' -> shuttle mind oa ob d <= shuttle mind oa ob d').
Proof.
  intros mind oa ob d M A B.
  assert (Q : forall x y, 0 < y -> y <= x -> 1 <= x / y).
  { intros x y Hy Hx. apply Rmult_le_reg_r with y; [exact Hy|]. unfold Rdiv. rewrite Rmult_assoc, Rinv_l by lra. lra. }
  split; [|split; [|split]].
  - intro H. unfold shuttle. rewrite Rabs_right by lra. destruct (Rlt_dec d mind); [lra|]. destruct (Rlt_dec 0 d); [|lra].
    pose proof (Q (d - mind) (oa - mind)). apply Rmin_left. lra.
  - intro H. unfold shuttle. rewrite Rabs_left by lra. destruct (Rlt_dec (- d) mind); [lra|]. destruct (Rlt_dec 0 d); [lra|]. destruct (Rlt_dec d 0); [|lra].
    pose proof (Q (- d - mind) (ob - mind)). apply Rmax_left. lra.
  - intro H. unfold shuttle. destruct (Rlt_dec (Rabs d) mind); [reflexivity|lra].
  - intros d' L. destruct (Rlt_dec d 0) as [N|N], (Rlt_dec 0 d') as [N'|N'].
    + pose proof (proj2 (proj2 (shuttle_range mind oa ob d M A B)) N). pose proof (proj1 (proj2 (shuttle_range mind oa ob d' M A B)) N'). lra.
    + destruct (Rlt_dec d' 0) as [K|K].
      2:{ assert (d' = 0) by lra. subst d'. pose proof (proj2 (proj2 (shuttle_range mind oa ob d M A B)) N).
          assert (shuttle mind oa ob 0 = 1 / 2); [|lra]. unfold shuttle. destruct (Rlt_dec _ _); [reflexivity|]. destruct (Rlt_dec 0 0); [lra|reflexivity]. }
      pose proof (proj2 (proj2 (shuttle_range mind oa ob d M A B)) N) as U. unfold shuttle in *. rewrite !Rabs_left in * by lra.
      destruct (Rlt_dec (- d') mind); [destruct (Rlt_dec (- d) mind); lra|]. destruct (Rlt_dec (- d) mind); [lra|].
      destruct (Rlt_dec 0 d); [lra|]. destruct (Rlt_dec 0 d'); [lra|]. destruct (Rlt_dec d 0); [|lra]. destruct (Rlt_dec d' 0); [|lra].
      assert ((- d' - mind) / (ob - mind) <= (- d - mind) / (ob - mind)) by (apply Rmult_le_compat_r; [left; apply Rinv_0_lt_compat; lra|lra]).
      unfold Rmax. repeat destruct (Rle_dec _ _); lra.
    + destruct (Rlt_dec 0 d) as [K|K].
      2:{ assert (d = 0) by lra. subst d. pose proof (proj1 (proj2 (shuttle_range mind oa ob d' M A B)) N').
          assert (shuttle mind oa ob 0 = 1 / 2); [|lra]. unfold shuttle. destruct (Rlt_dec _ _); [reflexivity|]. destruct (Rlt_dec 0 0); [lra|reflexivity]. }
      pose proof (proj1 (proj2 (shuttle_range mind oa ob d' M A B)) N') as U. unfold shuttle in *. rewrite !Rabs_right in * by lra.
      destruct (Rlt_dec d mind); [lra|]. destruct (Rlt_dec d' mind); [lra|].
      destruct (Rlt_dec 0 d); [|lra]. destruct (Rlt_dec 0 d'); [|lra].
      assert ((d - mind) / (oa - mind) <= (d' - mind) / (oa - mind)) by (apply Rmult_le_compat_r; [left; apply Rinv_0_lt_compat; lra|lra]).
      unfold Rmin. repeat destruct (Rle_dec _ _); lra.
    + assert (d' = d) by lra. subst d'. lra.
Qed.
Print Assumptions C160_check_open.
(** Path B's open pressure has no effect: a valve at rest has path B a quarter shut at a drop in
    its favour of the pressure at which it is declared full open. *)
Theorem C160_openb_refuted : exists (c : @tcvalve R) dt pa pb pos, tc_valid c = true /\ 0 < t_mind c /\ t_stuck c = false /\ t_fail c = false /\
  t_pathb c = false /\ 0 <= pb /\ t_openb c <= pb - pa /\ 1 <= t_rate c * dt /\ 0 <= pos <= 1 /\ tc_pos dt c pa pb pos = 1 / 4.
Proof.
  set (c := mktcv 1 3 2 1 false false 0 false : @tcvalve R). exists c, 1, 0, 2, 0.
  assert (V : tc_valid c = true).
  { unfold tc_valid, is_in_range, c. cbn [t_rate t_opena t_openb t_mind t_failv]. rnum. pose proof Reps_small. rewrite Rltb_false by lra.
    destruct (Rleb_spec (3 - 1) Reps); [lra|]. destruct (Rleb_spec (2 - 1) Reps); [lra|]. destruct (Rleb_spec 0 0); [|lra]. destruct (Rleb_spec 0 1); [reflexivity|lra]. }
  split; [exact V|]. unfold c at 1 2 3 4 5 6. cbn [t_mind t_stuck t_fail t_pathb t_openb t_rate]. repeat (split; [lra||reflexivity|]).
  unfold tc_pos. replace (t_stuck c) with false by reflexivity. replace (t_fail c) with false by reflexivity. rewrite tc_targetR; [|exact V|cbn; lra|lra]. cbv zeta.
  assert (X : shuttle (t_mind c) (t_opena c) (t_opena c) (0 - 2) = 1 / 4).
  { unfold shuttle, c. cbn [t_mind t_opena]. rewrite Rabs_left by lra. destruct (Rlt_dec (- (0 - 2)) 1); [lra|]. destruct (Rlt_dec 0 (0 - 2)); [lra|]. destruct (Rlt_dec (0 - 2) 0); [|lra].
    rewrite Rmax_right; lra. }
  rewrite X. change (t_pathb c) with false. cbv iota. rewrite slewR; [|lra|cbn; rnum; lra|lra]. cbn [t_rate c]. rnum. rmm.
Qed.
Print Assumptions C160_openb_refuted.
Example C160_check_nonvacuous : exists c : @tcvalve R, tc_valid c = true /\ 0 < t_mind c.
Proof. destruct C160_openb_refuted as (c & _ & _ & _ & _ & V & M & _). eauto. Qed.

(** ** C161: leak links *)
Notation leakR := (leak_update sqrt powR).
Definition no_leak {T} `{Num T} (l : @leak T) : Prop := e_phole l = n0 /\ e_prate l = n0 /\ e_cond l = n0.
(** No malfunction: no leak, and nothing remembered. *)
Theorem C161_off : forall minp (a b : @fl R) (l : @leak R), e_hole l = false -> e_rate l = false ->
  e_eff (leakR minp a b l) = 0 /\ no_leak (leakR minp a b l).
Proof. intros minp a b l H H'. unfold leak_update. rewrite H, H'. repeat split. Qed.
Print Assumptions C161_off.
(** A hole, from no leak on: whatever it is set to, the conductivity is the hole's area. *)
Definition hole_run (minp : R) (l : @leak R) (vs : list (R * (@fl R * @fl R))) : @leak R :=
  fold_left (fun s p => leakR minp (fst (snd p)) (snd (snd p)) (set_hole s true (fst p))) vs l.
Theorem C161_hole : forall minp (l : @leak R) vs v ab, no_leak l -> e_eff (hole_run minp l (vs ++ [(v, ab)])) = v.
Proof.
  intros minp l vs v ab (N1 & N2 & N3). unfold hole_run. rewrite fold_left_app. cbn [fold_left].
  assert (I : forall s, e_phole s = e_cond s -> forall v a b, let s' := leakR minp a b (set_hole s true v) in e_phole s' = e_cond s' /\ e_eff s' = v).
  { intros s E w a b. unfold leak_update, set_hole. cbn [e_hole e_phole e_holev e_cond e_eff]. change (e_phole s ==~ w) with (Reqb (e_phole s) w).
    destruct (Reqb_spec (e_phole s) w) as [Q|Q]; cbn [e_phole e_cond e_eff]; split; congruence. }
  assert (J : e_phole (fold_left (fun s p => leakR minp (fst (snd p)) (snd (snd p)) (set_hole s true (fst p))) vs l) = e_cond (fold_left (fun s p => leakR minp (fst (snd p)) (snd (snd p)) (set_hole s true (fst p))) vs l)).
  { assert (K : e_phole l = e_cond l) by congruence. clear N1 N2 N3. revert l K. induction vs as [|p vs IH]; intros l K; cbn [fold_left]; [exact K|]. apply IH. apply I. exact K. }
  apply I. exact J.
Qed.
Print Assumptions C161_hole.
(** A rate, from no leak on: the leak is sized to it at that moment. *)
Theorem C161_rate : forall minp (a b : @fl R) (l : @leak R) v, no_leak l -> e_hole l = false ->
  Reps < Rabs (d_p a - d_p b) -> Reps < flow_rho a b -> Reps < flow_mw a b ->
  let l' := leakR minp a b (set_rate l true v) in
  admR (e_eff l') minp a b (1 / 2) * lin_drop minp a b * flow_mw a b = Rabs v /\
  (forall a' b', e_eff (leakR minp a' b' l') = e_eff l').
Proof.
  intros minp a b l v (N1 & N2 & N3) H D Rh W. cbv zeta. destruct (C154_predict v minp a b half D Rh W) as [P Q]. rewrite halfR in P.
  unfold leak_update, set_rate. cbn [e_hole e_rate e_prate e_ratev e_cond e_eff e_phole e_holev]. rewrite H, N2, N3. change (n0 ==~ v) with (Reqb 0 v).
  destruct (Reqb_spec 0 v) as [E|E]; cbn [e_hole e_rate e_prate e_ratev e_cond e_eff e_phole e_holev].
  - split; [|intros; change (n0 ==~ v) with (Reqb 0 v); destruct (Reqb_spec 0 v); [reflexivity|contradiction]].
    subst v. rewrite Rabs_R0. rewrite C154_closed by (right; right; reflexivity). ring.
  - rewrite halfR. split; [exact P|]. intros. change (v ==~ v) with (Reqb v v). destruct (Reqb_spec v v); [reflexivity|contradiction].
Qed.
Print Assumptions C161_rate.
(** A hole opened over a leak rate and closed again leaves the rate's leak the size of the hole. *)
Definition leak0 : @leak R := mkleak false 0 false 0 0 0 0 0.
Theorem C161_swap_refuted : exists minp (a b : @fl R) rate hole, Reps < Rabs (d_p a - d_p b) /\ Reps < flow_rho a b /\ Reps < flow_mw a b /\
  let l1 := leakR minp a b (set_rate leak0 true rate) in
  let l2 := leakR minp a b (set_hole l1 true hole) in
  let l3 := leakR minp a b (set_hole l2 false 0) in
  e_hole l3 = false /\ e_rate l3 = true /\ e_ratev l3 = rate /\ e_eff l3 = hole /\ e_eff l1 < e_eff l3.
Proof.
  exists 0, (gasAt 110 28), (gasAt 100 28), 2, 1. pose proof Reps_pos as E0. pose proof Reps_small as E1.
  assert (B : Rabs (110 - 100) = 10) by (rewrite Rabs_right; lra).
  assert (W : flow_mw (gasAt 110 28) (gasAt 100 28) = 28) by (unfold flow_mw, gasAt; cbn [d_mw]; destruct (Rlt_dec 28 Reps); lra).
  assert (Rh : flow_rho (gasAt 110 28) (gasAt 100 28) = 1) by (unfold flow_rho, gasAt; cbn [d_rho]; lra).
  assert (D : lin_drop 0 (gasAt 110 28) (gasAt 100 28) = 10) by (unfold lin_drop, gasAt; cbn [d_p]; rewrite B; apply Rmax_right; lra).
  rewrite Rh, W. cbn [d_p gasAt]. rewrite B. split; [lra|]. split; [lra|]. split; [lra|]. cbv zeta.
  assert (L1 : leakR 0 (gasAt 110 28) (gasAt 100 28) (set_rate leak0 true 2) = mkleak false 0 true 2 0 2 (1 / 50) (1 / 50)).
  { unfold leak_update, set_rate, leak0. cbn [e_hole e_rate e_prate e_ratev e_cond e_eff e_phole e_holev]. change (0 ==~ 2) with (Reqb 0 2). destruct (Reqb_spec 0 2); [lra|].
    assert (K : predict_cond sqrt powR 2 0 (gasAt 110 28) (gasAt 100 28) half = 1 / 50).
    { rewrite predict_eq; [|cbn [d_p gasAt]; rewrite B; lra|rewrite Rh; lra]. rewrite Rh, D, halfR. 
      assert (E5 : within (1 / 2) (1 / 2) 1 = 1 / 2) by (unfold within; rewrite Rmin_left, Rmax_left by lra; reflexivity).
      rewrite E5. rewrite powR_half by lra. replace (1 * (1000 * 10)) with (100 * 100) by lra. rewrite sqrt_square by lra. rewrite (Rabs_right 2) by lra. lra. }
    rewrite K. reflexivity. }
  rewrite L1. unfold leak_update, set_hole. cbn [e_hole e_rate e_prate e_ratev e_cond e_eff e_phole e_holev].
  change (0 ==~ 1) with (Reqb 0 1). destruct (Reqb_spec 0 1); [lra|]. change (2 ==~ 2) with (Reqb 2 2). destruct (Reqb_spec 2 2); [|contradiction].
  cbn [e_hole e_rate e_ratev e_eff]. repeat split; lra.
Qed.
Print Assumptions C161_swap_refuted.
