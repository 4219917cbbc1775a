(** C200, C201: mass and heat of an accumulator's liquid, edits and malfunctions of its bellows. *)
From Coq Require Import Floats.
From Coq Require Import Reals Lra Lia List Arith Bool ZArith.
From Verif Require Import Num Ord MathUtil Props_Math Spec_Valve Props_Valve Props_Thermal FluidFlow Props_FluidFlow FluidSorb Props_FluidSorb Props_FluidSource Props_FluidBed Props_FluidMix Props_FluidTank FluidAccum Props_FluidAccum.
Import ListNotations.
Local Open Scope R_scope.

(** ** C200: mass and heat *)
(** The flow follows the pressures, weighs by the fluid at its source, and so does its volume. *)
Theorem C200_flow : forall pnode p cond wnode w rnode rho, 0 <= cond -> 0 < wnode -> 0 < w -> 0 < rnode -> 0 < rho ->
  let flux := acc_flux pnode p cond in let fl := acc_flow flux wnode w in
  flux = cond * (pnode - p) /\ (p <= pnode -> fl = flux * wnode /\ acc_volflow fl rnode rho = fl / rnode) /\ (pnode <= p -> fl = flux * w /\ acc_volflow fl rnode rho = fl / rho).
Proof.
  intros pnode p cond wnode w rnode rho C W1 W2 Q1 Q2 flux fl. assert (E : flux = cond * (pnode - p)) by (unfold flux, acc_flux; rnum; ring).
  split; [exact E|]. unfold fl, acc_flow, acc_volflow. change (@n0 R RNum) with 0.
  assert (S1 : p <= pnode -> 0 <= flux) by (intro; rewrite E; apply Rmult_le_pos; lra).
  assert (S2 : pnode <= p -> flux <= 0) by (intro; rewrite E; assert (0 <= cond * (p - pnode)) by (apply Rmult_le_pos; lra); lra).
  clearbody flux. clear E. destruct (0 <~ flux) eqn:F1; [apply ltT in F1|apply ltF in F1; destruct (flux <~ 0) eqn:F2; [apply ltT in F2|apply ltF in F2]].
  - assert (P : 0 < flux * wnode) by (apply Rmult_lt_0_compat; assumption).
    split; intro K; [|specialize (S2 K); lra]. assert (L : (0 <~ flux * wnode) = true) by (apply ltT; exact P). change (flux *~ wnode) with (flux * wnode). rewrite L. split; reflexivity.
  - assert (P : 0 < - flux * w) by (apply Rmult_lt_0_compat; lra). change (flux *~ w) with (flux * w).
    split; intro K; [specialize (S1 K); lra|]. assert (L : (0 <~ flux * w) = false) by (apply ltF; lra). rewrite L. assert (L2 : (flux * w <~ 0) = true) by (apply ltT; lra). rewrite L2. split; reflexivity.
  - assert (Z : flux = 0) by lra. subst flux. assert (L : ((0:R) <~ 0) = false) by (apply ltF; lra). rewrite !L.
    split; intros _; split; unfold Rdiv; ring.
Qed.
Print Assumptions C200_flow.
(** What the node collects is the flow, unless it is negligible. *)
Lemma moveR (fl : R) : acc_move fl = (if Rlt_dec (100 * Reps) (Rabs fl) then (Rmax 0 (- fl), Rmax 0 fl) else (0, 0)).
Proof.
  unfold acc_move. rewrite sorb_limitR. change (@n0 R RNum) with 0. change (nopp (100 * Reps)) with (- (100 * Reps)). pose proof Reps_pos.
  destruct (100 * Reps <~ fl) eqn:E1; [apply ltT in E1|apply ltF in E1].
  - destruct (Rlt_dec (100 * Reps) (Rabs fl)) as [Z|Z]; [|rewrite Rabs_right in Z by lra; lra]. rewrite Rmax_left, Rmax_right by lra. reflexivity.
  - destruct (fl <~ - (100 * Reps)) eqn:E2; [apply ltT in E2|apply ltF in E2].
    + destruct (Rlt_dec (100 * Reps) (Rabs fl)) as [Z|Z]; [|rewrite Rabs_left in Z by lra; lra]. rewrite Rmax_right, Rmax_left by lra. reflexivity.
    + destruct (Rlt_dec (100 * Reps) (Rabs fl)) as [Z|Z]; [|reflexivity]. exfalso. unfold Rabs in Z. destruct (Rcase_abs fl); lra.
Qed.
(** Free bellows: the chamber gains exactly what the node gives and loses what it gets, down to the
    least mass. *)
Theorem C200_balance : forall c g f dt r x, r_hold r = false -> let y := update_liq c g f dt r x in
  let mv := acc_move (r_flow r) in let m := x_mass x + (snd mv - fst mv) * dt in x_mass y = Rmax m Reps.
Proof.
  intros c g f dt r x H y mv m. unfold y, update_liq. rewrite H. cbn [x_mass]. unfold mass_step. rewrite nmaxR, sorb_limitR. change (@neps R RNum) with Reps. f_equal.
  unfold m, mv. rewrite moveR. change (nabs (r_flow r)) with (Rabs (r_flow r)).
  destruct (100 * Reps <~ Rabs (r_flow r)) eqn:E; [apply ltT in E|apply ltF in E]; destruct (Rlt_dec (100 * Reps) (Rabs (r_flow r))); try lra; cbn [fst snd]; [|rnum; ring].
  replace (Rmax 0 (r_flow r) - Rmax 0 (- r_flow r)) with (r_flow r); [rnum; ring|].
  unfold Rmax. repeat match goal with |- context [Rle_dec ?a ?b] => destruct (Rle_dec a b) end; lra.
Qed.
Print Assumptions C200_balance.
(** The heat: with a flow that is not negligible and mass left, the enthalpy of the chamber changes by
    the housing's heat and by the enthalpy of the flow at its source; the temperature is the one it
    gives, within the limits. *)
Theorem C200_heat : forall c g f dt r x, r_hold r = false -> r_holdt r = false -> a_tmin c <= a_tmax c -> (forall h, f_h f (f_t f h) = h) ->
  100 * Reps < Rabs (r_flow r) -> Reps <= x_mass x + r_flow r * dt -> let y := update_liq c g f dt r x in
  exists t, x_mass y * f_h f t = x_mass x * f_h f (x_temp x) + (r_q r + r_flow r * (if Rlt_dec 0 (r_flow r) then r_hin r else f_h f (x_temp x))) * dt /\
  x_temp y = Rmax (a_tmin c) (Rmin t (a_tmax c)).
Proof.
  intros c g f dt r x H HT T HF BF M y. pose proof Reps_pos as E0.
  assert (MM : mass_step dt (r_flow r) (x_mass x) = x_mass x + r_flow r * dt).
  { unfold mass_step. rewrite nmaxR, sorb_limitR. change (nabs (r_flow r)) with (Rabs (r_flow r)). assert (L : (100 * Reps <~ Rabs (r_flow r)) = true) by (apply ltT; exact BF). rewrite L. rnum. rewrite Rmax_left; lra. }
  assert (Y1 : x_mass y = x_mass x + r_flow r * dt) by (unfold y, update_liq; rewrite H; exact MM).
  assert (Y2 : x_temp y = chamber_temp c f dt r (x_mass x) (x_temp x)) by (unfold y, update_liq; rewrite H; reflexivity).
  rewrite Y1, Y2. unfold chamber_temp, acc_temp. rewrite HT, MM, sorb_limitR. rewrite limit_within by exact T. unfold within.
  assert (L : (n0 <~ x_mass x + r_flow r * dt) = true) by (apply ltT; rnum; lra). rewrite L. eexists. split; [|reflexivity]. rewrite HF.
  set (hf := if r_flow r <~ nopp (100 * Reps) then _ else _).
  assert (EH : hf = r_flow r * (if Rlt_dec 0 (r_flow r) then r_hin r else f_h f (x_temp x))).
  { unfold hf. change (nopp (100 * Reps)) with (- (100 * Reps)). destruct (r_flow r <~ - (100 * Reps)) eqn:F1; [apply ltT in F1|apply ltF in F1].
    - destruct (Rlt_dec 0 (r_flow r)); [lra|reflexivity].
    - destruct (100 * Reps <~ r_flow r) eqn:F2; [apply ltT in F2|apply ltF in F2].
      + destruct (Rlt_dec 0 (r_flow r)); [reflexivity|lra].
      + exfalso. unfold Rabs in BF. destruct (Rcase_abs (r_flow r)); lra. }
  rewrite EH. rnum. field. lra.
Qed.
Print Assumptions C200_heat.
(** Nothing flowing and no heat, or the temperature held: the temperature stays. *)
Theorem C200_steady : forall c g f dt r x, fit c g x -> r_hold r = false -> (forall h, f_t f (f_h f h) = h) ->
  r_holdt r = true \/ (Rabs (r_flow r) <= 100 * Reps /\ r_q r = 0) ->
  x_temp (update_liq c g f dt r x) = x_temp x.
Proof.
  intros c g f dt r x (_ & M & T) H HF K. pose proof Reps_pos as E0. unfold update_liq. rewrite H. cbn [x_temp]. unfold chamber_temp, acc_temp.
  destruct K as [K|[K1 K2]]; [rewrite K; apply limit_id; exact T|]. destruct (r_holdt r); [apply limit_id; exact T|].
  assert (MM : mass_step dt (r_flow r) (x_mass x) = x_mass x).
  { unfold mass_step. rewrite nmaxR, sorb_limitR. change (nabs (r_flow r)) with (Rabs (r_flow r)). assert (L : (100 * Reps <~ Rabs (r_flow r)) = false) by (apply ltF; exact K1). rewrite L. rnum. rewrite Rmax_left; lra. }
  rewrite MM, sorb_limitR, K2. assert (L : (n0 <~ x_mass x) = true) by (apply ltT; rnum; lra). rewrite L. change (nopp (100 * Reps)) with (- (100 * Reps)).
  assert (F1 : (r_flow r <~ - (100 * Reps)) = false) by (apply ltF; unfold Rabs in K1; destruct (Rcase_abs (r_flow r)); lra).
  assert (F2 : (100 * Reps <~ r_flow r) = false) by (apply ltF; unfold Rabs in K1; destruct (Rcase_abs (r_flow r)); lra). rewrite F1, F2.
  replace ((x_mass x *~ f_h f (x_temp x) +~ (0 +~ n0) *~ dt) /~ x_mass x) with (f_h f (x_temp x)) by (rnum; field; lra). rewrite HF. apply limit_id. exact T.
Qed.
Print Assumptions C200_steady.
(** False: what the accumulator gives to its node it had.  The flow is not limited to the content. *)
Theorem C200_drain_refuted : exists c f dt r x, usable 0 c /\ fit c (acc_geo c) x /\ r_hold r = false /\
  let y := update_liq c (acc_geo c) f dt r x in x_mass x - x_mass y < fst (acc_move (r_flow r)) * dt.
Proof.
  exists ex_c, ex_f, 1, (mkar (-200) 1200 0 false false), (ex_x 0). split; [exact ex_usable|]. split; [apply ex_fit; lra|]. split; [reflexivity|]. cbv zeta.
  rewrite C200_balance by reflexivity. rewrite moveR. cbn [r_flow]. pose proof Reps_pos as E0. pose proof Reps_small as E1.
  rewrite Rabs_left by lra. destruct (Rlt_dec (100 * Reps) (- (-200))); [|lra]. cbn [fst snd]. rewrite (Rmax_right 0 (- -200)), (Rmax_left 0 (-200)) by lra.
  cbn [ex_x x_mass]. rewrite Rmax_right; lra.
Qed.
Print Assumptions C200_drain_refuted.
(** False: in the step in which the bellows stick the chamber loses what its node gets. *)
Theorem C200_stick_refuted : exists c f dt r b, usable 0 c /\ fit c (acc_geo c) (b_x b) /\ r_hold r = false /\ 0 < fst (acc_move (r_flow r)) * dt /\
  x_mass (b_x (liquid_step c (acc_geo c) f dt r true false Free b)) = x_mass (b_x b).
Proof.
  exists ex_c, ex_f, 1, (mkar (-10) 1200 0 false false), (mkbel (ex_x (1/2)) false false 0 0 0 false 0 true false 0 0 false). split; [exact ex_usable|]. split; [apply ex_fit; lra|]. split; [reflexivity|]. split; [|reflexivity].
  rewrite moveR. cbn [r_flow]. pose proof Reps_pos as E0. pose proof Reps_small as E1.
  rewrite Rabs_left by lra. destruct (Rlt_dec (100 * Reps) (- (-10))); [|lra]. cbn [fst]. rewrite Rmax_right; lra.
Qed.
Print Assumptions C200_stick_refuted.
(** The pressure of the liquid is what presses it, within the limits. *)
Theorem C200_pressure : forall c pos head gas, Reps <= a_pmax c ->
  liq_press c pos head gas = Rmax Reps (Rmin (a_c0 c + a_c1 c * pos + a_c2 c * pos ^ 2 + head + gas) (a_pmax c)).
Proof.
  intros c pos head gas H. unfold liq_press. rewrite limit_within by exact H. unfold within. f_equal. f_equal. unfold spring. rnum. ring.
Qed.
Print Assumptions C200_pressure.
Example C200_heat_used : r_hold (mkar 10 1200 5 false false) = false /\ 100 * Reps < Rabs (r_flow (mkar 10 1200 5 false false)) /\ (forall h, f_h ex_f (f_t ex_f h) = h).
Proof. pose proof Reps_small. cbn. split; [reflexivity|]. split; [rewrite Rabs_right; lra|intro; field]. Qed.

(** ** C201: edits and malfunctions of the bellows *)
Definition goal_of (p : R) : R := Rmax 0 (Rmin p 1).
Definition rate_of (c : acfg R) (r : R) : R := Rmax 0 (Rmin r (a_maxrate c)).
Lemma force_pos c g f dt r goal rate u x : 0 <= dt -> 0 <= a_maxrate c -> shaped g -> 0 <= x_pos x <= 1 ->
  let '(y, g', r', done) := force_liq c g f dt r goal rate u x in let d := rate_of c rate * dt in
  g' = goal_of goal /\ r' = rate_of c rate /\ (done = true <-> x_pos y = goal_of goal) /\
  (Rabs (goal_of goal - x_pos x) <= d -> x_pos y = goal_of goal) /\
  (d < Rabs (goal_of goal - x_pos x) -> Rabs (goal_of goal - x_pos y) = Rabs (goal_of goal - x_pos x) - d) /\
  0 <= x_pos y <= 1 /\ x_mass y = Rmax (x_liq y * f_rho f (x_temp x)) Reps /\ x_liq y = g_min g + x_pos y * (g_max g - g_min g) /\ (u = false -> x_temp y = x_temp x).
Proof.
  intros D M S P. unfold force_liq. pose proof (C198_ramp dt (x_pos x) goal rate 0 1 (a_maxrate c) D ltac:(lra) M) as K. cbv zeta in K.
  change (@n0 R RNum) with 0. change (@n1 R RNum) with 1. destruct (ramp dt (x_pos x) goal rate 0 1 0 (a_maxrate c)) as [[[pos g'] r'] done].
  fold (goal_of goal) in K. fold (rate_of c rate) in K. destruct K as (K1 & K2 & K3 & K4 & K5 & K6). cbv zeta. cbn [x_pos x_mass x_temp].
  assert (G : 0 <= goal_of goal <= 1) by (unfold goal_of; mm).
  assert (P' : 0 <= pos <= 1). { revert K6. unfold Rmin, Rmax. repeat match goal with |- context [Rle_dec ?a ?b] => destruct (Rle_dec a b) end; lra. }
  destruct (derive_sound g (mkch pos (x_liq x) (x_gas x) (x_mass x) (x_temp x)) S P') as [(Q1 & Q2 & Q3) Q4]. cbn [x_pos x_liq x_gas] in *. rewrite Q4 in Q2.
  split; [exact K1|]. split; [exact K2|]. split; [exact K3|]. split; [exact K4|]. split; [intro Y; apply (K5 Y)|]. split; [exact P'|].
  split; [unfold mass_of; rewrite nmaxR; reflexivity|]. split; [exact Q2|]. intros ->. reflexivity.
Qed.
(** Bellows that stick stay where they are and hold the chamber; bellows that stick at a position go
    there at the rate, and are stuck exactly when they are there.  Either cancels the edits. *)
Theorem C201_stick : forall tiny c f dt r ra bo b, 0 <= tiny -> usable tiny c -> 0 <= dt -> 0 <= x_pos (b_x b) <= 1 -> b_tedit b = false ->
  b_stick b = true \/ b_to b = true ->
  let b' := liquid_step c (acc_geo c) f dt r ra bo Free b in
  b_edit b' = false /\ b_timer b' = 0 /\
  (b_stick b = true -> b_x b' = b_x b /\ b_stuck b' = true) /\
  (b_stick b = false -> (b_stuck b' = true <-> x_pos (b_x b') = goal_of (b_tpos b)) /\
     (Rabs (goal_of (b_tpos b) - x_pos (b_x b)) <= rate_of c (b_trate b) * dt -> b_stuck b' = true) /\
     (rate_of c (b_trate b) * dt < Rabs (goal_of (b_tpos b) - x_pos (b_x b)) ->
        Rabs (goal_of (b_tpos b) - x_pos (b_x b')) = Rabs (goal_of (b_tpos b) - x_pos (b_x b)) - rate_of c (b_trate b) * dt)).
Proof.
  intros tiny c f dt r ra bo b Z U D P TE K b'. pose proof (shape tiny c Z U) as S. destruct U as (_ & _ & _ & _ & _ & U1 & _).
  unfold b', liquid_step. rewrite TE. cbn [b_stick b_to no_edits b_epos b_erate b_tval b_tpos b_trate b_set].
  destruct (b_stick b) eqn:SB.
  - cbn [orb b_edit b_timer b_stuck b_x]. repeat split; discriminate.
  - destruct K as [K|K]; [discriminate|]. rewrite K. cbn [orb].
    pose proof (force_pos c (acc_geo c) f dt r (b_tpos b) (b_trate b) true (b_x b) D ltac:(lra) S P) as Q.
    destruct (force_liq c (acc_geo c) f dt r (b_tpos b) (b_trate b) true (b_x b)) as [[[y g'] r'] done]. cbv zeta in Q. destruct Q as (Q1 & Q2 & Q3 & Q4 & Q5 & _).
    cbn [b_edit b_timer b_stuck b_x]. split; [reflexivity|]. split; [reflexivity|]. split; [discriminate|]. intros _. split; [exact Q3|]. split; [intro Y; apply Q3, Q4, Y|exact Q5].
Qed.
Print Assumptions C201_stick.
(** One step of an edit. *)
Definition editing (b : bellows R) : Prop := b_edit b = true /\ b_stick b = false /\ b_to b = false /\ b_tedit b = false /\ 0 <= x_pos (b_x b) <= 1.
Theorem C201_edit : forall tiny c f dt r ra bo b, 0 <= tiny -> usable tiny c -> 0 <= dt -> editing b ->
  let b' := liquid_step c (acc_geo c) f dt r ra bo Free b in let go := goal_of (b_epos b) in let d := rate_of c (b_erate b) * dt in
  b_stuck b' = false /\ b_epos b' = go /\ b_erate b' = rate_of c (b_erate b) /\
  x_mass (b_x b') = Rmax (x_liq (b_x b') * f_rho f (x_temp (b_x b))) Reps /\
  (ra = false \/ bo = true -> x_temp (b_x b') = x_temp (b_x b)) /\
  (d < Rabs (go - x_pos (b_x b)) -> editing b' /\ b_timer b' = b_timer b /\ Rabs (go - x_pos (b_x b')) = Rabs (go - x_pos (b_x b)) - d) /\
  (Rabs (go - x_pos (b_x b)) <= d -> x_pos (b_x b') = go /\
     (b_timer b < a_hold c -> editing b' /\ b_timer b' = b_timer b + dt) /\ (a_hold c <= b_timer b -> b_edit b' = false /\ b_timer b' = b_timer b)).
Proof.
  intros tiny c f dt r ra bo b Z U D (E1 & E2 & E3 & E4 & E5) b' go d. pose proof (shape tiny c Z U) as S. destruct U as (_ & _ & _ & _ & _ & U1 & _).
  unfold b', liquid_step. rewrite E1, E2, E3, E4. cbn [b_stick b_to orb b_edit b_epos b_erate b_timer b_tval b_tpos b_trate b_set].
  pose proof (force_pos c (acc_geo c) f dt r (b_epos b) (b_erate b) (ra && negb bo) (b_x b) D ltac:(lra) S E5) as Q.
  destruct (force_liq c (acc_geo c) f dt r (b_epos b) (b_erate b) (ra && negb bo) (b_x b)) as [[[y g'] r'] done]. cbv zeta in Q.
  fold go in Q. fold d in Q. destruct Q as (Q1 & Q2 & Q3 & Q4 & Q5 & Q6 & Q7 & Q8 & Q9).
  unfold timer. destruct done; [|]; [destruct (b_timer b <~ a_hold c) eqn:TM; [apply ltT in TM|apply ltF in TM]|];
  cbn [b_stuck b_epos b_erate b_x b_edit b_timer b_stick b_to b_tedit]; (split; [reflexivity|]); (split; [exact Q1|]); (split; [exact Q2|]); (split; [exact Q7|]);
  (split; [intro Y; apply Q9; destruct Y as [->|Y]; [reflexivity|rewrite Y; apply andb_false_r]|]).
  1,2: assert (QP : x_pos y = go) by (apply Q3; reflexivity); split; [intro Y; specialize (Q5 Y); rewrite QP in Q5; replace (go - go) with 0 in Q5 by lra; rewrite Rabs_R0 in Q5; lra|].
  - intros _. split; [exact QP|]. split; [intros _|lra]. split; [unfold editing; cbn; repeat split; try reflexivity; apply Q6|rnum; reflexivity].
  - intros _. split; [exact QP|]. split; [lra|intros _]. split; reflexivity.
  - split.
    + intro Y. split; [unfold editing; cbn; repeat split; try reflexivity; apply Q6|]. split; [reflexivity|apply Q5; exact Y].
    + intro Y. exfalso. specialize (Q4 Y). apply Q3 in Q4. discriminate.
Qed.
Print Assumptions C201_edit.
Lemma goal_idem p : goal_of (goal_of p) = goal_of p.
Proof. unfold goal_of. mm. Qed.
Lemma rate_idem c r : 0 <= a_maxrate c -> rate_of c (rate_of c r) = rate_of c r.
Proof. intro H. unfold rate_of. rewrite (Rmin_left (Rmax 0 _) (a_maxrate c)); [apply Rmax_right, Rmax_l|]. apply Rmax_lub; [exact H|apply Rmin_r]. Qed.
(** An edit ends: the position is reached in the time the rate takes, it is held for the hold time,
    and in the step that clears the edit the bellows are at the position. *)
Theorem C201_ends : forall tiny c f dt ra (rs : nat -> around R) n k b, 0 <= tiny -> usable tiny c -> 0 < dt -> editing b ->
  Rabs (goal_of (b_epos b) - x_pos (b_x b)) <= INR (S n) * (rate_of c (b_erate b) * dt) -> a_hold c <= b_timer b + INR k * dt ->
  let run := fix run j := match j with O => b | S i => liquid_step c (acc_geo c) f dt (rs i) ra false Free (run i) end in
  exists j, (j <= n + k)%nat /\ (forall i, (i <= j)%nat -> b_edit (run i) = true) /\ b_edit (run (S j)) = false /\ x_pos (b_x (run (S j))) = goal_of (b_epos b).
Proof.
  intros tiny c f dt ra rs n k b Z U D. revert rs n k b.
  assert (SH : forall (rs : nat -> around R) b j,
    (fix run j := match j with O => b | S i => liquid_step c (acc_geo c) f dt (rs i) ra false Free (run i) end) (S j) =
    (fix run j := match j with O => liquid_step c (acc_geo c) f dt (rs O) ra false Free b | S i => liquid_step c (acc_geo c) f dt (rs (S i)) ra false Free (run i) end) j).
  { intros rs b j. induction j as [|j IH]; [reflexivity|]. change ((fix run j := match j with O => b | S i => liquid_step c (acc_geo c) f dt (rs i) ra false Free (run i) end) (S (S j)))
      with (liquid_step c (acc_geo c) f dt (rs (S j)) ra false Free ((fix run j := match j with O => b | S i => liquid_step c (acc_geo c) f dt (rs i) ra false Free (run i) end) (S j))). rewrite IH. reflexivity. }
  assert (MR : 0 <= a_maxrate c) by (destruct U as (_ & _ & _ & _ & _ & U1 & _); lra).
  intros rs n k. remember (n + k)%nat as w eqn:W. revert rs n k W. induction w as [|w IH]; intros rs n k W b E A H; cbv zeta;
    pose proof (C201_edit tiny c f dt (rs O) ra false b Z U ltac:(lra) E) as Q; cbv zeta in Q; destruct Q as (_ & Q2 & Q3 & _ & _ & Q6 & Q7);
    set (b1 := liquid_step c (acc_geo c) f dt (rs O) ra false Free b) in *.
  - assert (n = O /\ k = O) as [-> ->] by lia. cbn [INR] in *. rewrite Rmult_1_l in A. destruct (Q7 A) as (P & _ & Q8). destruct Q8 as (F & _); [lra|].
    exists O. split; [lia|]. split; [intros i I; replace i with O by lia; apply E|]. split; [exact F|exact P].
  - assert (NX : editing b1 -> goal_of (b_epos b1) = goal_of (b_epos b) -> forall n' k', w = (n' + k')%nat ->
      Rabs (goal_of (b_epos b1) - x_pos (b_x b1)) <= INR (S n') * (rate_of c (b_erate b1) * dt) -> a_hold c <= b_timer b1 + INR k' * dt ->
      exists j, (j <= S w)%nat /\ (forall i, (i <= j)%nat -> b_edit ((fix run j := match j with O => b | S i => liquid_step c (acc_geo c) f dt (rs i) ra false Free (run i) end) i) = true) /\
       b_edit ((fix run j := match j with O => b | S i => liquid_step c (acc_geo c) f dt (rs i) ra false Free (run i) end) (S j)) = false /\
       x_pos (b_x ((fix run j := match j with O => b | S i => liquid_step c (acc_geo c) f dt (rs i) ra false Free (run i) end) (S j))) = goal_of (b_epos b)).
    { intros E' G n' k' W' A' H'. destruct (IH (fun i => rs (S i)) n' k' W' b1 E' A' H') as (j & J1 & J2 & J3 & J4). cbv zeta in *.
      exists (S j). split; [lia|]. split; [|split].
      - intros i I. destruct i as [|i]; [apply E|]. rewrite SH. apply J2. lia.
      - rewrite SH. exact J3.
      - rewrite SH. etransitivity; [exact J4|exact G]. }
    assert (G : goal_of (b_epos b1) = goal_of (b_epos b)) by (rewrite Q2; apply goal_idem).
    assert (RT : rate_of c (b_erate b1) = rate_of c (b_erate b)) by (rewrite Q3; apply rate_idem; exact MR).
    set (d := rate_of c (b_erate b) * dt) in *.
    destruct (Rlt_dec d (Rabs (goal_of (b_epos b) - x_pos (b_x b)))) as [Y|Y].
    + destruct (Q6 Y) as (E' & T' & A'). destruct n as [|n]; [cbn [INR] in A; lra|].
      apply (NX E' G n k); [lia| |rewrite T'; exact H]. rewrite G, RT. fold d. rewrite A'. rewrite (S_INR (S n)) in A. lra.
    + destruct (Q7 ltac:(lra)) as (P & K1 & K2). destruct (Rlt_dec (b_timer b) (a_hold c)) as [TT|TT].
      * destruct (K1 TT) as (E' & T'). destruct k as [|k]; [cbn [INR] in H; lra|].
        assert (D0 : 0 <= d) by (unfold d; apply Rmult_le_pos; [unfold rate_of; apply Rmax_l|lra]).
        destruct n as [|n].
        -- apply (NX E' G O k); [lia| |rewrite T', S_INR in *; lra]. rewrite G, RT, P. fold d. replace (goal_of (b_epos b) - goal_of (b_epos b)) with 0 by lra. rewrite Rabs_R0. cbn [INR]. lra.
        -- apply (NX E' G (S n) k); [lia| |rewrite T', S_INR in *; lra]. rewrite G, RT, P. fold d. replace (goal_of (b_epos b) - goal_of (b_epos b)) with 0 by lra. rewrite Rabs_R0. apply Rmult_le_pos; [apply pos_INR|exact D0].
      * destruct (K2 ltac:(lra)) as (F & _). exists O. split; [lia|]. split; [intros i I; replace i with O by lia; apply E|]. split; [exact F|exact P].
Qed.
Print Assumptions C201_ends.
Definition ex_b : bellows R := mkbel (ex_x (1/2)) false true (6/10) 5 0 false 0 false false 0 0 false.
Example C201_ends_used : editing ex_b /\ Rabs (goal_of (b_epos ex_b) - x_pos (b_x ex_b)) <= INR 2 * (rate_of ex_c (b_erate ex_b) * (1/10)).
Proof.
  split; [unfold editing, ex_b; cbn; repeat split; lra|]. unfold goal_of, rate_of, ex_b, ex_c. cbn [b_epos b_erate b_x x_pos ex_x a_maxrate].
  rewrite (Rmin_left (6/10)), (Rmax_right 0 (6/10)), (Rmin_right 5), (Rmax_right 0 (1/2)) by lra. rewrite Rabs_right by lra. cbn [INR]. lra.
Qed.
Lemma edit_flags c g f dt r ra bo b : editing b -> let b' := liquid_step c g f dt r ra bo Free b in b_stick b' = false /\ b_to b' = false /\ b_tedit b' = false.
Proof.
  intros (X1 & X2 & X3 & X4 & X5) b'. unfold b', liquid_step. rewrite X1, X2, X3, X4. cbn [b_stick b_to orb b_edit b_epos b_erate b_timer b_tval b_tpos b_trate b_set].
  destruct (force_liq c g f dt r (b_epos b) (b_erate b) (ra && negb bo) (b_x b)) as [[[y g'] r'] done].
  destruct (if done then _ else _) as [t out]. repeat split; reflexivity.
Qed.
(** False: every edit is held for the hold time.  The timer is only reset by a step without an edit:
    an edit asked for right after another ends in the step that reaches its position. *)
Definition ask (p : R) (b : bellows R) : bellows R :=
  mkbel (b_x b) (b_stuck b) true p (b_erate b) (b_timer b) (b_tedit b) (b_tval b) (b_stick b) (b_to b) (b_tpos b) (b_trate b) (b_set b).
Lemma hold_gen c f r b0 : usable 0 c -> a_hold c = 1 -> a_maxrate c = 1/2 -> editing b0 -> b_epos b0 = 1/2 -> b_erate b0 = 1/2 -> x_pos (b_x b0) = 1/2 -> b_timer b0 = 0 ->
  forall st, st = liquid_step c (acc_geo c) f (1/2) r true false Free ->
  b_edit (st b0) = true /\ b_edit (st (st b0)) = true /\ b_edit (st (st (st b0))) = false /\ x_pos (b_x (st (st (st b0)))) <> 6/10 /\
  b_edit (st (ask (6/10) (st (st (st b0))))) = false /\ x_pos (b_x (st (ask (6/10) (st (st (st b0)))))) = 6/10.
Proof.
  intros U HH HM E0 I1 I2 I3 I4 st EST.
  assert (GH : goal_of (1/2) = 1/2) by (unfold goal_of; rewrite Rmin_left, Rmax_right; lra).
  assert (RH : rate_of c (1/2) = 1/2) by (unfold rate_of; rewrite HM; rewrite Rmin_left, Rmax_right; lra).
  assert (CE := fun b => C201_edit 0 c f (1/2) r true false b (Rle_refl 0) U ltac:(lra)). cbv zeta in CE. rewrite <- EST in CE.
  assert (CF := fun b => edit_flags c (acc_geo c) f (1/2) r true false b). cbv zeta in CF. rewrite <- EST in CF. clear EST.
  assert (SP : forall b, editing b -> b_epos b = 1/2 -> b_erate b = 1/2 -> x_pos (b_x b) = 1/2 ->
    b_epos (st b) = 1/2 /\ b_erate (st b) = 1/2 /\ x_pos (b_x (st b)) = 1/2 /\ (b_timer b < 1 -> editing (st b) /\ b_timer (st b) = b_timer b + 1/2) /\ (1 <= b_timer b -> b_edit (st b) = false /\ b_timer (st b) = b_timer b)).
  { intros b E A1 A2 A3. destruct (CE b E) as (_ & Q2 & Q3 & _ & _ & _ & Q7).
    rewrite A1, GH in Q2, Q7. rewrite A2, RH in Q3, Q7. rewrite A3, HH in Q7. destruct Q7 as (Q8 & Q9 & Q10); [replace (1/2 - 1/2) with 0 by lra; rewrite Rabs_R0; lra|].
    split; [exact Q2|]. split; [exact Q3|]. split; [exact Q8|]. split; [exact Q9|exact Q10]. }
  destruct (SP b0 E0 I1 I2 I3) as (A1 & A2 & A3 & A4 & _). destruct A4 as (E1 & T1); [lra|].
  destruct (SP (st b0) E1 A1 A2 A3) as (B1 & B2 & B3 & B4 & _). destruct B4 as (E2 & T2); [lra|].
  destruct (SP (st (st b0)) E2 B1 B2 B3) as (C1 & C2 & C3 & _ & C4). destruct C4 as (E3 & T3); [lra|].
  split; [apply E1|]. split; [apply E2|]. split; [exact E3|]. split; [rewrite C3; lra|].
  destruct (CF _ E2) as (K1 & K2 & K3). set (b3 := st (st (st b0))) in *. clearbody b3.
  assert (EA : editing (ask (6/10) b3)). { unfold editing, ask. cbn [b_edit b_stick b_to b_tedit b_x]. rewrite C3. repeat split; try assumption; lra. }
  destruct (CE (ask (6/10) b3) EA) as (_ & _ & _ & _ & _ & _ & Q7).
  change (b_epos (ask (6/10) b3)) with (6/10) in Q7. change (b_erate (ask (6/10) b3)) with (b_erate b3) in Q7. change (b_x (ask (6/10) b3)) with (b_x b3) in Q7. change (b_timer (ask (6/10) b3)) with (b_timer b3) in Q7.
  assert (GS : goal_of (6/10) = 6/10) by (unfold goal_of; rewrite Rmin_left, Rmax_right; lra). rewrite GS, C2, RH, C3 in Q7.
  destruct Q7 as (Q8 & _ & Q9); [rewrite Rabs_right; lra|]. destruct Q9 as (Q10 & _); [rewrite HH; lra|]. split; [exact Q10|exact Q8].
Qed.
Theorem C201_hold_refuted : exists c f dt r b p, usable 0 c /\ editing b /\ b_timer b = 0 /\ 0 < dt < a_hold c /\
  let st := liquid_step c (acc_geo c) f dt r true false Free in
  b_edit (st b) = true /\ b_edit (st (st b)) = true /\ b_edit (st (st (st b))) = false /\ x_pos (b_x (st (st (st b)))) <> p /\
  b_edit (st (ask p (st (st (st b))))) = false /\ x_pos (b_x (st (ask p (st (st (st b)))))) = p.
Proof.
  exists ex_c, ex_f, (1/2), (mkar 0 1200 0 false false), (mkbel (ex_x (1/2)) false true (1/2) (1/2) 0 false 0 false false 0 0 false), (6/10).
  split; [exact ex_usable|]. assert (E0 : editing (mkbel (ex_x (1/2)) false true (1/2) (1/2) 0 false 0 false false 0 0 false)) by (unfold editing; cbn; repeat split; lra).
  split; [exact E0|]. split; [reflexivity|]. split; [cbn; lra|]. cbv zeta.
  apply (hold_gen ex_c ex_f (mkar 0 1200 0 false false)); try reflexivity; [exact ex_usable|exact E0].
Qed.
Print Assumptions C201_hold_refuted.
