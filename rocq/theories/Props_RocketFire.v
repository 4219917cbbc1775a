(** C222: combustion, thrust and conductance of a rocket engine. *)
From Coq Require Import Floats.
From Coq Require Import Reals Lra Lia List Arith Bool ZArith.
From Verif Require Import Num Ord MathUtil Props_Math FluidFlow Props_FluidFlow Spec_Valve Props_Valve Props_Detector FluidFan Props_FluidFan Props_PwmMotor Rocket Props_Rocket.
Import ListNotations.
Local Open Scope R_scope.

Theorem C222_accepts : forall k : rkc R, rk_valid k = true <->
  neps <= k_throat k /\ 1 <= k_ratio k /\ neps <= k_cstar k /\ neps <= k_temp k /\ 1 + neps <= k_gamma k /\ 0 <= k_thrust k /\ 0 <= k_rtf k <= 1.
Proof.
  intro k. unfold rk_valid. rewrite negb_true_iff, !orb_false_iff, negb_false_iff, in_range_iff, !ltN. cbn [n0 n1 nadd RNum]. tauto.
Qed.
Print Assumptions C222_accepts.

(** ** When it burns *)
Section BURN.
Context {T : Type} {N : Num T}.
Definition rstep := (T * bool * gas T * option (gas T))%type.
Definition ignites (u : rstep) : bool := snd (fst (fst u)).
(** There is flow, and the combustion model finds more than the inlet's temperature. *)
Definition fed (u : rstep) : Prop :=
  let '(flow, _, inlet, model) := u in
  (feps <~ flow) = true /\ forall m, model = Some m -> (x_t m <=~ x_t inlet) = false.
Lemma step_comb (k : rkc T) flow ign inlet model (s : rks T) :
  s_comb (rk_combust k flow ign inlet model s) = true <-> fed (flow, ign, inlet, model) /\ (k_needs k = true -> s_comb s = true \/ ign = true).
Proof.
  unfold rk_combust, rk_burning, fed. destruct (k_needs k), (feps <~ flow); destruct (s_comb s), ign; cbn [orb]; destruct model as [m|];
  try destruct (x_t m <=~ x_t inlet) eqn:E; cbn [s_comb]; split; intros H; try discriminate; try reflexivity;
  try (split; [split; [reflexivity|intros m' H'; try discriminate H'; injection H' as <-; exact E]|intro; auto]; fail);
  try (destruct H as [[H1 H2] H3]; try discriminate H1; try (specialize (H2 _ eq_refl); congruence); try (destruct (H3 eq_refl); discriminate); reflexivity).
Qed.
(** An engine that needs no ignition burns when it is fed; one that needs it burns when it has been fed ever
    since an ignition, or since a start in combustion. *)
Theorem C222_burns : forall (k : rkc T) us s, k_needs k = true ->
  s_comb (rk_run k us s) = true <->
  exists old new, us = old ++ new /\ Forall fed new /\ (existsb ignites new = true \/ (old = [] /\ s_comb s = true)).
Proof.
  intros k us s K. induction us as [|u us IH] using rev_ind.
  - split.
    + intro H. exists [], []. repeat split; auto.
    + intros (old & new & E & F & D). symmetry in E. apply app_eq_nil in E. destruct E as [-> ->]. destruct D as [D|[_ D]]; [discriminate D|exact D].
  - unfold rk_run in *. rewrite fold_left_app. cbn [fold_left]. destruct u as [[[flow ign] inlet] model]. rewrite step_comb, K. split.
    + intros [F D]. destruct (D eq_refl) as [D1| ->].
      * apply IH in D1. destruct D1 as (old & new & -> & G & X). exists old, (new ++ [(flow, ign, inlet, model)]). rewrite app_assoc. split; [reflexivity|].
        split; [apply Forall_app; auto|]. destruct X as [X|X]; [left; rewrite existsb_app; apply orb_true_iff; left; exact X|right; exact X].
      * exists us, [(flow, true, inlet, model)]. repeat split; auto.
    + intros (old & new & E & F & D). destruct new as [|n new _] using rev_ind.
      * rewrite app_nil_r in E. destruct D as [D|[-> _]]; [discriminate D|]. destruct us; discriminate E.
      * rewrite app_assoc in E. apply app_inj_tail in E. destruct E as [-> <-]. apply Forall_app in F. destruct F as [F G]. inversion_clear G. split; [assumption|]. intros _.
        destruct D as [D|[-> D]].
        -- rewrite existsb_app, orb_true_iff in D. destruct D as [D|D]; [left; apply IH; exists old, new; auto|right]. cbn in D. now rewrite orb_false_r in D.
        -- left. apply IH. exists [], new. auto.
Qed.
Theorem C222_hypergolic : forall (k : rkc T) us flow ign inlet model s, k_needs k = false ->
  s_comb (rk_run k (us ++ [(flow, ign, inlet, model)]) s) = true <-> fed (flow, ign, inlet, model).
Proof.
  intros k us flow ign inlet model s K. unfold rk_run. rewrite fold_left_app. cbn [fold_left]. rewrite step_comb, K. split; [tauto|]. intro H. split; [exact H|discriminate].
Qed.
(** The count is that of the frames since it last did not burn: it is 1 in the first frame of each burn. *)
Fixpoint burn_length (rs : list bool) : Z := match rs with true :: r => (burn_length r + 1)%Z | _ => 0%Z end.
Fixpoint burn_record (k : rkc T) (us : list rstep) (s : rks T) (past : list bool) : list bool :=
  match us with
  | [] => past
  | (flow, ign, inlet, model) :: us => let s' := rk_combust k flow ign inlet model s in burn_record k us s' (s_comb s' :: past)
  end.
Lemma count_step (k : rkc T) flow ign inlet model (s : rks T) :
  let s' := rk_combust k flow ign inlet model s in s_count s' = if s_comb s' then (s_count s + 1)%Z else 0%Z.
Proof. unfold rk_combust. destruct model as [m|]; [destruct (rk_burning _ _ _ _); [destruct (x_t m <=~ x_t inlet)|]|]; reflexivity. Qed.
Theorem C222_count : forall (pw : T -> T -> T) (k : rkc T) comb us,
  s_count (rk_run k us (rk_init pw k comb)) = burn_length (burn_record k us (rk_init pw k comb) []).
Proof.
  intros pw k comb us. assert (X : forall us s past, s_count s = burn_length past -> s_count (rk_run k us s) = burn_length (burn_record k us s past)).
  { clear us. induction us as [|u us IH]; intros s past H; [exact H|]. destruct u as [[[flow ign] inlet] model]. cbn [burn_record]. unfold rk_run. cbn [fold_left]. apply IH.
    rewrite count_step. cbn [burn_length]. destruct (s_comb _); [now rewrite H|reflexivity]. }
  now apply X.
Qed.
(** The combustion gas is the model's, when it gave one while burning; else it stays. *)
Theorem C222_gas : forall (k : rkc T) flow ign inlet model (s : rks T),
  let s' := rk_combust k flow ign inlet model s in
  (s_comb s' = true -> forall m, model = Some m -> s_gas s' = m) /\ (s_comb s' = false \/ model = None -> s_gas s' = s_gas s).
Proof.
  intros k flow ign inlet model s. cbv zeta. unfold rk_combust. destruct (rk_burning _ _ _ _); destruct model as [m|]; try destruct (x_t m <=~ x_t inlet); cbn [s_comb s_gas];
  (split; [intros H m' M|intros [H|H]]); try discriminate; try reflexivity; congruence.
Qed.
End BURN.
Print Assumptions C222_burns.
Print Assumptions C222_hypergolic.
Print Assumptions C222_count.
Print Assumptions C222_gas.
Example C222_burns_ex : let k := (mkrk 1 2 1000 3000 2 1 1 true)%float in let g := (mkgas 300 20 1.4)%float in
  let u i := (1%float, i, g, @None (gas float)) in
  s_comb (rk_run k [u false; u true; u false] (rk_init (fun x _ => x) k false)) = true /\
  s_count (rk_run k [u false; u true; u false] (rk_init (fun x _ => x) k false)) = 2%Z /\
  s_comb (rk_run k [u true; (0%float, true, g, None); u false] (rk_init (fun x _ => x) k false)) = false.
Proof. vm_compute. auto. Qed.

(** ** The chamber, the thrust, and the flow *)
Theorem C222_chamber : forall (inlet : gas R) s, let c := rk_chamber inlet s in let x := if s_comb s then s_gas s else inlet in
  x_t c = Rmax (x_t x) 1 /\ x_mw c = Rmax (x_mw x) 2 /\ x_g c = Rmax (x_g x) (1 + feps) /\ 1 < x_g c.
Proof.
  intros inlet s. cbv zeta. unfold rk_chamber. rewrite !fan_max, r2_R. cbn [x_t x_mw x_g nadd n1 RNum]. pose proof feps_pos. repeat split. eapply Rlt_le_trans; [|apply Rmax_r]. lra.
Qed.
Print Assumptions C222_chamber.
(** The thrust is the tuned flow of momentum, and there is none without combustion; its power is half of
    thrust times velocity. *)
Theorem C222_thrust : forall (k : rkc R) comb pc m c recomb flow,
  let z := nozzleR k comb pc m c recomb in
  rk_thrust k flow (z_isp z) = (if comb then k_thrust k * (flow * z_ue z) else 0) /\
  rk_power (rk_thrust k flow (z_isp z)) (z_ue z) = if comb then k_thrust k * (flow * (z_ue z) ^ 2 / 2) else 0.
Proof.
  intros k comb pc m c recomb flow. cbv zeta.
  assert (I : z_isp (nozzleR k comb pc m c recomb) = if comb then z_ue (nozzleR k comb pc m c recomb) / gravity else 0).
  { unfold rk_nozzle. destruct recomb as [[dh r]|]; [destruct (comb && _ && _)|]; destruct comb; reflexivity. }
  rewrite I. unfold rk_thrust, rk_power. rewrite halfR, gravity_R. cbn [nmul RNum]. destruct comb; split; field.
Qed.
Print Assumptions C222_thrust.
(** The reported characteristic velocity is the configured one when the flow is the one it was configured
    for. *)
Theorem C222_cstar : forall (k : rkc R) v0 flow, 0 < k_cstar k -> 0 < k_throat k ->
  flow = 1000 * v0 * k_throat k / k_cstar k -> 
  (feps < flow -> rk_cstar k v0 flow = k_cstar k) /\ (flow <= feps -> rk_cstar k v0 flow = 0).
Proof.
  intros k v0 flow C1 C2 E. unfold rk_cstar. rewrite kpaR. pose proof feps_pos. split; intro H0.
  - assert (X : (feps <~ flow) = true) by (now apply ltI). rewrite X. cbn [nmul ndiv RNum].
    assert (v0 <> 0). { intros ->. assert (flow = 0) by (rewrite E; field; lra). lra. } rewrite E. field. repeat split; lra.
  - assert (X : (feps <~ flow) = false) by (now apply ltN). now rewrite X.
Qed.
Print Assumptions C222_cstar.
(** The conductance: within its limits; none backwards; outside the first frame of a burn, and within the
    limits, the linearized mass flow is the nozzle's. *)
Theorem C222_conductance : forall (k : rkc R) count mdot mw minp limit p0 p1 v0 v1, 0 < minp -> 0 <= limit ->
  let g := rk_conductance k count mdot mw minp limit p0 p1 v0 v1 in
  let g' := (if (count =? 1)%Z then 1000 * k_throat k / k_cstar k else mdot / (Rmax p0 (p1 + minp) - p1)) / mw in
  0 <= g <= limit /\ (mw <= neps \/ v0 <= v1 - feps -> g = 0) /\
  (neps < mw -> v1 - feps < v0 ->
    g = within 0 g' limit /\
    (count <> 1%Z -> 0 <= g' <= limit -> p1 + minp <= p0 -> g * mw * (p0 - p1) = mdot)).
Proof.
  intros k count mdot mw minp limit p0 p1 v0 v1 M L. cbv zeta. pose proof neps_pos as NP.
  assert (B : forall x, 0 <= within 0 x limit <= limit). { intro x. unfold within. split; [apply Rmax_l|]. apply Rmax_lub; [exact L|apply Rmin_r]. }
  unfold rk_conductance. rewrite fan_max, within_limit. unfold rk_default. rewrite kpaR. cbn [nadd nsub nmul ndiv n0 RNum].
  split; [|split].
  - destruct (_ && _); [apply B|lra].
  - intros [H|H].
    + assert (X : (neps <~ mw) = false) by (now apply ltN). now rewrite X.
    + assert (X : (v1 - feps <~ v0) = false) by (now apply ltN). rewrite X, andb_false_r. reflexivity.
  - intros H1 H2. assert (X : (neps <~ mw) = true) by (now apply ltI). assert (Y : (v1 - feps <~ v0) = true) by (now apply ltI). rewrite X, Y. cbn [andb].
    split; [reflexivity|]. intros K R1 R2. apply Z.eqb_neq in K. rewrite K in *. rewrite Rmax_left in * by exact R2.
    set (q := mdot / (p0 - p1) / mw) in *. unfold within. rewrite Rmin_left, Rmax_right by lra. unfold q. set (eps := neps : R) in *. clearbody eps. field. split; lra.
Qed.
Print Assumptions C222_conductance.
Example C222_conductance_ex : exists (k : rkc R) mdot mw minp limit p0 p1,
  0 < minp /\ 0 <= limit /\ neps < mw /\ p1 - feps < p0 /\ 0 <= mdot / (Rmax p0 (p1 + minp) - p1) / mw <= limit /\ p1 + minp <= p0.
Proof.
  exists (mkrk 1 2 1000 3000 2 1 1 true), 1, 20, 1, 1000, 100, 0. pose proof feps_pos. assert (Q : neps < 20). { change (neps : R) with Reps. pose proof Reps_small. lra. }
  rewrite Rmax_left by lra. repeat split; try lra.
Qed.
