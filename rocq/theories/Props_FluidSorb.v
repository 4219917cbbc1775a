(** C177-C179: adsorbers of one gas and of trace compounds, and adsorbers whose efficiency follows
    the temperature. *)
From Coq Require Import Floats.
From Coq Require Import Reals Lra Lia List Arith Bool ZArith.
From Verif Require Import Num Ord MathUtil Props_Math Spec_Valve Props_Valve Props_Thermal FluidFlow Props_FluidFlow FluidTrace Props_FluidTrace FluidSorb.
Import ListNotations.
Local Open Scope R_scope.

Ltac mm := unfold Rmax, Rmin;
  repeat match goal with
         | |- context [Rle_dec ?a ?b] => destruct (Rle_dec a b)
         | H : context [Rle_dec ?a ?b] |- _ => destruct (Rle_dec a b)
         end; try lra.
Lemma sorb_limitR : (sorb_limit : R) = 100 * Reps.
Proof. unfold sorb_limit. rnum. unfold Rdec. cbn. lra. Qed.

(** ** C177: the bed of one gas *)
(** What the bed takes and what it gives back in a step. *)
Definition taken (eff max_rate cap dt flow x held : R) : R :=
  Rmax 0 (Rmin (x * Rabs flow * dt * eff) (Rmin (max_rate * dt) (cap - held))).
Definition given (eff drate dt held : R) : R := Rmax 0 (Rmin held (- eff * drate * dt)).
Lemma adsorb_eq (c : @ads_cfg R) dt flow x eff held :
  adsorb_mass c dt (nabs flow) x eff held = taken eff (a_max_rate c) (a_max c) dt flow x held.
Proof. unfold adsorb_mass, taken. rewrite nmaxR, !nminR. rnum. apply Rmax_comm. Qed.
Lemma desorb_eq (c : @ads_cfg R) dt eff held : desorb_mass c dt eff held = - given eff (a_drate c) dt held.
Proof. unfold desorb_mass, given. rewrite nmaxR, !nminR. rnum. rewrite Rmax_comm. reflexivity. Qed.
(** A step whose bed gains [m] (loses it, if negative). *)
Definition gains (m dt flow w : R) (s s' : @ads R) (io : option (bool * R)) : Prop :=
  a_ads s' = a_ads s + m /\ a_rate s' = - m / dt /\
  (100 * Reps < Rabs (m / dt) ->
     (0 <= flow -> io = Some (true, - m / dt) /\ a_src s' = (0, - m / dt / w)) /\
     (flow < 0 -> io = Some (false, - m / dt) /\ a_src s' = (- m / dt / w, 0))) /\
  (Rabs (m / dt) <= 100 * Reps -> io = None /\ a_src s' = a_src s).
Lemma run_gains (c : @ads_cfg R) (cyc : bool) (eff dt flow x w : R) (s : @ads R) : Reps < dt ->
  gains (if cyc then - given eff (a_drate c) dt (a_ads s) else taken eff (a_max_rate c) (a_max c) dt flow x (a_ads s))
    dt flow w s (fst (ads_run c cyc eff dt flow x w s)) (snd (ads_run c cyc eff dt flow x w s)).
Proof.
  intro D. unfold ads_run. change (neps <~ dt) with (Rltb Reps dt). rewrite (Rltb_true _ _ D).
  rewrite adsorb_eq, desorb_eq.
  set (m := if cyc then - given eff (a_drate c) dt (a_ads s) else taken eff (a_max_rate c) (a_max c) dt flow x (a_ads s)). clearbody m.
  change (nopp m /~ dt) with (- m / dt). rewrite sorb_limitR. change (nabs (- m / dt)) with (Rabs (- m / dt)).
  assert (A : Rabs (- m / dt) = Rabs (m / dt)).
  { replace (- m / dt) with (- (m / dt)) by (unfold Rdiv; ring). apply Rabs_Ropp. }
  rewrite A. change (100 * Reps <~ Rabs (m / dt)) with (Rltb (100 * Reps) (Rabs (m / dt))).
  change (n0 <=~ flow) with (Rleb 0 flow). unfold gains.
  destruct (Rltb_spec (100 * Reps) (Rabs (m / dt))) as [Q|Q].
  - cbn [fst snd a_ads a_rate a_src]. split; [reflexivity|]. split; [reflexivity|]. split; [|intro; lra].
    intros _. split; intro F.
    + destruct (Rleb_spec 0 flow); [split; reflexivity|lra].
    + destruct (Rleb_spec 0 flow); [lra|split; reflexivity].
  - cbn [fst snd a_ads a_rate a_src]. split; [reflexivity|]. split; [reflexivity|]. split; [intro; lra|].
    intros _. split; reflexivity.
Qed.
(** What the bed gains leaves the node downstream, in mass and in moles; it is limited by what flows
    past, by the rate and by the room left. *)
Theorem C177_adsorb : forall (c : @ads_cfg R) dt flow x w s, Reps < dt -> a_cycle c = false ->
  gains (taken (if a_malf c then a_mval c else a_eff c) (a_max_rate c) (a_max c) dt flow x (a_ads s)) dt flow w s
    (fst (ads_update c dt flow x w s)) (snd (ads_update c dt flow x w s)).
Proof.
  intros c dt flow x w s D C. unfold ads_update. rewrite C. unfold ads_efficiency. rewrite C.
  apply (run_gains c false _ dt flow x w s D).
Qed.
Print Assumptions C177_adsorb.
Theorem C177_desorb : forall (c : @ads_cfg R) dt flow x w s, Reps < dt -> a_cycle c = true ->
  gains (- given (if a_malf c then a_mval c else - (1)) (a_drate c) dt (a_ads s)) dt flow w s
    (fst (ads_update c dt flow x w s)) (snd (ads_update c dt flow x w s)).
Proof.
  intros c dt flow x w s D C. unfold ads_update. rewrite C. unfold ads_efficiency. rewrite C.
  apply (run_gains c true _ dt flow x w s D).
Qed.
Print Assumptions C177_desorb.
Theorem C177_idle : forall (c : @ads_cfg R) dt flow x w s, dt <= Reps ->
  ads_update c dt flow x w s = (mkads (a_ads s) 0 0 (a_src s), None).
Proof.
  intros c dt flow x w s D. unfold ads_update, ads_run. change (neps <~ dt) with (Rltb Reps dt).
  rewrite (Rltb_false _ _ D). reflexivity.
Qed.
Print Assumptions C177_idle.
Theorem C177_limits : forall eff max_rate cap dt flow x held drate, 0 < dt -> 0 <= x -> 0 <= max_rate -> 0 <= drate ->
  (0 <= eff <= 1 -> 0 <= taken eff max_rate cap dt flow x held <= x * Rabs flow * dt) /\
  0 <= taken eff max_rate cap dt flow x held <= max_rate * dt /\
  (held <= cap -> held + taken eff max_rate cap dt flow x held <= cap) /\
  (cap <= held -> taken eff max_rate cap dt flow x held = 0) /\
  (0 <= held -> 0 <= given eff drate dt held <= held) /\
  (-1 <= eff -> given eff drate dt held <= drate * dt) /\
  (0 <= eff -> given eff drate dt held = 0).
Proof.
  intros eff max_rate cap dt flow x held drate D X M DR. unfold taken, given.
  assert (A : 0 <= x * Rabs flow * dt). { pose proof (Rabs_pos flow). apply Rmult_le_pos; [apply Rmult_le_pos; lra|lra]. }
  assert (B : 0 <= max_rate * dt) by (apply Rmult_le_pos; lra).
  assert (C : 0 <= drate * dt) by (apply Rmult_le_pos; lra).
  set (av := x * Rabs flow * dt) in *. clearbody av. set (mr := max_rate * dt) in *. clearbody mr.
  replace (- eff * drate * dt) with (- eff * (drate * dt)) by ring. set (dr := drate * dt) in *. clearbody dr.
  assert (P1 : 0 <= eff <= 1 -> 0 <= av * eff <= av) by (intros [? ?]; split; nra).
  assert (P2 : -1 <= eff -> - eff * dr <= dr) by (intro; nra).
  assert (P3 : 0 <= eff -> - eff * dr <= 0) by (intro; nra).
  set (ae := av * eff) in *. clearbody ae. set (de := - eff * dr) in *. clearbody de.
  split; [|split; [|split; [|split; [|split; [|split]]]]]; intros;
    try (assert (P1' := P1 ltac:(assumption))); try (assert (P2' := P2 ltac:(assumption))); try (assert (P3' := P3 ltac:(assumption)));
    mm.
Qed.
Print Assumptions C177_limits.
(** Whatever happens step after step, the bed holds no less than nothing and no more than it can. *)
Definition ads_steps (cap : R) (l : list (@ads_cfg R * (R * R * R * R))) (s : @ads R) : @ads R :=
  fold_left (fun s p => let '(c, (dt, flow, x, w)) := p in
    fst (ads_update (mkadscfg (a_eff c) (a_max_rate c) cap (a_drate c) (a_cycle c) (a_malf c) (a_mval c)) dt flow x w s)) l s.
Theorem C177_range : forall cap l s, 0 <= a_ads s <= cap -> 0 <= a_ads (ads_steps cap l s) <= cap.
Proof.
  intros cap l. induction l as [|[c [[[dt flow] x] w]] l IH]; intros s H; [exact H|]. cbn [ads_steps fold_left].
  apply IH. set (c' := mkadscfg _ _ _ _ _ _ _).
  destruct (Rlt_dec Reps dt) as [D|D]; [|rewrite C177_idle by lra; exact H].
  destruct (a_cycle c) eqn:Y.
  - destruct (C177_desorb c' dt flow x w s D eq_refl) as (A & _). rewrite A. unfold given. mm.
  - destruct (C177_adsorb c' dt flow x w s D eq_refl) as (A & _). rewrite A. unfold taken. change (a_max c') with cap.
    mm.
Qed.
Print Assumptions C177_range.
Example C177_range_nonvacuous : 0 <= a_ads (mkads (1 / 2) 0 0 (0, 0)) <= 1.
Proof. cbn. lra. Qed.
Example C177_adsorb_nonvacuous : taken (1 / 2) 1 1 1 2 (1 / 4) 0 = 1 / 4 /\ given (- (1)) 1 1 3 = 1.
Proof.
  unfold taken, given. rewrite (Rabs_pos_eq 2) by lra. split; mm.
Qed.
(** The initial mass is not compared with the capacity. *)
Theorem C177_init : forall (c : @ads_cfg R) m,
  ads_valid c m = true <-> 0 <= a_eff c <= 1 /\ 0 <= a_max_rate c /\ 0 <= a_max c /\ 0 <= a_drate c /\ 0 <= m.
Proof.
  intros c m. unfold ads_valid, is_in_range. rnum. rewrite !andb_true_iff, !negb_true_iff.
  split.
  - intros ((((A & B) & C) & D) & E). rcases; repeat split; lra.
  - intros (A & B & C & D & E). rcases; repeat split; try reflexivity; lra.
Qed.
Print Assumptions C177_init.
(** The source vector would be the sorption rate in moles; but once the bed is full the last one
    stays, and the network goes on losing what the bed no longer takes. *)
Theorem C177_source_refuted : exists (c : @ads_cfg R) dt flow x w s,
  ads_valid c (a_ads s) = true /\ a_src s = (0, 0) /\ Reps < dt /\ 0 <= x <= 1 /\ 0 < w /\ a_cycle c = false /\ a_malf c = false /\
  let s1 := fst (ads_update c dt flow x w s) in
  let s2 := fst (ads_update c dt flow x w s1) in
  a_ads s1 = a_max c /\ a_ads s2 = a_max c /\ a_rate s2 = 0 /\
  snd (ads_update c dt flow x w s1) = None /\ snd (a_src s2) = - (1 / 44).
Proof.
  pose proof Reps_small as RS. pose proof Reps_pos as RP.
  set (c := mkadscfg 1 10 1 1 false false 0 : @ads_cfg R). set (s := mkads 0 0 0 (0, 0) : @ads R).
  exists c, 1, 2, 1, 44, s.
  split; [apply C177_init; cbn; lra|]. repeat (split; [first [reflexivity|lra|cbn; lra]|]). cbv zeta.
  assert (T1 : taken 1 10 1 1 2 1 0 = 1).
  { unfold taken. rewrite (Rabs_pos_eq 2) by lra. mm. }
  assert (T2 : taken 1 10 1 1 2 1 1 = 0).
  { unfold taken. rewrite (Rabs_pos_eq 2) by lra. mm. }
  destruct (C177_adsorb c 1 2 1 44 s ltac:(lra) eq_refl) as (A & B & C & _).
  set (s1 := fst (ads_update c 1 2 1 44 s)) in *. clearbody s1.
  change (if a_malf c then a_mval c else a_eff c) with 1 in *. change (a_max_rate c) with 10 in *. change (a_max c) with 1 in *.
  change (a_ads s) with 0 in *. rewrite T1 in A, B, C.
  assert (A1 : a_ads s1 = 1) by lra.
  assert (S1 : a_src s1 = (0, - 1 / 1 / 44)).
  { apply (proj1 (C ltac:(replace (1 / 1) with 1 by lra; rewrite Rabs_R1; lra))). lra. }
  destruct (C177_adsorb c 1 2 1 44 s1 ltac:(lra) eq_refl) as (E & F & _ & G).
  set (o := ads_update c 1 2 1 44 s1) in *. clearbody o.
  change (if a_malf c then a_mval c else a_eff c) with 1 in *. change (a_max_rate c) with 10 in *. change (a_max c) with 1 in *.
  rewrite A1, T2 in *.
  destruct (G ltac:(replace (0 / 1) with 0 by lra; rewrite Rabs_R0; lra)) as [G1 G2].
  split; [reflexivity|]. split; [lra|]. split; [rewrite F; lra|]. split; [exact G1|]. rewrite G2, S1. cbn [snd]. lra.
Qed.
Print Assumptions C177_source_refuted.
(** A lowered efficiency would slow desorption down; it stops it. *)
Theorem C177_malf_refuted : exists (c : @ads_cfg R) dt flow x w s,
  ads_valid c (a_ads s) = true /\ Reps < dt /\ a_cycle c = true /\ a_malf c = true /\ a_mval c = 1 / 2 /\
  given (- (1)) (a_drate c) dt (a_ads s) = 1 /\ a_ads (fst (ads_update c dt flow x w s)) = a_ads s.
Proof.
  pose proof Reps_small as RS.
  set (c := mkadscfg 1 10 10 1 true true (1 / 2) : @ads_cfg R). set (s := mkads 5 0 0 (0, 0) : @ads R).
  exists c, 1, 2, 1, 44, s. split; [apply C177_init; cbn; lra|]. repeat (split; [first [reflexivity|lra]|]).
  destruct (C177_desorb c 1 2 1 44 s ltac:(lra) eq_refl) as (A & _). rewrite A.
  change (a_drate c) with 1. change (a_ads s) with 5. change (if a_malf c then a_mval c else - (1)) with (1 / 2).
  unfold given. split; mm.
Qed.
Print Assumptions C177_malf_refuted.
(** And one above 1 takes more than flows past. *)
Theorem C177_available_refuted : exists (c : @ads_cfg R) dt flow x w s,
  ads_valid c (a_ads s) = true /\ Reps < dt /\ 0 <= x <= 1 /\ a_cycle c = false /\ a_malf c = true /\
  x * Rabs flow * dt < a_ads (fst (ads_update c dt flow x w s)) - a_ads s.
Proof.
  pose proof Reps_small as RS.
  set (c := mkadscfg 1 10 10 1 false true 3 : @ads_cfg R). set (s := mkads 0 0 0 (0, 0) : @ads R).
  exists c, 1, 2, 1, 44, s. split; [apply C177_init; cbn; lra|]. repeat (split; [first [reflexivity|lra]|]).
  destruct (C177_adsorb c 1 2 1 44 s ltac:(lra) eq_refl) as (A & _). rewrite A.
  change (a_max_rate c) with 10. change (a_max c) with 10. change (a_ads s) with 0. change (if a_malf c then a_mval c else a_eff c) with 3.
  unfold taken. rewrite (Rabs_pos_eq 2) by lra. mm.
Qed.
Print Assumptions C177_available_refuted.

(** ** C178: trace compounds in an adsorber *)
(** The share of a compound the bed keeps. *)
Definition share (b : @tbed R) : R :=
  if Rlt_dec Reps (t_max b) then t_eff b * Rmax 0 ((t_max b - t_held b) / t_max b) else t_eff b.
Lemma share_eq (b : @tbed R) : tc_efficiency b = share b.
Proof.
  unfold tc_efficiency, share. change (neps <~ t_max b) with (Rltb Reps (t_max b)). rewrite nmaxR.
  destruct (Rltb_spec Reps (t_max b)); destruct (Rlt_dec Reps (t_max b)); try lra; reflexivity.
Qed.
Definition kept_share (b : @tbed R) : R := if Rlt_dec Reps (share b) then share b else 0.
(** The bed gains over a step what the stream carries less of behind it, but for what is too little
    to be carried. *)
Theorem C178_books : forall dt flux bs (cs : list (cell R)) i b c, nth_error bs i = Some b -> nth_error cs i = Some c ->
  0 < flux -> 0 < c_w c ->
  let m := c_x c * flux * c_w c in
  let (bs', cs') := tc_adsorb dt flux bs cs in
  exists b' c', nth_error bs' i = Some b' /\ nth_error cs' i = Some c' /\
    t_held b' = t_held b + m * kept_share b * dt /\ t_eff b' = t_eff b /\ t_max b' = t_max b /\ c_w c' = c_w c /\
    c_m c' = kept flux (c_w c) (m * (1 - kept_share b)) /\ c_m c' = c_x c' * flux * c_w c.
Proof.
  intros dt flux bs cs i b c HB HC F W m. unfold tc_adsorb.
  assert (U : nth_error (update_masses flux cs) i = Some (mkcell (c_w c) m (c_x c))).
  { unfold update_masses. rewrite nth_error_map, HC. reflexivity. }
  pose proof (combine_nth bs (update_masses flux cs) i b _ HB U) as P.
  set (ps := combine bs (update_masses flux cs)) in *. clearbody ps.
  exists (fst (tc_take dt (b, mkcell (c_w c) m (c_x c)))).
  exists (cut_off (refraction flux (snd (tc_take dt (b, mkcell (c_w c) m (c_x c)))))).
  split; [rewrite !nth_error_map, P; reflexivity|].
  split; [rewrite fracs_map, !nth_error_map, P; reflexivity|].
  unfold tc_take. rewrite share_eq. change (neps <~ share b) with (Rltb Reps (share b)). unfold kept_share.
  destruct (Rltb_spec Reps (share b)) as [Q|Q]; destruct (Rlt_dec Reps (share b)) as [Q'|Q']; try lra; cbn [fst snd t_held t_eff t_max c_m c_w].
  - split; [rnum; ring|]. split; [reflexivity|]. split; [reflexivity|].
    set (k := mkcell (c_w c) (m -~ m *~ share b) (c_x c)). destruct (settle_one flux k F W) as (A & B & _ & C & _).
    replace (m * (1 - share b)) with (c_m k) by (unfold k; cbn [c_m]; rnum; ring).
    split; [exact A|]. split; [exact B|]. etransitivity; [exact C|]. rewrite A. reflexivity.
  - split; [rnum; ring|]. split; [reflexivity|]. split; [reflexivity|].
    set (k := mkcell (c_w c) m (c_x c)). destruct (settle_one flux k F W) as (A & B & _ & C & _).
    replace (m * (1 - 0)) with (c_m k) by (unfold k; cbn [c_m]; ring).
    split; [exact A|]. split; [exact B|]. etransitivity; [exact C|]. rewrite A. reflexivity.
Qed.
Print Assumptions C178_books.
Theorem C178_share : forall b : @tbed R, 0 <= t_eff b <= 1 -> 0 <= t_held b ->
  0 <= kept_share b <= 1 /\ (Reps < t_max b -> t_max b <= t_held b -> kept_share b = 0) /\
  (t_held b = 0 -> Reps < t_eff b -> kept_share b = t_eff b).
Proof.
  intros b E H. pose proof Reps_pos as RP.
  assert (Z : Reps < t_max b -> Rmax 0 ((t_max b - t_held b) / t_max b) <= 1).
  { intro M. apply Rmax_lub; [lra|]. apply (Rmult_le_reg_r (t_max b)); [lra|]. unfold Rdiv. rewrite Rmult_assoc, Rinv_l by lra. lra. }
  assert (Y : 0 <= Rmax 0 ((t_max b - t_held b) / t_max b)) by apply Rmax_l.
  unfold kept_share, share. split; [|split].
  - destruct (Rlt_dec Reps (t_max b)) as [M|M].
    + specialize (Z M). set (f := Rmax 0 ((t_max b - t_held b) / t_max b)) in *. clearbody f.
      destruct (Rlt_dec Reps (t_eff b * f)); [split; nra|lra].
    + destruct (Rlt_dec Reps (t_eff b)); lra.
  - intros M F. destruct (Rlt_dec Reps (t_max b)); [|lra].
    assert (Q : (t_max b - t_held b) / t_max b <= 0).
    { apply (Rmult_le_reg_r (t_max b)); [lra|]. unfold Rdiv. rewrite Rmult_assoc, Rinv_l by lra. lra. }
    rewrite Rmax_left by exact Q. rewrite Rmult_0_r. destruct (Rlt_dec Reps 0); lra.
  - intros F G. destruct (Rlt_dec Reps (t_max b)) as [M|M].
    + rewrite F. replace ((t_max b - 0) / t_max b) with 1 by (field; lra). rewrite (Rmax_right 0 1) by lra. rewrite Rmult_1_r.
      destruct (Rlt_dec Reps (t_eff b)); lra.
    + destruct (Rlt_dec Reps (t_eff b)); lra.
Qed.
Print Assumptions C178_share.
Example C178_share_nonvacuous : 0 <= t_eff (mktbed (1 / 2) 1 0) <= 1 /\ kept_share (mktbed (1 / 2) 1 0) = 1 / 2.
Proof.
  pose proof Reps_small as RS. split; [cbn; lra|].
  apply (C178_share (mktbed (1 / 2) 1 0)); cbn; lra.
Qed.
(** In a reverse flow the bed would also gain; it loses, down to less than nothing, and the stream
    keeps all it has. *)
Theorem C178_reverse_refuted : exists dt flux (b : @tbed R) (c : cell R), 0 < dt /\ flux < 0 /\ 0 <= t_eff b <= 1 /\ 0 < c_w c /\ 0 < c_x c /\
  t_held b = 0 /\
  exists b' c', tc_adsorb dt flux [b] [c] = ([b'], [c']) /\ t_held b' = - (1) /\ c_x c' = c_x c.
Proof.
  pose proof Reps_small as RS. pose proof Reps_pos as RP.
  exists 1, (- (1)), (mktbed (1 / 2) 10 0), (mkcell 20 0 (1 / 10)).
  split; [lra|]. split; [lra|]. split; [cbn; lra|]. split; [cbn; lra|]. split; [cbn; lra|]. split; [reflexivity|].
  assert (SH : share (mktbed (1 / 2) 10 0) = 1 / 2).
  { unfold share. cbn [t_max t_eff t_held]. destruct (Rlt_dec Reps 10); [|lra].
    replace ((10 - 0) / 10) with 1 by lra. rewrite Rmax_right by lra. lra. }
  unfold tc_adsorb, update_masses. cbn [map combine fst snd]. unfold tc_take. rewrite share_eq, SH.
  change (neps <~ 1 / 2) with (Rltb Reps (1 / 2)). rewrite (Rltb_true Reps (1 / 2)) by lra. cbn [fst snd].
  unfold update_fracs. cbn [map]. unfold refraction. change (n0 <~ - (1)) with (Rltb 0 (- (1))). rewrite (Rltb_false 0 (- (1))) by lra.
  unfold cut_off. cbn [c_x c_m c_w]. change (1 / 10 <~ neps) with (Rltb (1 / 10) Reps). rewrite (Rltb_false (1 / 10) Reps) by lra.
  eexists. eexists. split; [reflexivity|]. cbn [t_held c_x c_m c_w t_eff t_max]. split; [rnum; lra|reflexivity].
Qed.
Print Assumptions C178_reverse_refuted.
(** Nor is the capacity for a trace compound kept to within a step. *)
Theorem C178_capacity_refuted : exists dt flux (b : @tbed R) (c : cell R), 0 < dt /\ 0 < flux /\ 0 <= t_eff b <= 1 /\ 0 < c_w c /\ 0 < c_x c /\
  t_held b <= t_max b /\
  exists b' c', tc_adsorb dt flux [b] [c] = ([b'], [c']) /\ t_max b' < t_held b'.
Proof.
  pose proof Reps_small as RS. pose proof Reps_pos as RP.
  exists 1, 1, (mktbed 1 1 0), (mkcell 20 0 (1 / 10)).
  split; [lra|]. split; [lra|]. split; [cbn; lra|]. split; [cbn; lra|]. split; [cbn; lra|]. split; [cbn; lra|].
  pose proof (C178_books 1 1 [mktbed 1 1 0] [mkcell 20 0 (1 / 10)] 0 _ _ eq_refl eq_refl ltac:(lra) ltac:(cbn; lra)) as B.
  cbv zeta in B.
  assert (K : kept_share (mktbed 1 1 0) = 1) by (apply (C178_share (mktbed 1 1 0)); cbn; lra).
  unfold tc_adsorb in *. cbn [combine map fst snd update_masses update_fracs nth_error] in *.
  destruct B as (b' & c' & E1 & E2 & H & _ & M & _). injection E1 as E1. injection E2 as E2.
  exists b', c'. split; [rewrite <- E1, <- E2; reflexivity|]. rewrite M, H, K. cbn [t_max t_held c_x c_w]. lra.
Qed.
Print Assumptions C178_capacity_refuted.

(** ** C179: an efficiency that follows the temperature *)
Theorem C179_hot : forall (c : @ads_cfg R) bias k t dt flow x w s, Reps < dt ->
  let e := if a_malf c then a_mval c else within (-1) (bias + k * t) 1 in
  let s' := fst (hot_update c bias k t dt flow x w s) in
  let io := snd (hot_update c bias k t dt flow x w s) in
  (e < 0 -> gains (- given e (a_drate c) dt (a_ads s)) dt flow w s s' io) /\
  (0 <= e -> gains (taken e (a_max_rate c) (a_max c) dt flow x (a_ads s)) dt flow w s s' io).
Proof.
  intros c bias k t dt flow x w s D. cbv zeta. unfold hot_update.
  assert (E : hot_efficiency c bias k t = if a_malf c then a_mval c else within (-1) (bias + k * t) 1).
  { unfold hot_efficiency. destruct (a_malf c); [reflexivity|]. apply (limit_within (-1) (bias + k * t) 1). lra. }
  rewrite E. set (e := if a_malf c then a_mval c else within (-1) (bias + k * t) 1). clearbody e.
  change (e <~ n0) with (Rltb e 0). split; intro H.
  - rewrite (Rltb_true _ _ H). apply (run_gains c true e dt flow x w s D).
  - rewrite (Rltb_false e 0) by lra. apply (run_gains c false e dt flow x w s D).
Qed.
Print Assumptions C179_hot.
(** Hot or cold, the bed stays within its bounds and takes no more than flows past. *)
Theorem C179_bounds : forall (c : @ads_cfg R) bias k t dt flow x w s, Reps < dt -> a_malf c = false ->
  0 <= x -> 0 <= a_max_rate c -> 0 <= a_drate c -> 0 <= a_ads s <= a_max c ->
  let s' := fst (hot_update c bias k t dt flow x w s) in
  0 <= a_ads s' <= a_max c /\ - (a_drate c * dt) <= a_ads s' - a_ads s <= Rmin (a_max_rate c * dt) (x * Rabs flow * dt).
Proof.
  intros c bias k t dt flow x w s D MF X MR DR H. cbv zeta. pose proof Reps_pos as RP.
  destruct (C179_hot c bias k t dt flow x w s D) as [A B]. rewrite MF in A, B.
  set (e := within (-1) (bias + k * t) 1) in *.
  assert (E : -1 <= e <= 1) by (unfold e, within; mm). clearbody e.
  destruct (C177_limits e (a_max_rate c) (a_max c) dt flow x (a_ads s) (a_drate c) ltac:(lra) X MR DR) as (L1 & L2 & L3 & _ & L4 & L5 & _).
  assert (Q : 0 <= a_drate c * dt) by (apply Rmult_le_pos; lra).
  assert (Q1 : 0 <= x * Rabs flow * dt). { pose proof (Rabs_pos flow). apply Rmult_le_pos; [apply Rmult_le_pos; lra|lra]. }
  assert (Q2 : 0 <= a_max_rate c * dt) by (apply Rmult_le_pos; lra).
  destruct (Rlt_dec e 0) as [N|N].
  - destruct (A N) as (G & _). rewrite G. specialize (L4 ltac:(lra)). specialize (L5 ltac:(lra)).
    split; [lra|]. split; [lra|]. apply Rmin_glb; lra.
  - destruct (B ltac:(lra)) as (G & _). rewrite G. specialize (L1 ltac:(lra)). specialize (L3 ltac:(lra)).
    split; [lra|]. split; [lra|]. apply Rmin_glb; lra.
Qed.
Print Assumptions C179_bounds.
Example C179_bounds_nonvacuous : let c := mkadscfg 1 1 2 1 false false 0 : @ads_cfg R in
  a_malf c = false /\ 0 <= a_max_rate c /\ 0 <= a_drate c /\ 0 <= a_ads (mkads 1 0 0 (0, 0)) <= a_max c.
Proof. cbn. repeat split; lra. Qed.
