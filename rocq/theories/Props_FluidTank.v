(** C194, C195: edits of a tank, its shell and its rate of pressure. *)
From Coq Require Import Floats.
From Coq Require Import Reals Lra Lia List Arith Bool ZArith.
From Verif Require Import Num Ord MathUtil Props_Math Spec_Valve Props_Valve Props_Thermal FluidFlow Props_FluidFlow FluidSorb Props_FluidSorb Props_FluidSource Props_FluidBed Props_FluidMix FluidTank.
Import ListNotations.
Local Open Scope R_scope.

(** ** C194: partial pressures edited at a rate *)
(** In an ideal gas the mass is proportional to the pressure; an edit still running takes the
    partial pressure by its rate towards the goal and not past it. *)
Theorem C194_edit : forall dt vol p c (e : @ped R), 0 < dt -> 0 < vol -> 0 < c -> j_flag e = true -> Reps <= Rabs (j_rate e) ->
  let d := Rabs (j_rate e) * dt in let s := edit1 dt vol p (fun x => c * x) e in let p' := p + j_mass (fst s) / (c * vol) in
  j_goal (fst s) = j_goal e /\ j_rate (fst s) = j_rate e /\
  (d < Rabs (j_goal e - p) -> snd s = false /\ j_flag (fst s) = true /\ Rabs (p' - p) = d /\ Rabs (j_goal e - p') = Rabs (j_goal e - p) - d) /\
  (Rabs (j_goal e - p) <= d -> snd s = true /\ j_flag (fst s) = false).
Proof.
  intros dt vol p c e D V C F Q. pose proof Reps_pos as E0. unfold edit1. rewrite F. cbv zeta.
  change (nabs (j_rate e) <~ neps) with (Rltb (Rabs (j_rate e)) Reps). destruct (Rltb_spec (Rabs (j_rate e)) Reps); [lra|].
  change (nabs (j_rate e) *~ dt) with (Rabs (j_rate e) * dt). assert (D0 : 0 < Rabs (j_rate e) * dt) by nra.
  set (d := Rabs (j_rate e) * dt) in *. clearbody d. set (g := j_goal e) in *. clearbody g.
  change (p <~ g -~ d) with (Rltb p (g - d)). change (g +~ d <~ p) with (Rltb (g + d) p).
  destruct (Rltb_spec p (g - d)) as [A|A]; [|destruct (Rltb_spec (g + d) p) as [B|B]]; cbn [fst snd j_goal j_rate j_flag j_mass].
  - split; [reflexivity|]. split; [reflexivity|]. split.
    + intros _. split; [reflexivity|]. split; [reflexivity|].
      replace (p + (c * (p +~ d) -~ c * p) *~ vol / (c * vol)) with (p + d) by (rnum; field; lra).
      split; [rewrite Rabs_right; lra|]. rewrite !Rabs_right; lra.
    + intro H. rewrite Rabs_right in H; lra.
  - split; [reflexivity|]. split; [reflexivity|]. split.
    + intros _. split; [reflexivity|]. split; [reflexivity|].
      replace (p + (c * (p -~ d) -~ c * p) *~ vol / (c * vol)) with (p - d) by (rnum; field; lra).
      split; [rewrite Rabs_left; lra|]. rewrite !Rabs_left; lra.
    + intro H. rewrite Rabs_left in H; lra.
  - split; [reflexivity|]. split; [reflexivity|]. split; [|intros _; split; reflexivity].
    intro H. exfalso. unfold Rabs in H. destruct (Rcase_abs (g - p)); lra.
Qed.
Print Assumptions C194_edit.
(** Alone in its tank an edit arrives, within the change of one step, and stops there. *)
Definition alone (dt vol c : R) (s : R * @ped R) : R * @ped R :=
  let r := edit1 dt vol (fst s) (fun x => c * x) (snd s) in
  (if snd r then fst s else fst s + j_mass (fst r) / (c * vol), fst r).
Lemma iter_r {A} (f : A -> A) n x : Nat.iter (S n) f x = Nat.iter n f (f x).
Proof. induction n as [|n IH]; [reflexivity|]. change (Nat.iter (S (S n)) f x) with (f (Nat.iter (S n) f x)). rewrite IH. reflexivity. Qed.
Theorem C194_arrives : forall n dt vol c p (e : @ped R), 0 < dt -> 0 < vol -> 0 < c -> j_flag e = true -> Reps <= Rabs (j_rate e) ->
  Rabs (j_goal e - p) <= INR n * (Rabs (j_rate e) * dt) -> (1 <= n)%nat ->
  let s := Nat.iter n (alone dt vol c) (p, e) in
  j_flag (snd s) = false /\ Rabs (j_goal e - fst s) <= Rabs (j_rate e) * dt.
Proof.
  assert (ST : forall dt vol c k (s : R * @ped R), j_flag (snd s) = false ->
    j_flag (snd (Nat.iter k (alone dt vol c) s)) = false /\ fst (Nat.iter k (alone dt vol c) s) = fst s).
  { intros dt vol c k s F. induction k as [|k [I1 I2]]; [split; [exact F|reflexivity]|]. change (Nat.iter (S k) (alone dt vol c) s) with (alone dt vol c (Nat.iter k (alone dt vol c) s)).
    unfold alone at 1 3. unfold edit1. rewrite I1. cbn [fst snd j_flag]. split; [reflexivity|exact I2]. }
  intro n. induction n as [|n IH]; intros dt vol c p e D V C F Q H L; [lia|]. cbv zeta.
  assert (SH : Nat.iter (S n) (alone dt vol c) (p, e) = Nat.iter n (alone dt vol c) (alone dt vol c (p, e))) by apply iter_r.
  rewrite SH. pose proof (C194_edit dt vol p c e D V C F Q) as (G & K & M & X). cbv zeta in *.
  destruct (Rle_dec (Rabs (j_goal e - p)) (Rabs (j_rate e) * dt)) as [Y|Y].
  - destruct (X Y) as [X1 X2]. unfold alone at 2 4. cbn [fst snd]. rewrite X1.
    destruct (ST dt vol c n (p, fst (edit1 dt vol p (fun x => c * x) e)) X2) as [S1 S2]. split; [exact S1|]. rewrite S2. exact Y.
  - destruct M as (M1 & M2 & M3 & M4); [lra|]. unfold alone at 2 4. cbn [fst snd]. rewrite M1.
    set (e' := fst (edit1 dt vol p (fun x => c * x) e)) in *. set (p' := p + j_mass e' / (c * vol)) in *.
    destruct n as [|n].
    + exfalso. cbn [INR] in H. lra.
    + rewrite <- G, <- K. apply IH; try assumption; try lia.
      * rewrite K. exact Q.
      * rewrite G, K, M4. change (INR (S (S n))) with (INR (S n) + 1) in H. lra.
Qed.
Print Assumptions C194_arrives.
(** The flow is the mass of all edits over the step, none when none runs. *)
Theorem C194_flow : forall dt vol ps es, (dt < feps -> tank_state dt vol ps es = (es, 0)) /\
  (feps <= dt -> let s := tank_state dt vol ps es in let rs := map (fun q => edit1 dt vol (fst (fst q)) (snd (fst q)) (snd q)) (combine ps es) in
     fst s = map fst rs /\ (Forall (fun r => snd r = true) rs -> snd s = 0) /\
     (Exists (fun r => snd r = false) rs -> snd s * dt = - total (map j_mass (fst s)))).
Proof.
  intros dt vol ps es. unfold tank_state. change (dt <~ feps) with (Rltb dt feps). pose proof core_feps as F0. split; intro D.
  - rewrite (Rltb_true _ _ D). reflexivity.
  - destruct (Rltb_spec dt feps); [lra|]. cbv zeta. set (rs := map _ (combine ps es)). clearbody rs.
    destruct (forallb snd rs) eqn:A; cbn [fst snd].
    + split; [reflexivity|]. split; [reflexivity|]. intro X. exfalso. rewrite forallb_forall in A. apply Exists_exists in X. destruct X as (r & I & J).
      rewrite (A r I) in J. discriminate.
    + split; [reflexivity|]. split.
      * intro X. exfalso. rewrite Forall_forall in X. assert (forallb snd rs = true) by (apply forallb_forall; exact X). congruence.
      * intros _. rewrite fold_add. rnum. field. lra.
Qed.
Print Assumptions C194_flow.
Theorem C194_off : forall dt vol ps (es : list (@ped R)), feps <= dt -> length ps = length es -> Forall (fun e => j_flag e = false) es ->
  snd (tank_state dt vol ps es) = 0 /\ Forall (fun e => j_mass e = 0 /\ j_flag e = false) (fst (tank_state dt vol ps es)).
Proof.
  intros dt vol ps es D L F. destruct (C194_flow dt vol ps es) as [_ X]. specialize (X D). cbv zeta in X. destruct X as (X1 & X2 & _). rewrite X1.
  assert (A : Forall (fun r => snd r = true /\ j_mass (fst r) = 0 /\ j_flag (fst r) = false)
              (map (fun q => edit1 dt vol (fst (fst q)) (snd (fst q)) (snd q)) (combine ps es))).
  { clear X1 X2. revert ps L. induction F as [|e es E F IH]; intros [|q ps] L; cbn [combine map length] in *; try discriminate; constructor.
    - unfold edit1. cbn [fst snd]. rewrite E. cbn [fst snd j_mass j_flag]. repeat split.
    - apply IH. congruence. }
  split.
  - apply X2. revert A. apply Forall_impl. tauto.
  - apply Forall_map. revert A. apply Forall_impl. tauto.
Qed.
Print Assumptions C194_off.
(** An edit that has arrived while another runs leaves its last mass in the flow for one more step,
    and passes its goal. *)
Theorem C194_stale_refuted : exists dt vol (es : list (@ped R)) p1 p2,
  feps <= dt /\ map j_mass es = [0; 0] /\
  let es1 := fst (tank_state dt vol [(p1, fun x => x); (p2, fun x => x)] es) in
  let q1 := p1 + nth 0 (map j_mass es1) 0 / vol in let q2 := p2 + nth 1 (map j_mass es1) 0 / vol in
  let s2 := tank_state dt vol [(q1, fun x => x); (q2, fun x => x)] es1 in
  map j_flag (fst s2) = [false; true] /\ q1 < nth 0 (map j_goal es) 0 /\
  nth 0 (map j_goal es) 0 < q1 + nth 0 (map j_mass (fst s2)) 0 / vol /\ snd s2 * dt = - (nth 0 (map j_mass (fst s2)) 0 + nth 1 (map j_mass (fst s2)) 0).
Proof.
  pose proof core_feps as F0. pose proof Reps_small as E1. pose proof Reps_pos as E0.
  exists 1, 1, [mkped true 10 2 0; mkped true 100 1 0], 7, 0. split; [lra|]. split; [reflexivity|]. cbv zeta.
  assert (A1 : edit1 1 1 7 (fun x => x) (mkped true 10 2 0) = (mkped true 10 2 2, false)).
  { unfold edit1. cbn [j_flag j_goal j_rate j_mass]. cbv zeta. rnum. rewrite (Rabs_right 2) by lra. rcases; try lra. repeat f_equal. lra. }
  assert (A2 : forall p, p < 50 -> forall m, edit1 1 1 p (fun x => x) (mkped true 100 1 m) = (mkped true 100 1 1, false)).
  { intros p P m. unfold edit1. cbn [j_flag j_goal j_rate j_mass]. cbv zeta. rnum. rewrite (Rabs_right 1) by lra. rcases; try lra. repeat f_equal. lra. }
  assert (A3 : edit1 1 1 9 (fun x => x) (mkped true 10 2 2) = (mkped false 10 2 2, true)).
  { unfold edit1. cbn [j_flag j_goal j_rate j_mass]. cbv zeta. rnum. rewrite (Rabs_right 2) by lra. rcases; try lra. reflexivity. }
  assert (S1 : fst (tank_state 1 1 [(7, fun x => x); (0, fun x => x)] [mkped true 10 2 0; mkped true 100 1 0]) = [mkped true 10 2 2; mkped true 100 1 1]).
  { destruct (C194_flow 1 1 [(7, fun x => x); (0, fun x => x)] [mkped true 10 2 0; mkped true 100 1 0]) as [_ X]. specialize (X ltac:(lra)). cbv zeta in X.
    destruct X as [-> _]. cbn [combine map fst snd]. rewrite A1, A2 by lra. reflexivity. }
  rewrite S1. cbn [map nth j_mass j_goal]. replace (7 + 2 / 1) with 9 by lra. replace (0 + 1 / 1) with 1 by lra.
  destruct (C194_flow 1 1 [(9, fun x => x); (1, fun x => x)] [mkped true 10 2 2; mkped true 100 1 1]) as [_ X]. specialize (X ltac:(lra)). cbv zeta in X.
  destruct X as (Y1 & _ & Y3). cbn [combine map fst snd] in Y1, Y3. rewrite A3, A2 in Y1, Y3 by lra.
  rewrite Y3 by (apply Exists_cons_tl, Exists_cons_hd; reflexivity). rewrite Y1. cbn. unfold total. cbn. repeat split; lra.
Qed.
Print Assumptions C194_stale_refuted.
Theorem C194_set : forall flag p r (e : @ped R), j_flag (set_ped flag p r e) = flag /\ j_mass (set_ped flag p r e) = j_mass e /\
  (flag = true -> j_goal (set_ped flag p r e) = p /\ j_rate (set_ped flag p r e) = r) /\
  (flag = false -> j_goal (set_ped flag p r e) = j_goal e /\ j_rate (set_ped flag p r e) = j_rate e).
Proof. intros [] p r e; cbn; repeat split; discriminate. Qed.
Print Assumptions C194_set.
(** An edit of no rate is cancelled. *)
Theorem C194_cancel : forall dt vol p rho (e : @ped R), Rabs (j_rate e) < Reps ->
  snd (edit1 dt vol p rho e) = true /\ j_flag (fst (edit1 dt vol p rho e)) = false.
Proof.
  intros dt vol p rho e H. unfold edit1. destruct (j_flag e); [|split; reflexivity]. cbv zeta.
  change (nabs (j_rate e) <~ neps) with (Rltb (Rabs (j_rate e)) Reps). rewrite (Rltb_true _ _ H). split; reflexivity.
Qed.
Print Assumptions C194_cancel.
Theorem C194_source : forall cap flow w : R, w <> 0 -> (tank_source cap flow w - cap) * w = - flow.
Proof. intros. unfold tank_source. rnum. field. assumption. Qed.
Print Assumptions C194_source.

(** ** C195: shell, edits of temperature and pressure, rate of pressure *)
Theorem C195_shell : forall (area radius k tsh t : R) (editing : bool) (p q : R),
  (1 <= p -> editing = false -> feps < area -> feps < radius ->
     shell_heat area radius k tsh t editing p q * radius = k * (tsh - t) * area) /\
  (p < 1 \/ editing = true -> shell_heat area radius k tsh t editing p q = 0) /\
  (1 <= p -> editing = false -> area <= feps \/ radius <= feps -> shell_heat area radius k tsh t editing p q = q).
Proof.
  intros. unfold shell_heat. pose proof core_feps as F0. change (p <~ n1) with (Rltb p 1).
  change (feps <~ area) with (Rltb feps area). change (feps <~ radius) with (Rltb feps radius). split; [|split].
  - intros P E A B. rewrite (Rltb_true _ _ A), (Rltb_true _ _ B), E. destruct (Rltb_spec p 1); [lra|]. cbn [andb]. rnum. field. lra.
  - intro H. destruct (Rltb_spec p 1); [reflexivity|]. destruct H as [H|H]; [lra|]. rewrite H. reflexivity.
  - intros P E H. destruct (Rltb_spec p 1); [lra|]. rewrite E. destruct (Rltb_spec feps area), (Rltb_spec feps radius); try reflexivity. destruct H; lra.
Qed.
Print Assumptions C195_shell.
(** What an edit aims at. *)
Definition aim_t (e : @tped R) (t : R) : R := if Rlt_dec (tp_temp e) feps then t else tp_temp e.
Definition asked (e : @tped R) : R := if tp_tp e then tp_press e else total (tp_parts e).
Definition aim_p (e : @tped R) (parts : list R) : R := if Rlt_dec (asked e) feps then total parts else asked e.
Definition aim_parts (e : @tped R) (parts : list R) : list R := if Rlt_dec (asked e) feps then parts else tp_parts e.
Definition editing (e : @tped R) : Prop := tp_tp e = true \/ tp_tpp e = true.
Definition arrived (t p flux goal te pe : R) : Prop := Rabs (te - t) < feps /\ Rabs (pe - p) < feps /\ Rabs flux < goal.
Lemma temp_aim (e : @tped R) t : edit_temp e t = aim_t e t.
Proof. unfold edit_temp, aim_t. change (tp_temp e <~ feps) with (Rltb (tp_temp e) feps). destruct (Rltb_spec (tp_temp e) feps), (Rlt_dec (tp_temp e) feps); try lra; reflexivity. Qed.
Theorem C195_edit : forall t p parts flux goal (e : @tped R), editing e ->
  let te := aim_t e t in let pe := aim_p e parts in let s := tank_edit t p parts flux goal e in
  tp_temp (fst s) = te /\ tp_press (fst s) = pe /\ tp_parts (fst s) = aim_parts e parts /\ tp_t (fst s) = tp_t e /\
  (arrived t p flux goal te pe -> ~ editing (fst s) /\ tp_over (fst s) = false /\ tp_disable (fst s) = false /\ snd s = None) /\
  (~ arrived t p flux goal te pe -> tp_tp (fst s) = tp_tp e /\ tp_tpp (fst s) = tp_tpp e /\ tp_over (fst s) = true /\ tp_disable (fst s) = true /\
     snd s = Some (if tp_tp e then ETotal te pe else EParts te (aim_parts e parts))).
Proof.
  intros t p parts flux goal e ED te pe s. unfold s, tank_edit.
  assert (E1 : tp_tp e || tp_tpp e = true) by (destruct ED as [-> | ->]; [reflexivity|apply orb_true_r]). rewrite E1. cbv zeta.
  rewrite temp_aim. fold te.
  assert (TG : edit_target e = asked e) by (unfold edit_target, asked; rewrite fold_add; destruct (tp_tp e) eqn:Y; [reflexivity|]; destruct ED as [Z|Z]; [congruence|rewrite Z; reflexivity]).
  rewrite TG, fold_add. change (asked e <~ feps) with (Rltb (asked e) feps).
  assert (PE : (if Rltb (asked e) feps then total parts else asked e) = pe)
    by (unfold pe, aim_p; destruct (Rltb_spec (asked e) feps), (Rlt_dec (asked e) feps); try lra; reflexivity).
  assert (PP : (if Rltb (asked e) feps then parts else tp_parts e) = aim_parts e parts)
    by (unfold aim_parts; destruct (Rltb_spec (asked e) feps), (Rlt_dec (asked e) feps); try lra; reflexivity).
  rewrite PE, PP. clear PE PP. clearbody te pe.
  change (nabs (te -~ t) <~ feps) with (Rltb (Rabs (te - t)) feps). change (nabs (pe -~ p) <~ feps) with (Rltb (Rabs (pe - p)) feps).
  change (nabs flux <~ goal) with (Rltb (Rabs flux) goal).
  destruct (Rltb_spec (Rabs (te - t)) feps); [destruct (Rltb_spec (Rabs (pe - p)) feps); [destruct (Rltb_spec (Rabs flux) goal)|]|];
    cbn [andb fst snd tp_t tp_tp tp_tpp tp_temp tp_press tp_parts tp_over tp_disable];
    do 4 (split; [reflexivity|]); split; intro H; try (exfalso; unfold arrived in H; tauto); repeat split;
    try (intros [?|?]; discriminate); auto.
Qed.
Print Assumptions C195_edit.
(** With a flux target of none, which is accepted, no edit ever ends. *)
Theorem C195_endless_refuted : exists gain damping goal area radius tsh, tank_valid gain damping goal area radius tsh = true /\
  forall t p parts flux (e : @tped R), editing e -> editing (fst (tank_edit t p parts flux goal e)) /\ tp_over (fst (tank_edit t p parts flux goal e)) = true.
Proof.
  exists 0, 0, 0, 0, 0, 0. split; [unfold tank_valid, is_in_range; rnum; rcases; try reflexivity; lra|].
  intros t p parts flux e ED. destruct (C195_edit t p parts flux 0 e ED) as (_ & _ & _ & _ & _ & X). destruct X as (X1 & X2 & X3 & _).
  - intros (_ & _ & Z). pose proof (Rabs_pos flux). lra.
  - split; [|exact X3]. unfold editing in *. rewrite X1, X2. exact ED.
Qed.
Print Assumptions C195_endless_refuted.
Theorem C195_accepted : forall gain damping goal area radius tsh : R,
  tank_valid gain damping goal area radius tsh = true <-> 0 <= gain <= 1 /\ 0 <= damping /\ 0 <= goal /\ 0 <= area /\ 0 <= radius /\ 0 <= tsh.
Proof.
  intros. unfold tank_valid, is_in_range. change (n0 : R) with 0. change (n1 : R) with 1.
  repeat match goal with |- context [?a <~ ?b] => change (a <~ b) with (Rltb a b) end.
  repeat match goal with |- context [?a <=~ ?b] => change (a <=~ b) with (Rleb a b) end.
  rewrite !andb_true_iff, !negb_true_iff.
  assert (LT : forall a b, Rltb a b = false <-> b <= a) by (intros a b; destruct (Rltb_spec a b); split; intro; try discriminate; try reflexivity; lra).
  assert (LE : forall a b, Rleb a b = true <-> a <= b) by (intros a b; destruct (Rleb_spec a b); split; intro; try discriminate; try reflexivity; lra).
  rewrite ?LT, ?LE. tauto.
Qed.
Print Assumptions C195_accepted.
(** A temperature alone is edited once; and when nothing is edited an override left is taken off. *)
Theorem C195_once : forall t p parts flux goal (e : @tped R), ~ editing e ->
  let s := tank_edit t p parts flux goal e in
  ~ editing (fst s) /\ tp_t (fst s) = false /\ (tp_disable e = true -> tp_over (fst s) = false) /\ (tp_disable e = false -> tp_over (fst s) = tp_over e) /\
  tp_disable (fst s) = false /\
  snd s = if tp_t e then Some (ETotal (aim_t e t) p) else None.
Proof.
  intros t p parts flux goal e NE. cbv zeta. unfold tank_edit.
  assert (A : tp_tp e = false /\ tp_tpp e = false) by (unfold editing in NE; destruct (tp_tp e), (tp_tpp e); tauto). destruct A as [A B]. rewrite A, B. cbn [orb]. cbv zeta.
  rewrite temp_aim. destruct (tp_t e) eqn:TT, (tp_disable e) eqn:DD;
    cbn [fst snd tp_t tp_tp tp_tpp tp_temp tp_press tp_parts tp_over tp_disable]; unfold editing; cbn [tp_tp tp_tpp];
    rewrite ?A, ?B, ?TT, ?DD; repeat split; try discriminate; try tauto; intros [?|?]; discriminate.
Qed.
Print Assumptions C195_once.
(** The filtered rate of pressure. *)
Theorem C195_dpdt : forall gain dt p prev d : R,
  (dt <= Reps \/ gain = 0 -> tank_dpdt gain dt p prev d = 0) /\
  (Reps < dt -> gain <> 0 -> let y := (1 - gain) * d + gain * ((p - prev) / dt) in
     (Reps <= Rabs y -> tank_dpdt gain dt p prev d = y) /\ (Rabs y < Reps -> tank_dpdt gain dt p prev d = 0)).
Proof.
  intros. unfold tank_dpdt. change (neps <~ dt) with (Rltb Reps dt). change (gain ==~ n0) with (Reqb gain 0). split.
  - intros H. destruct (Rltb_spec Reps dt), (Reqb_spec gain 0); try reflexivity. destruct H; lra.
  - intros D G. rewrite (Rltb_true _ _ D). destruct (Reqb_spec gain 0); [contradiction|]. cbn [negb andb]. cbv zeta.
    replace (d +~ gain *~ ((p -~ prev) /~ dt -~ d)) with ((1 - gain) * d + gain * ((p - prev) / dt)) by (rnum; ring).
    set (y := (1 - gain) * d + gain * ((p - prev) / dt)). clearbody y. change (nabs y <~ neps) with (Rltb (Rabs y) Reps).
    destruct (Rltb_spec (Rabs y) Reps); split; intro; try lra; reflexivity.
Qed.
Print Assumptions C195_dpdt.
(** Under a steady slope it comes within epsilon over gain of it, geometrically. *)
Theorem C195_settles : forall gain dt slope d0 n, 0 < gain <= 1 -> Reps < dt ->
  Rabs (Nat.iter n (fun d => tank_dpdt gain dt (slope * dt) 0 d) d0 - slope) <= (1 - gain) ^ n * Rabs (d0 - slope) + Reps / gain.
Proof.
  intros gain dt slope d0 n G D. pose proof Reps_pos as E0. assert (I : 0 < Reps / gain) by (apply Rdiv_lt_0_compat; lra).
  induction n as [|n IH]; [change (Nat.iter 0 ?f d0) with d0; rewrite pow_O; lra|]. change (Nat.iter (S n) ?f d0) with (f (Nat.iter n f d0)). cbn beta.
  set (d := Nat.iter n _ d0) in *. clearbody d. destruct (C195_dpdt gain dt (slope * dt) 0 d) as [_ X]. specialize (X D ltac:(lra)). cbv zeta in X.
  replace ((slope * dt - 0) / dt) with slope in X by (field; lra). set (y := (1 - gain) * d + gain * slope) in *.
  assert (B : Rabs (tank_dpdt gain dt (slope * dt) 0 d - slope) <= Rabs (y - slope) + Reps).
  { destruct X as [X1 X2]. destruct (Rle_dec Reps (Rabs y)) as [H|H].
    - rewrite X1 by exact H. lra.
    - rewrite X2 by lra. replace (0 - slope) with ((y - slope) + - y) by ring. eapply Rle_trans; [apply Rabs_triang|]. rewrite Rabs_Ropp. lra. }
  replace (y - slope) with ((1 - gain) * (d - slope)) in B by (unfold y; ring). rewrite Rabs_mult, (Rabs_right (1 - gain)) in B by lra.
  cbn [pow]. assert (J : (1 - gain) * Rabs (d - slope) <= (1 - gain) * ((1 - gain) ^ n * Rabs (d0 - slope) + Reps / gain)) by (apply Rmult_le_compat_l; lra).
  assert (K : gain * (Reps / gain) = Reps) by (field; lra).
  set (P := (1 - gain) ^ n) in *. set (Z := Reps / gain) in *. set (D0 := Rabs (d0 - slope)) in *. set (X0 := Rabs (d - slope)) in *.
  set (Y0 := Rabs (_ - slope)) in *. clearbody P Z D0 X0 Y0. replace ((1 - gain) * P * D0 + Z) with ((1 - gain) * (P * D0 + Z) + gain * Z) by ring. lra.
Qed.
Print Assumptions C195_settles.
Example C195_editing : editing (mktped false true false 300 100 [] false false) /\
  ~ arrived 290 100 0 1 (aim_t (mktped false true false 300 100 [] false false) 290) 100.
Proof.
  pose proof core_feps as F. split; [left; reflexivity|]. unfold arrived, aim_t. cbn [tp_temp]. destruct (Rlt_dec 300 feps); [lra|].
  intros (H & _). rewrite Rabs_right in H; lra.
Qed.
