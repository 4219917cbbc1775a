(** C136, C137: how far a valve travels and how often it toggles. *)
From Coq Require Import Floats.
From Coq Require Import Reals Lra Lia List Arith Bool ZArith.
From Verif Require Import Num Ord MathUtil Props_Math Valve Spec_Valve Props_Valve.
Import ListNotations.
Local Open Scope R_scope.

(** The configuration of a valve controller and whether it is fit. *)
Definition inside (p : powered R) : Prop := v_min (p_v p) <= v_pos (p_v p) <= v_max (p_v p).
(** What an update never changes. *)
Definition kept (p q : powered R) : Prop :=
  v_min (p_v q) = v_min (p_v p) /\ v_max (p_v q) = v_max (p_v p) /\ p_cs q = p_cs p /\ p_latch q = p_latch p /\ p_eot q = p_eot p /\
  (drives p -> drives q).
Lemma kept_trans p q r : kept p q -> kept q r -> kept p r.
Proof. intros (A1 & A2 & A3 & A4 & A5 & A6) (B1 & B2 & B3 & B4 & B5 & B6). repeat split; try congruence; apply B6, A6; assumption. Qed.
Lemma kept_refl p : kept p p.
Proof. unfold kept. tauto. Qed.
Lemma kept_cmd p s e c dt : kept p (powered_cmd p s e c dt).
Proof. unfold kept, powered_cmd, powered_update, update_position. cbn. tauto. Qed.

Lemma cmd_pos p c dt : drives p -> inside p -> v_pos (p_v (powered_cmd p true true c dt)) =
  within (v_min (p_v p)) (v_pos (p_v p) + c * p_cs p * dt) (v_max (p_v p)).
Proof.
  intros ((F1 & F2 & F3) & D1 & D2 & D3) I. unfold powered_cmd, powered_update, update_position, drive.
  cbn [p_v v_pos p_mdstuck p_mdfail p_supply p_mgood p_mpfail p_en p_cmd p_cs]. rewrite F1, F2, D1, D2, D3.
  assert (F : v_man (p_v p) && negb (v_mman (p_v p)) = false) by (destruct F3 as [-> | ->]; [reflexivity|apply andb_false_r]).
  rewrite F. cbn [negb orb]. unfold inside in I. rewrite limit_within by lra. reflexivity.
Qed.
Lemma within_in lo x hi : lo <= hi -> lo <= within lo x hi <= hi.
Proof. intro H. unfold within, Rmin, Rmax. destruct (Rle_dec x hi), (Rle_dec lo _); lra. Qed.
Lemma within_low lo x hi : lo <= hi -> lo <= x -> within lo x hi = Rmin x hi.
Proof. intros H X. unfold within, Rmin, Rmax. destruct (Rle_dec x hi), (Rle_dec lo _); lra. Qed.
Lemma within_high lo x hi : lo <= hi -> x <= hi -> within lo x hi = Rmax lo x.
Proof. intros H X. unfold within, Rmin, Rmax. destruct (Rle_dec x hi), (Rle_dec lo _); lra. Qed.
Lemma inside_cmd p c dt : drives p -> inside p -> inside (powered_cmd p true true c dt).
Proof.
  intros D I. unfold inside. rewrite (cmd_pos p c dt D I). destruct (kept_cmd p true true c dt) as (-> & -> & _).
  apply within_in. unfold inside in I. lra.
Qed.

(** ** C136 *)
(** Commands with their durations, given one after the other. *)
Definition commands (p : powered R) (l : list (R * R)) : powered R :=
  fold_left (fun p cd => powered_cmd p true true (fst cd) (snd cd)) l p.
Definition travel (p : powered R) (l : list (R * R)) : R :=
  fold_right Rplus 0 (map (fun cd => fst cd * p_cs p * snd cd) l).
Theorem C136_travel : forall l p, drives p -> inside p ->
  (Forall (fun cd => 0 <= fst cd * p_cs p * snd cd) l ->
   v_pos (p_v (commands p l)) = Rmin (v_pos (p_v p) + travel p l) (v_max (p_v p))) /\
  (Forall (fun cd => fst cd * p_cs p * snd cd <= 0) l ->
   v_pos (p_v (commands p l)) = Rmax (v_pos (p_v p) + travel p l) (v_min (p_v p))).
Proof.
  induction l as [|[c dt] l IH]; intros p D I.
  { unfold commands, travel, inside in *. cbn. unfold Rmin, Rmax. split; intros _; destruct (Rle_dec _ _); lra. }
  set (q := powered_cmd p true true c dt).
  assert (K : kept p q) by apply kept_cmd. assert (IQ : inside q) by now apply inside_cmd.
  assert (PQ := cmd_pos p c dt D I). fold q in PQ.
  change (commands p ((c, dt) :: l)) with (commands q l). change (travel p ((c, dt) :: l)) with (c * p_cs p * dt + travel p l).
  destruct K as (K1 & K2 & K3 & _ & _ & K6). destruct (IH q (K6 D) IQ) as [H1 H2].
  replace (travel p l) with (travel q l) by (unfold travel; rewrite K3; reflexivity).
  assert (S1 : Forall (fun cd => 0 <= fst cd * p_cs p * snd cd) l -> 0 <= travel q l).
  { unfold travel. rewrite K3. clear. induction 1; cbn; lra. }
  assert (S2 : Forall (fun cd => fst cd * p_cs p * snd cd <= 0) l -> travel q l <= 0).
  { unfold travel. rewrite K3. clear. induction 1; cbn; lra. }
  unfold inside in I. split; intro F; inversion F as [|? ? F1 F2]; subst; cbn [fst snd] in F1.
  - rewrite H1 by (rewrite K3; exact F2). rewrite K2, PQ, within_low by lra. specialize (S1 F2).
    unfold Rmin. destruct (Rle_dec (v_pos (p_v p) + c * p_cs p * dt) _), (Rle_dec _ _), (Rle_dec _ _); lra.
  - rewrite H2 by (rewrite K3; exact F2). rewrite K1, PQ, within_high by lra. specialize (S2 F2).
    unfold Rmax. destruct (Rle_dec (v_min (p_v p)) _), (Rle_dec _ _), (Rle_dec _ _); lra.
Qed.
Print Assumptions C136_travel.

(** What the initialization of a powered valve makes of the configuration. *)
Theorem C136_initialized : forall (c : pcfg R) i named p, powered_init c i named = Some p ->
  p_cs p = (c_max (pc_v c) - c_min (pc_v c)) / (pc_ref c * pc_transit c) /\
  p_holdr p = pc_volt c ^ 2 / pc_hold c /\ p_mover p = pc_volt c ^ 2 / pc_move c /\ p_stuckr p = pc_volt c ^ 2 / pc_stuck c /\
  (p_hold p, p_move p, p_stuckp p) = (pc_hold c, pc_move c, pc_stuck c) /\ p_eot p = pc_eot c /\ p_latch p = pc_latch c /\
  v_min (p_v p) = c_min (pc_v c) /\ v_max (p_v p) = c_max (pc_v c) /\ inside p /\
  (i_man (pi_v i) = false -> drives p) /\
  (i_man (pi_v i) = false -> pi_supply i = true -> pi_en i = true -> v_pos (p_v p) = i_pos (pi_v i)).
Proof.
  intros c i named p H. unfold powered_init in H. destruct (valve_init _ _ _) as [v|] eqn:V; [|discriminate].
  destruct (powered_valid c); [|discriminate]. injection H as <-.
  assert (A : exists v, valve_init (pc_v c) (pi_v i) named = Some v) by eauto.
  apply C134_accepted in A. destruct A as (_ & _ & R & _).
  unfold valve_init in V. destruct (_ && _); [|discriminate]. injection V as <-.
  unfold powered_update, valve_update, update_position. cbn [p_v v_min v_max v_pos v_mstuck v_mfail v_man v_mman p_cs p_holdr p_mover p_stuckr p_hold p_move p_stuckp p_eot p_latch].
  split; [reflexivity|]. split; [rnum; unfold Rdiv; ring|]. split; [rnum; unfold Rdiv; ring|]. split; [rnum; unfold Rdiv; ring|].
  split; [reflexivity|]. split; [reflexivity|]. split; [reflexivity|]. split; [reflexivity|]. split; [reflexivity|].
  split. { unfold inside. cbn [p_v v_min v_max v_pos]. rewrite !limit_within by lra. apply within_in. lra. }
  split. { intro M. unfold drives, free. cbn. rewrite M. auto 10. }
  intros -> S E. cbn [andb]. unfold drive. cbn [p_v v_pos p_mdstuck p_mdfail p_supply p_mgood p_mpfail p_en p_cmd p_cs v_man v_mman v_min v_max].
  rewrite S, E. cbn [orb negb andb]. rewrite !limit_within by lra.
  assert (Z : within (c_min (pc_v c)) (i_pos (pi_v i)) (c_max (pc_v c)) = i_pos (pi_v i)) by (unfold within, Rmin, Rmax; destruct (Rle_dec _ _), (Rle_dec _ _); lra).
  rewrite Z. rnum. rewrite Rmult_0_r, Rplus_0_r. exact Z.
Qed.
Print Assumptions C136_initialized.

(** A valve that is commanded open from its closed end takes the transit time at the
    reference command to open, however the time is cut into steps. *)
Theorem C136_transit_time : forall (c : pcfg R) i p l,
  powered_init c i true = Some p -> c_min (pc_v c) < c_max (pc_v c) -> 0 < pc_ref c -> 0 < pc_transit c ->
  i_man (pi_v i) = false -> v_pos (p_v p) = c_min (pc_v c) -> Forall (fun dt => 0 <= dt) l ->
  let w := p_v (commands p (map (fun dt => (pc_ref c, dt)) l)) in
  let t := fold_right Rplus 0 l in
  v_pos w = Rmin (c_min (pc_v c) + (c_max (pc_v c) - c_min (pc_v c)) * (t / pc_transit c)) (c_max (pc_v c)) /\
  (v_pos w = c_max (pc_v c) <-> pc_transit c <= t).
Proof.
  intros c i p l H L R T M P F. cbv zeta. destruct (C136_initialized c i true p H) as (C & _ & _ & _ & _ & _ & _ & K1 & K2 & I & D & _).
  specialize (D M). destruct (C136_travel (map (fun dt => (pc_ref c, dt)) l) p D I) as [G _].
  assert (CS : pc_ref c * p_cs p = (c_max (pc_v c) - c_min (pc_v c)) / pc_transit c) by (rewrite C; field; lra).
  assert (CP : 0 < pc_ref c * p_cs p) by (rewrite CS; apply Rdiv_lt_0_compat; lra).
  rewrite G.
  2: { clear - F CP. induction F; cbn; constructor; auto. cbn. nra. }
  assert (TR : travel p (map (fun dt => (pc_ref c, dt)) l) = (c_max (pc_v c) - c_min (pc_v c)) * (fold_right Rplus 0 l / pc_transit c)).
  { transitivity (pc_ref c * p_cs p * fold_right Rplus 0 l).
    - clear. unfold travel. induction l as [|a l IH]; cbn in *; [ring|]. rewrite IH. ring.
    - rewrite CS. field. lra. }
  rewrite TR, P, K2. split; [reflexivity|]. set (t := fold_right Rplus 0 l). clearbody t. clear - L T.
  set (q := t / pc_transit c). assert (Q : t = q * pc_transit c) by (unfold q; field; lra). clearbody q. subst t.
  set (d := c_max (pc_v c) - c_min (pc_v c)). assert (0 < d) by (unfold d; lra).
  replace (c_max (pc_v c)) with (c_min (pc_v c) + d) by (unfold d; ring). clearbody d.
  unfold Rmin. destruct (Rle_dec _ _) as [Q|Q]; split; intro X; try nra.
Qed.
Print Assumptions C136_transit_time.

(** The position controller whose sensor is right. *)
Definition follow (tol target : R) (p : powered R) (l : list R) : powered R :=
  fold_left (fun p dt => position_update p true true tol target (v_pos (p_v p)) dt) l p.
(** It goes towards the target and not beyond; once it has had the time to get there, it is
    there or nearer than the tolerance. *)
Theorem C136_follow : forall tol target l p,
  drives p -> inside p -> 0 < p_cs p -> v_min (p_v p) <= target <= v_max (p_v p) -> Forall (fun dt => Reps < dt) l ->
  let e := target - v_pos (p_v p) in
  let e' := target - v_pos (p_v (follow tol target p l)) in
  (0 <= e -> 0 <= e' <= e) /\ (e <= 0 -> e <= e' <= 0) /\
  (Rabs e' < tol \/ Rabs e' <= Rmax 0 (Rabs e - p_cs p * fold_right Rplus 0 l)).
Proof.
  intros tol target. induction l as [|dt l IH]; intros p D I C TG F; cbv zeta.
  { cbn. split; [intros; lra|]. split; [intros; lra|]. right. unfold Rmax. destruct (Rle_dec _ _); lra. }
  inversion F as [|? ? F1 F2]; subst. assert (EP := Reps_pos).
  set (x := v_pos (p_v p)) in *.
  set (q := position_update p true true tol target x dt).
  assert (K : kept p q) by apply kept_cmd. assert (IQ : inside q) by now apply inside_cmd.
  change (follow tol target p (dt :: l)) with (follow tol target q l).
  destruct K as (K1 & K2 & K3 & _ & _ & K6).
  specialize (IH q (K6 D) IQ). rewrite K1, K2, K3 in IH. specialize (IH C TG F2). cbv zeta in IH.
  set (y' := v_pos (p_v (follow tol target q l))) in *. clearbody y'.
  assert (PQ : v_pos (p_v q) = within (v_min (p_v p)) (x + position_cmd (p_cs p) tol target x dt * p_cs p * dt) (v_max (p_v p)))
    by exact (cmd_pos p _ dt D I).
  set (y := v_pos (p_v q)) in *. clearbody y.
  set (s := fold_right Rplus 0 l) in *. assert (SP : 0 <= s).
  { unfold s. clear - F2 EP. induction F2; cbn; lra. }
  cbn [fold_right]. fold s. clearbody s. unfold inside in I. fold x in I. clearbody x.
  unfold position_cmd in PQ. rnum. set (d := dt * p_cs p) in *. assert (DP : 0 < d) by (unfold d; apply Rmult_lt_0_compat; lra).
  assert (E1 : (Rabs (target - x) < tol /\ y = x) \/
    y = x + within (- d) (target - x) d).
  { destruct (Rltb_spec (Rabs (target - x)) tol) as [A|A].
    - left. split; [exact A|]. rewrite PQ, !Rmult_0_l, Rplus_0_r. unfold within, Rmin, Rmax. destruct (Rle_dec x _), (Rle_dec _ _); lra.
    - right. rewrite (Rltb_true Reps dt) in PQ by exact F1. rewrite limit_within in PQ by lra.
      set (m := within (- d) (target - x) d) in *.
      replace (m / d * p_cs p * dt) with m in PQ by (unfold d; field; unfold d in DP; split; nra).
      assert (B : (0 <= m <= target - x) \/ (target - x <= m <= 0)).
      { unfold m, within, Rmin, Rmax. destruct (Rle_dec _ d), (Rle_dec _ _); lra. }
      rewrite PQ. unfold within, Rmin, Rmax. destruct (Rle_dec (x + m) _), (Rle_dec _ _); lra. }
  clear PQ IQ. replace (p_cs p * (dt + s)) with (d + p_cs p * s) by (unfold d; ring).
  assert (CSP : 0 <= p_cs p * s) by nra. set (z := p_cs p * s) in *. clearbody z d.
  destruct IH as (J1 & J2 & J3). destruct E1 as [[A ->]|E].
  - split; [exact J1|]. split; [exact J2|]. left. destruct J3 as [J3|J3]; [exact J3|].
    apply Rle_lt_trans with (Rabs (target - x)); [|exact A]. apply (Rle_trans _ _ _ J3). apply Rmax_lub; [apply Rabs_pos|]. assert (Q := Rabs_pos (target - x)). lra.
  - clear - DP E J1 J2 J3 CSP. unfold within in E.
    assert (W : (0 <= target - x -> 0 <= target - y <= target - x /\ target - y <= Rmax 0 (target - x - d)) /\
                (target - x <= 0 -> target - x <= target - y <= 0 /\ - (target - y) <= Rmax 0 (- (target - x) - d))).
    { rewrite E. unfold Rmin, Rmax. destruct (Rle_dec (target - x) d), (Rle_dec (- d) _), (Rle_dec 0 _), (Rle_dec 0 _); split; intros; repeat split; lra. }
    clear E. destruct W as [W1 W2]. destruct (Rle_dec 0 (target - x)) as [G|G].
    + destruct (W1 G) as (A & B). split; [intros _; lra|]. split; [intros ?; assert (target - y = 0) by lra; lra|].
      destruct J3 as [J3|J3]; [left; exact J3|right]. rewrite (Rabs_pos_eq (target - x)) by lra. rewrite (Rabs_pos_eq (target - y)) in J3 by lra.
      revert J3 B. unfold Rmax. destruct (Rle_dec 0 (target - y - z)), (Rle_dec 0 (target - x - d)), (Rle_dec 0 (target - x - (d + z))); intros; lra.
    + destruct (W2 ltac:(lra)) as (A & B). split; [intros; lra|]. split; [intros _; lra|].
      destruct J3 as [J3|J3]; [left; exact J3|right]. rewrite (Rabs_left1 (target - x)) by lra. rewrite (Rabs_left1 (target - y)) in J3 by lra.
      revert J3 B. unfold Rmax. destruct (Rle_dec 0 (- (target - y) - z)), (Rle_dec 0 (- (target - x) - d)), (Rle_dec 0 (- (target - x) - (d + z))); intros; lra.
Qed.
Print Assumptions C136_follow.

(** ** C137 *)
(** What one update of a toggle command gets: the flags written to it, and queues. *)
Record sample := mksample { s_en : bool; s_tog : bool; s_qe : list bool; s_qt : list bool; s_dt : R }.
Definition fit (s : sample) : Prop := Reps < s_dt s /\ (length (s_qt s) <= length (s_qe s))%nat.
(** The flags that count, in time order. *)
Definition flags (s : sample) : list (bool * bool) :=
  match s_qt s with [] => [(s_en s, s_tog s)] | _ => combine (s_qe s) (s_qt s) end.
Definition write (c : tcmd) (s : sample) : tcmd := mktcmd (s_en s) (s_tog s) (t_armed c) (t_count c).
Definition sampled (c : tcmd) (s : sample) : option tcmd := tcmd_update (write c s) (s_dt s) (s_qe s) (s_qt s).
Fixpoint sampling (c : tcmd) (l : list sample) : option tcmd :=
  match l with [] => Some c | s :: l => match sampled c s with None => None | Some c => sampling c l end end.

(** The toggle flag that was last seen with the enable flag. *)
Definition last_seen (before : bool) (l : list (bool * bool)) : bool := last (seen l) before.
Lemma last_cons {A} (a : A) l d : last (a :: l) d = last l a.
Proof. revert a d. induction l as [|b l IH]; intros a d; [reflexivity|]. change (last (a :: b :: l) d) with (last (b :: l) d). rewrite !IH. reflexivity. Qed.
Lemma rises_app b l m : rises b (l ++ m) = (rises b l + rises (last l b) m)%nat.
Proof. revert b. induction l as [|a l IH]; intro b; [reflexivity|]. rewrite last_cons. cbn [app rises]. rewrite IH. lia. Qed.
Lemma last_app {A} (l m : list A) d : last (l ++ m) d = last m (last l d).
Proof. revert d. induction l as [|b l IH]; intro d; [reflexivity|]. cbn [app]. rewrite !last_cons. apply IH. Qed.
Lemma seen_app l m : seen (l ++ m) = seen l ++ seen m.
Proof. unfold seen. now rewrite filter_app, map_app. Qed.
Lemma queue_rises q : forall armed,
  queue_count armed q = (Z.of_nat (rises (negb armed) (seen q)), negb (last_seen (negb armed) q)).
Proof.
  induction q as [|[en tog] q IH]; intro armed; [unfold last_seen; cbn; now rewrite negb_involutive|].
  cbn [queue_count]. unfold last_seen, seen in *. cbn [filter fst].
  destruct en; cbn [map snd]; rewrite ?last_cons; cbn [rises].
  - destruct armed, tog; cbn [andb negb]; rewrite IH; cbn [negb]; f_equal; lia.
  - rewrite !andb_false_r. apply IH.
Qed.

(** The count goes up by the number of rising edges of the toggle flag among the enabled
    samples, given one at a time or in queues; an update tells whether it was odd. *)
Theorem C137_count : forall l c, Forall fit l -> exists d, sampling c l = Some d /\
  t_count d = (t_count c + Z.of_nat (rises (negb (t_armed c)) (seen (flat_map flags l))))%Z /\
  t_armed d = negb (last_seen (negb (t_armed c)) (flat_map flags l)).
Proof.
  induction l as [|s l IH]; intros c F.
  { exists c. split; [reflexivity|]. unfold last_seen. cbn. rewrite negb_involutive. split; [lia|reflexivity]. }
  inversion F as [|? ? [F1 F2] F3]; subst.
  assert (ST : exists d, sampled c s = Some d /\ t_count d = (t_count c + Z.of_nat (rises (negb (t_armed c)) (seen (flags s))))%Z /\
                 t_armed d = negb (last_seen (negb (t_armed c)) (flags s))).
  { unfold sampled, tcmd_update. rnum. rewrite (Rltb_true Reps) by exact F1. unfold flags. destruct (s_qt s) as [|t qt] eqn:Q.
    - unfold write, seen, last_seen. cbn [t_armed t_tog t_en t_count]. destruct (t_armed c), (s_tog s), (s_en s); eexists; (split; [reflexivity|]); cbn; (split; [lia|reflexivity]).
    - replace (Nat.ltb (length (s_qe s)) (length (t :: qt))) with false by (symmetry; apply Nat.ltb_ge; exact F2).
      rewrite queue_rises. eexists. split; [reflexivity|]. cbn [t_count t_armed write]. split; reflexivity. }
  destruct ST as (d & E & N & A). destruct (IH d F3) as (e & E2 & N2 & A2). exists e. cbn [sampling]. rewrite E.
  split; [exact E2|]. cbn [flat_map]. rewrite N2, A2, N, A, !negb_involutive. unfold last_seen. rewrite seen_app, rises_app, last_app.
  split; [lia|reflexivity].
Qed.
Print Assumptions C137_count.

(** With the toggle controller: the valve's position after it. *)
Definition toggled (so sc : R -> bool) (s : powered R * tcmd) (i : sample) : option (powered R * tcmd) :=
  let x := v_pos (p_v (fst s)) in
  toggle_update (fst s, write (snd s) i) true (s_qe i) (s_qt i) (so x) (sc x) (s_dt i).
Fixpoint toggling (so sc : R -> bool) (s : powered R * tcmd) (l : list sample) : option (powered R * tcmd) :=
  match l with [] => Some s | i :: l => match toggled so sc s i with None => None | Some s => toggling so sc s l end end.

(** A latching valve at one end, whose transit time is not longer than its range, is at the
    other end after an odd number of toggles and at the same end after an even number. *)
Theorem C137_ends : forall so sc l (p : powered R) c,
  Forall fit l -> drives p -> p_latch p = LATCHING -> 1 <= p_cs p -> v_min (p_v p) < v_max (p_v p) ->
  (v_pos (p_v p) = v_min (p_v p) \/ v_pos (p_v p) = v_max (p_v p)) ->
  (p_eot p = true -> so (v_min (p_v p)) = false /\ sc (v_max (p_v p)) = false) ->
  exists q d, toggling so sc (p, c) l = Some (q, d) /\ sampling c l = Some d /\
    let n := rises (negb (t_armed c)) (seen (flat_map flags l)) in
    v_pos (p_v q) = if Nat.even n then v_pos (p_v p) else v_min (p_v p) + v_max (p_v p) - v_pos (p_v p).
Proof.
  intros so sc. induction l as [|s l IH]; intros p c F D LA CS L E ES; cbv zeta.
  { exists p, c. repeat split. }
  inversion F as [|? ? F1 F3]; subst. assert (F1' := F1). destruct F1' as [DT _].
  assert (F1s : Forall fit [s]) by (constructor; [exact F1|constructor]).
  destruct (C137_count [s] c F1s) as (d & S & N & A). cbn [sampling] in S. destruct (sampled c s) as [d'|] eqn:SS; [|discriminate]. injection S as ->.
  cbn [flat_map] in N, A. rewrite app_nil_r in N, A. set (n1 := rises (negb (t_armed c)) (seen (flags s))) in *.
  assert (TT : t_tog d = Nat.odd n1 /\ (t_tog d = true -> t_en d = true)).
  { unfold n1. clear - SS DT. unfold sampled, tcmd_update, flags in *. rnum. rewrite (Rltb_true Reps) in SS by exact DT.
    destruct (s_qt s) as [|t qt] eqn:Q.
    - unfold write, seen in *. cbn [t_armed t_tog t_en t_count] in SS. destruct (t_armed c), (s_tog s), (s_en s); cbn in SS; injection SS as <-; cbn; split; (reflexivity || discriminate || auto).
    - destruct (Nat.ltb _ _); [discriminate|]. rewrite queue_rises in SS. cbn [write t_armed] in SS. injection SS as <-. cbn [t_tog t_en].
      split; [|intros ->; reflexivity]. set (k := rises _ _). clearbody k.
      destruct (Nat.Even_or_Odd k) as [[m ->]|[m ->]].
      + rewrite Nat.odd_mul. cbn [Nat.odd Nat.even negb andb]. apply Z.eqb_neq. replace (Z.of_nat (2 * m)) with (0 + Z.of_nat m * 2)%Z by lia. rewrite Z.mod_add by lia. cbn. lia.
      + replace (Z.of_nat (2 * m + 1)) with (1 + Z.of_nat m * 2)%Z by lia. rewrite Z.mod_add by lia. rewrite Nat.odd_add, Nat.odd_mul. reflexivity. }
  destruct TT as [T1 T2].
  set (x := v_pos (p_v p)) in *. set (lo := v_min (p_v p)) in *. set (hi := v_max (p_v p)) in *.
  set (q := powered_cmd p true (t_en d) (toggle_cmd p (t_tog d) (so x) (sc x) (s_dt s)) (s_dt s)).
  assert (TG : toggled so sc (p, c) s = Some (q, d)).
  { unfold toggled, toggle_update. cbn [fst snd]. fold (sampled c s). rewrite SS. reflexivity. }
  assert (K : kept p q) by apply kept_cmd. destruct K as (K1 & K2 & K3 & K4 & K5 & K6). fold lo in K1. fold hi in K2.
  assert (INS : inside p) by (unfold inside; fold x lo hi; destruct E as [-> | ->]; lra).
  assert (MID : mid p = (lo + hi) / 2) by (unfold mid; rnum; unfold Rdec; cbn; fold lo hi; lra).
  assert (EP := Reps_pos).
  assert (PQ : v_pos (p_v q) = if Nat.odd n1 then lo + hi - x else x).
  { destruct (t_tog d) eqn:TD.
    - rewrite <- T1. unfold q. rewrite (T2 eq_refl). rewrite (cmd_pos p _ _ D INS). fold x lo hi.
      assert (CM : toggle_cmd p true (so x) (sc x) (s_dt s) = if Rlt_dec x ((lo + hi) / 2) then (hi - lo) / s_dt s else (lo - hi) / s_dt s).
      { unfold toggle_cmd. rewrite MID. fold x lo hi. rnum. rewrite (Rltb_true Reps) by exact DT. cbn [andb]. unfold Rltb, Rleb.
        destruct (p_eot p) eqn:EO.
        - destruct (ES eq_refl) as [E1 E2]. destruct E as [-> | ->].
          + rewrite E1. destruct (Rlt_dec lo _); [reflexivity|lra].
          + rewrite E2. destruct (Rlt_dec hi _); [lra|]. destruct (Rle_dec _ hi); [reflexivity|lra].
        - destruct (Rlt_dec x _); reflexivity. }
      rewrite CM. assert (ZZ : forall a, a / s_dt s * p_cs p * s_dt s = a * p_cs p) by (intro a; field; lra).
      assert (G : (hi - lo) <= (hi - lo) * p_cs p) by nra. set (g := (hi - lo) * p_cs p) in *.
      destruct E as [-> | ->].
      + destruct (Rlt_dec _ _); [|lra]. rewrite ZZ. fold g. clearbody g. unfold within, Rmin, Rmax. destruct (Rle_dec _ hi), (Rle_dec lo _); lra.
      + destruct (Rlt_dec _ _); [lra|]. rewrite ZZ. replace ((lo - hi) * p_cs p) with (- g) by (unfold g; ring). clearbody g. unfold within, Rmin, Rmax. destruct (Rle_dec _ hi), (Rle_dec lo _); lra.
    - rewrite <- T1. unfold q. cbn [toggle_cmd andb].
      assert (W : within lo x hi = x) by (unfold within, Rmin, Rmax; destruct E as [-> | ->]; destruct (Rle_dec _ _), (Rle_dec _ _); lra).
      destruct (t_en d).
      + rewrite (cmd_pos p _ _ D INS). fold x lo hi. rnum. unfold toggle_cmd. cbn [andb]. rnum. rewrite !Rmult_0_l, Rplus_0_r. exact W.
      + destruct (C135_position (mkpowered (p_v p) (p_mgood p) (p_mpfail p) (p_mdstuck p) (p_mdfail p)
          (p_mdfailv p) (p_cs p) (p_hold p) (p_move p) (p_stuckp p) (p_holdr p) (p_mover p) (p_stuckr p)
          (p_eot p) (p_latch p) true false (toggle_cmd p false (so x) (sc x) (s_dt s)) (p_power p) (p_res p)) (s_dt s)) as (_ & _ & _ & PP & _).
        { cbn [p_v]. fold lo hi. lra. }
        destruct D as (DF & D1 & D2 & D3). destruct (PP DF) as (_ & _ & P3 & _). cbn [p_v p_mdstuck p_mdfail p_latch p_en] in P3.
        specialize (P3 D2 D3). rewrite andb_false_r in P3. specialize (P3 eq_refl). etransitivity; [exact P3|]. rewrite LA. exact W. }
  destruct (IH q d F3 (K6 D)) as (r & e & T & SE & PE).
  { now rewrite K4. } { now rewrite K3. } { now rewrite K1, K2. }
  { rewrite K1, K2, PQ. destruct (Nat.odd n1), E as [-> | ->]; lra. }
  { rewrite K5, K1, K2. exact ES. }
  exists r, e. cbn [toggling sampling]. rewrite TG, SS. split; [exact T|]. split; [exact SE|].
  cbv zeta in PE. rewrite PE. clear PE. cbn [flat_map]. rewrite seen_app, rises_app, Nat.even_add. fold n1. rewrite A, negb_involutive.
  unfold last_seen. set (n2 := rises _ (seen (flat_map flags l))). rewrite PQ, K1, K2. unfold Nat.odd. destruct (Nat.even n1), (Nat.even n2); cbn [negb Bool.eqb]; lra.
Qed.
Print Assumptions C137_ends.

(** With a transit time longer than its range the valve stops half way, and a second toggle
    does not bring it back. *)
Definition slow_cfg : pcfg R := mkpcfg (mkvcfg 0 1 0 1) 4 1 1 1 1 1 false LATCHING.
Definition slow_inp : pinp R := mkpinp (mkvinp 0 false 0) true true 0.
Definition samples2 : list sample := [mksample true true [] [] 1; mksample true false [] [] 1; mksample true true [] [] 1].
Theorem C137_slow_refuted : exists (p : powered R),
  powered_init slow_cfg slow_inp true = Some p /\ drives p /\ p_latch p = LATCHING /\ v_pos (p_v p) = v_min (p_v p) /\ Forall fit samples2 /\
  (exists q d, toggling (fun _ => false) (fun _ => false) (p, mktcmd true false true 0) (firstn 1 samples2) = Some (q, d) /\
     t_count d = 1%Z /\ v_pos (p_v q) = / 4) /\
  (exists q d, toggling (fun _ => false) (fun _ => false) (p, mktcmd true false true 0) samples2 = Some (q, d) /\
     t_count d = 2%Z /\ v_pos (p_v q) = / 2).
Proof.
  assert (EP := Reps_small). assert (EP' := Reps_pos).
  assert (H : exists p, powered_init slow_cfg slow_inp true = Some p).
  { unfold powered_init. assert (V : exists v, valve_init (pc_v slow_cfg) (pi_v slow_inp) true = Some v).
    { apply C134_accepted. cbn. split; [reflexivity|]. split; [lra|]. split; [lra|discriminate]. }
    destruct V as [v ->]. assert (P : powered_valid slow_cfg = true).
    { unfold powered_valid, is_in_range, slow_cfg. cbn [pc_transit pc_ref pc_hold pc_stuck pc_move]. rnum. rewrite (Rltb_false 4), (Rltb_false 1), (Rleb_false 1) by lra. rewrite andb_false_r. reflexivity. }
    rewrite P. eexists. reflexivity. }
  destruct H as [p H]. exists p. destruct (C136_initialized _ _ _ _ H) as (C & _ & _ & _ & _ & EO & LA & K1 & K2 & I & D & PS).
  specialize (D eq_refl). specialize (PS eq_refl eq_refl eq_refl). cbn in C, EO, LA, K1, K2, PS.
  replace ((1 - 0) / (1 * 4)) with (/ 4) in C by field.
  split; [exact H|]. split; [exact D|]. split; [exact LA|]. split; [lra|].
  split. { unfold samples2. repeat (constructor; [split; cbn; [lra|lia]|]). constructor. }
  clear H.
  assert (ST : forall q d en tog, drives q -> inside q -> p_eot q = false -> v_min (p_v q) = 0 -> v_max (p_v q) = 1 -> p_cs q = / 4 ->
    0 <= v_pos (p_v q) < / 2 -> en = true ->
    exists r e, toggled (fun _ => false) (fun _ => false) (q, d) (mksample en tog [] [] 1) = Some (r, e) /\ kept q r /\ inside r /\
      t_armed e = negb tog /\ t_count e = (t_count d + if t_armed d && tog then 1 else 0)%Z /\
      v_pos (p_v r) = v_pos (p_v q) + if t_armed d && tog then / 4 else 0).
  { intros q d en tog DQ IQ EQ L1 L2 CQ PQ ->. unfold toggled, toggle_update. cbn [fst snd s_qe s_qt s_dt].
    assert (TC : tcmd_update (write d (mksample true tog [] [] 1)) 1 [] [] = Some (mktcmd true (t_armed d && tog) (negb tog) (t_count d + if t_armed d && tog then 1 else 0)%Z)).
    { unfold tcmd_update. rnum. rewrite (Rltb_true Reps 1) by lra. unfold write. cbn [t_armed t_tog t_en t_count s_en s_tog].
      destruct (t_armed d), tog; cbn; rewrite ?Z.add_0_r; reflexivity. }
    rewrite TC. cbn [t_en t_tog]. do 2 eexists. split; [reflexivity|]. split; [apply kept_cmd|]. split; [now apply inside_cmd|].
    split; [reflexivity|]. split; [reflexivity|]. rewrite (cmd_pos q _ _ DQ IQ), L1, L2, CQ.
    unfold toggle_cmd. destruct (t_armed d && tog); cbn [andb].
    - unfold mid. rewrite EQ, L1, L2. rnum. rewrite (Rltb_true Reps 1) by lra. rewrite Rltb_true by (unfold Rdec; cbn; lra).
      unfold within, Rmin, Rmax. destruct (Rle_dec _ 1), (Rle_dec 0 _); lra.
    - rnum. unfold within, Rmin, Rmax. destruct (Rle_dec _ 1), (Rle_dec 0 _); lra. }
  unfold samples2. cbn [firstn toggling].
  destruct (ST p (mktcmd true false true 0) true true D I EO K1 K2 C ltac:(lra) eq_refl) as (r & e & T & (A1 & A2 & A3 & A4 & A5 & A6) & IR & AR & AC & AP).
  cbn [t_armed t_count andb] in AC, AP. rewrite PS in AP. rewrite T. split.
  { exists r, e. split; [reflexivity|]. split; [exact AC|lra]. }
  destruct (ST r e true false (A6 D) IR ltac:(congruence) ltac:(congruence) ltac:(congruence) ltac:(congruence) ltac:(lra) eq_refl) as (r2 & e2 & T2 & (B1 & B2 & B3 & B4 & B5 & B6) & IR2 & AR2 & AC2 & AP2).
  rewrite T2. rewrite andb_false_r in AC2, AP2.
  destruct (ST r2 e2 true true (B6 (A6 D)) IR2 ltac:(congruence) ltac:(congruence) ltac:(congruence) ltac:(congruence) ltac:(lra) eq_refl) as (r3 & e3 & T3 & _ & _ & AR3 & AC3 & AP3).
  rewrite T3. rewrite AR2 in AC3, AP3. cbn [negb andb] in AC3, AP3. exists r3, e3. split; [reflexivity|]. split; [lia|lra].
Qed.
Print Assumptions C137_slow_refuted.

(** The hypotheses of the theorems above hold for this one. *)
Definition fast_cfg (eot : bool) : pcfg R := mkpcfg (mkvcfg 0 1 0 1) 1 1 1 1 1 1 eot LATCHING.
Example ex_C137 : forall eot, exists p, powered_init (fast_cfg eot) slow_inp true = Some p /\
  drives p /\ inside p /\ p_latch p = LATCHING /\ 1 <= p_cs p /\ v_min (p_v p) < v_max (p_v p) /\ v_pos (p_v p) = v_min (p_v p) /\
  exists q d, toggling (fun _ => false) (fun _ => false) (p, mktcmd true false true 0)
     [mksample true true [] [] 1; mksample true true [true; false; true; true] [false; true; false; true] 1;
      mksample false true [] [] 1; mksample true false [] [] 1; mksample true true [] [] 1] = Some (q, d) /\ v_pos (p_v q) = 1 /\ t_count d = 3%Z.
Proof.
  intro eot. assert (EP := Reps_small). assert (EP' := Reps_pos).
  assert (H : exists p, powered_init (fast_cfg eot) slow_inp true = Some p).
  { unfold powered_init. assert (V : exists v, valve_init (pc_v (fast_cfg eot)) (pi_v slow_inp) true = Some v).
    { apply C134_accepted. cbn. split; [reflexivity|]. split; [lra|]. split; [lra|discriminate]. }
    destruct V as [v ->]. assert (P : powered_valid (fast_cfg eot) = true).
    { unfold powered_valid, is_in_range, fast_cfg. cbn [pc_transit pc_ref pc_hold pc_stuck pc_move]. rnum. rewrite (Rltb_false 1), (Rleb_false 1) by lra. rewrite andb_false_r. reflexivity. }
    rewrite P. eexists. reflexivity. }
  destruct H as [p H]. exists p. destruct (C136_initialized _ _ _ _ H) as (C & _ & _ & _ & _ & EO & LA & K1 & K2 & I & D & PS).
  specialize (D eq_refl). specialize (PS eq_refl eq_refl eq_refl). cbn in C, EO, LA, K1, K2, PS.
  split; [exact H|]. split; [exact D|]. split; [exact I|]. split; [exact LA|]. split; [rewrite C; lra|]. split; [lra|]. split; [lra|].
  set (l := [_; _; _; _; _]).
  assert (F : Forall fit l) by (unfold l; repeat (constructor; [split; cbn; [lra|lia]|]); constructor).
  destruct (C137_ends (fun _ => false) (fun _ => false) l p (mktcmd true false true 0) F D LA) as (q & d & T & S & P).
  { rewrite C; lra. } { lra. } { left; lra. } { intros _; split; reflexivity. }
  destruct (C137_count l (mktcmd true false true 0) F) as (d' & S' & N & _).
  rewrite S in S'. injection S' as <-. exists q, d. split; [exact T|]. cbv zeta in P.
  replace (rises _ _) with 3%nat in P, N by reflexivity. split; [|rewrite N; reflexivity]. cbn in P. lra.
Qed.
(** In binary64. *)
Example ex_C136 : exists p : powered float, ex_p false = Some p /\
  v_pos (p_v (position_update p true true (0.01)%float (0.9)%float (0.5)%float 1%float)) = 0.75%float /\
  v_pos (p_v (position_update p true true (0.5)%float (0.9)%float (0.5)%float 1%float)) = 0.5%float.
Proof. eexists. split; [vm_compute; reflexivity|]. split; vm_compute; reflexivity. Qed.
