(** Properties C48, C81, C82 of TsPidController. *)
From Coq Require Import Floats Reals Lra Lia List Arith Bool ZArith.
From Verif Require Import Num Ord MathUtil Props_Math Pid Spec_Interp.
Import ListNotations.
Open Scope R_scope.

(** ** C48, for every ordered number type (reals and binary64) *)
Section C48.
Context {T : Type} {N : Num T} {O : NumOrd T}.

(** The value is between the limits, ends included. *)
Definition within (lo x hi : T) : Prop := (lo <=~ x) = true /\ (x <=~ hi) = true.

(** The time step of a call that is an update. *)
Definition step_of (k : PidCall T) : option T :=
  match k with Update dt | UpdateInput dt _ => Some dt | _ => None end.
(** The call makes the timer reach the interval. *)
Definition fires (c : Pid T) (k : PidCall T) : bool :=
  match step_of k with Some dt => p_interval c <=~ p_timer c +~ dt | None => false end.

(** The configuration is accepted. *)
Definition accepted (c : Pid T) : Prop :=
  (n0 <~ p_interval c) = true /\ (p_low c <~ p_high c) = true.

Lemma init_accepted cfg i c : pid_init cfg i = Some c ->
  accepted c /\ p_low c = pc_low cfg /\ p_high c = pc_high cfg /\ p_interval c = pc_interval cfg /\
  p_output c = pi_output i /\ p_timer c = pi_timer i /\ p_integral c = pi_integral i.
Proof.
  unfold pid_init, pid_valid, accepted.
  destruct (n0 <~ pc_interval cfg) eqn:A, (pc_low cfg <~ pc_high cfg) eqn:B; cbn [andb]; try discriminate.
  intro E. injection E as <-. cbn [p_interval p_low p_high p_output p_timer p_integral]. auto 10.
Qed.

Lemma call_config c k :
  p_low (pid_call c k) = p_low c /\ p_high (pid_call c k) = p_high c /\
  p_interval (pid_call c k) = p_interval c.
Proof.
  destruct k; cbn [pid_call]; auto; unfold pid_update;
    match goal with |- context [if ?b then _ else _] => destruct b end; auto.
Qed.
Lemma call_accepted c k : accepted c -> accepted (pid_call c k).
Proof. unfold accepted. destruct (call_config c k) as (-> & -> & ->). auto. Qed.

(** A call that does not complete an interval leaves the output, the integral, the
    error and the derivative alone. *)
Theorem C48_held : forall (c : Pid T) k, fires c k = false ->
  p_output (pid_call c k) = p_output c /\ p_integral (pid_call c k) = p_integral c /\
  p_error (pid_call c k) = p_error c /\ p_derivative (pid_call c k) = p_derivative c /\
  p_timer (pid_call c k) = match step_of k with Some dt => p_timer c +~ dt | None => p_timer c end.
Proof.
  intros c k. unfold fires. destruct k; cbn [step_of pid_call]; auto 10;
    intro H; unfold pid_update; cbn [pid_set_input p_timer p_interval]; rewrite H, andb_false_r;
    cbn [p_output p_integral p_error p_derivative p_timer pid_set_input]; auto 10.
Qed.

(** A call that completes an interval puts the output between the limits or makes
    it NaN, and starts the next interval at zero. *)
Theorem C48_fired : forall (c : Pid T) k, accepted c -> fires c k = true ->
  (within (p_low c) (p_output (pid_call c k)) (p_high c) \/ nnan (p_output (pid_call c k)) = true) /\
  p_timer (pid_call c k) = n0.
Proof.
  intros c k [I L] F.
  assert (LE : (p_low c <=~ p_high c) = true) by (apply lt_le; auto).
  assert (U : forall dt d, p_interval d = p_interval c -> p_low d = p_low c -> p_high d = p_high c ->
    (p_interval c <=~ p_timer d +~ dt) = true ->
    (within (p_low c) (p_output (pid_update dt d)) (p_high c) \/ nnan (p_output (pid_update dt d)) = true) /\
    p_timer (pid_update dt d) = n0).
  { intros dt d E1 E2 E3 G. unfold pid_update. rewrite E1, E2, E3, I, G. cbn [andb p_output p_timer].
    split; auto. match goal with |- within _ (limit_range _ ?x _) _ \/ _ => destruct (nnan x) eqn:X end.
    - right. now rewrite C36_limit_range_nan.
    - left. now apply C36_limit_range_in_range. }
  unfold fires in F. destruct k; cbn [step_of] in F; try discriminate F; cbn [pid_call]; apply U; auto.
Qed.

(** Over any sequence of calls: once the output is between the limits or NaN it
    stays so, and any completed interval brings it there. *)
Definition good (c : Pid T) : Prop :=
  within (p_low c) (p_output c) (p_high c) \/ nnan (p_output c) = true.
Theorem C48_stays : forall ks (c : Pid T), accepted c -> good c -> good (pid_run c ks).
Proof.
  induction ks as [|k ks IH]; intros c A G; cbn [pid_run fold_left]; auto.
  apply IH; [now apply call_accepted|]. destruct (call_config c k) as (E1 & E2 & _).
  unfold good. rewrite E1, E2. destruct (fires c k) eqn:F.
  - now apply C48_fired.
  - destruct (C48_held c k F) as (-> & _). exact G.
Qed.
Theorem C48_after_first_interval : forall ks k ks' (c : Pid T), accepted c ->
  fires (pid_run c ks) k = true -> good (pid_run c (ks ++ k :: ks')).
Proof.
  intros ks k ks' c A F. unfold pid_run in *. rewrite fold_left_app. cbn [fold_left].
  set (d := fold_left pid_call ks c) in *.
  assert (Ad : accepted d).
  { unfold d. clear - A. revert c A. induction ks as [|x ks IH]; intros c A; cbn [fold_left]; auto.
    apply IH. now apply call_accepted. }
  apply C48_stays; [now apply call_accepted|].
  unfold good. destruct (call_config d k) as (-> & -> & _). now apply C48_fired.
Qed.
End C48.
Print Assumptions C48_held.
Print Assumptions C48_fired.
Print Assumptions C48_stays.
Print Assumptions C48_after_first_interval.

Lemma R_nan0 (x : R) : nnan x = false.
Proof. unfold nnan. rnum. rewrite Reqb_true by reflexivity. reflexivity. Qed.

(** Over exact arithmetic there is no NaN: for every input and time step sequence the
    output is between the configured limits from the first completed interval on. *)
Theorem C48_real : forall (cfg : PidConfig R) i c ks k ks',
  pid_init cfg i = Some c -> fires (pid_run c ks) k = true ->
  pc_low cfg <= p_output (pid_run c (ks ++ k :: ks')) <= pc_high cfg.
Proof.
  intros cfg i c ks k ks' E F. destruct (init_accepted cfg i c E) as (A & L & H & _).
  pose proof (C48_after_first_interval ks k ks' c A F) as G.
  assert (K : forall (ls : list (PidCall R)) d, p_low (pid_run d ls) = p_low d /\ p_high (pid_run d ls) = p_high d).
  { induction ls as [|l ls IH]; intro d; cbn [pid_run fold_left]; auto.
    destruct (IH (pid_call d l)) as [X Y], (call_config d l) as (P & Q & _).
    unfold pid_run in X, Y. now rewrite X, Y, P, Q. }
  unfold good in G. destruct (K (ks ++ k :: ks') c) as [X Y]. rewrite X, Y, L, H in G.
  destruct G as [[G1 G2]|G]; [|rewrite R_nan0 in G; discriminate G].
  rnum. revert G1 G2. rcases; intros; try discriminate; lra.
Qed.
Print Assumptions C48_real.

(** Non-vacuity: a controller that saturates. *)
Definition cfgR := mkPidConfig (T := R) 1 1 0 1 (-1) 1.
Definition inR := mkPidInput (T := R) 1 0 0 0 0.
Example C48_real_nonvacuous : exists c, pid_init cfgR inR = Some c /\ fires c (Update 1) = true /\
  p_output (pid_run c ([] ++ Update 1 :: [Update (1/2)])) = 1.
Proof.
  unfold pid_init, pid_valid, cfgR. cbn [pc_interval pc_low pc_high pc_gain_p pc_gain_i pc_gain_d].
  rnum. rewrite !Rltb_true by lra. cbn [andb]. eexists. split; [reflexivity|]. split.
  - unfold fires. cbn [step_of p_interval p_timer pi_timer inR]. rnum. apply Rleb_true. lra.
  - cbn [app pid_run fold_left pid_call]. unfold pid_update at 2.
    cbn [p_interval p_timer inR pi_timer pi_input pi_setpoint pi_integral pi_output p_input p_setpoint
         p_integral p_output p_error p_derivative p_gain_p p_gain_i p_gain_d p_low p_high].
    rnum. rewrite Rltb_true, Rleb_true by lra. cbn [andb].
    unfold pid_update. cbn [p_interval p_timer p_output]. rnum.
    rewrite Rltb_true, Rleb_false by lra. cbn [andb p_output].
    unfold flush, limit_range, nmax, nmin. rnum. pose proof Reps_small.
    assert (Q : 0 + ((1 - 0) * 1 + (0 + (1 - 0) * (0 + 1)) * 1 + (1 - 0 - (1 - 0)) / (0 + 1) * 0) = 2) by field.
    rewrite Q. rewrite (Rltb_false (Rabs 2)) by (rewrite Rabs_pos_eq; lra).
    rewrite (Rltb_true 1 2) by lra. rewrite Rltb_false by lra. reflexivity.
Qed.

(** binary64: infinite intermediate results of opposite sign make the output NaN
    although every configuration value and input is finite. *)
Definition cfgF := mkPidConfig (T := float) 1e10%float (-1e10)%float 0%float 1%float (-1)%float 1%float.
Definition inF := mkPidInput (T := float) 1e300%float 0%float 0%float 0%float 0%float.
Theorem C48_binary64_refuted :
  exists (cfg : PidConfig float) i c ks k,
    pid_init cfg i = Some c /\ fires (pid_run c ks) k = true /\
    nnan (p_output (pid_run c (ks ++ [k]))) = true.
Proof.
  exists cfgF, inF.
  destruct (pid_init cfgF inF) as [c|] eqn:E; [|vm_compute in E; discriminate E].
  exists c, [], (Update 1%float). vm_compute in E.
  split; [reflexivity|]. injection E as <-. split; vm_compute; reflexivity.
Qed.
Print Assumptions C48_binary64_refuted.

Lemma fadd_nan (x y : float) : nnan x = true -> nnan (x +~ y) = true.
Proof.
  rewrite !fnnan. unfold fnan. cbn [nadd FNum]. rewrite add_spec.
  destruct (Prim2SF x); cbn; try discriminate. auto.
Qed.
(** From then on it is NaN for ever, whatever the inputs. *)
Theorem C48_nan_for_ever : forall ks (c : Pid float),
  nnan (p_output c) = true -> nnan (p_output (pid_run c ks)) = true.
Proof.
  induction ks as [|k ks IH]; intros c H; cbn [pid_run fold_left]; auto.
  apply IH.
  assert (U : forall dt d, nnan (p_output d) = true -> nnan (p_output (pid_update (T := float) dt d)) = true).
  { intros dt d X. unfold pid_update.
    match goal with |- context [if ?b then _ else _] => destruct b end; cbn [p_output]; auto.
    match goal with |- context [flush (p_output d +~ ?y)] =>
      pose proof (fadd_nan (p_output d) y X) as Y; set (z := p_output d +~ y) in * end.
    unfold flush. rewrite ord_nan_lt by (rewrite ord_abs_nan, Y; reflexivity).
    now rewrite C36_limit_range_nan. }
  destruct k; cbn [pid_call]; auto.
Qed.
Print Assumptions C48_nan_for_ever.

(** ** C81: no time is lost and the integral is the sum of error times elapsed time *)

(** The completed intervals of a call sequence, independently of the controller: the
    elapsed time and the error at the end of each. *)
Fixpoint intervals (interval since input setpoint : R) (ks : list (PidCall R)) : list (R * R) :=
  match ks with
  | [] => []
  | SetSetpoint x :: r => intervals interval since input x r
  | SetInput x :: r => intervals interval since x setpoint r
  | Update dt :: r =>
      if Rle_dec interval (since + dt) then
        (since + dt, input - setpoint) :: intervals interval 0 input setpoint r
      else intervals interval (since + dt) input setpoint r
  | UpdateInput dt x :: r =>
      if Rle_dec interval (since + dt) then
        (since + dt, x - setpoint) :: intervals interval 0 x setpoint r
      else intervals interval (since + dt) x setpoint r
  end.
Fixpoint total {A} (f : A -> R) (l : list A) : R :=
  match l with [] => 0 | x :: r => f x + total f r end.
Definition step_time (k : PidCall R) : R :=
  match k with Update dt | UpdateInput dt _ => dt | _ => 0 end.

Lemma flush_near (x : R) : Rabs (flush x - x) <= Reps.
Proof.
  unfold flush. rnum. pose proof Reps_pos. destruct (Rltb_spec (Rabs x) Reps).
  - replace (0 - x) with (- x) by ring. rewrite Rabs_Ropp. lra.
  - replace (x - x) with 0 by ring. rewrite Rabs_R0. lra.
Qed.

Definition done (c : Pid R) ks := intervals (p_interval c) (p_timer c) (p_input c) (p_setpoint c) ks.

Lemma update_cases (dt : R) (c : Pid R) : 0 < p_interval c ->
  if Rle_dec (p_interval c) (p_timer c + dt) then
    p_timer (pid_update dt c) = 0 /\
    p_integral (pid_update dt c) = flush (p_integral c + (p_input c - p_setpoint c) * (p_timer c + dt)) /\
    p_input (pid_update dt c) = p_input c /\ p_setpoint (pid_update dt c) = p_setpoint c /\
    p_interval (pid_update dt c) = p_interval c
  else
    p_timer (pid_update dt c) = p_timer c + dt /\ p_integral (pid_update dt c) = p_integral c /\
    p_input (pid_update dt c) = p_input c /\ p_setpoint (pid_update dt c) = p_setpoint c /\
    p_interval (pid_update dt c) = p_interval c.
Proof.
  intro P. unfold pid_update. rnum. rewrite Rltb_true by lra.
  destruct (Rle_dec (p_interval c) (p_timer c + dt)); cbn [andb].
  - rewrite Rleb_true by lra. cbn [p_timer p_integral p_input p_setpoint p_interval]. auto 10.
  - rewrite Rleb_false by lra. cbn [p_timer p_integral p_input p_setpoint p_interval]. auto 10.
Qed.

Theorem C81_time_and_integral : forall ks (c : Pid R), 0 < p_interval c ->
  total fst (done c ks) + p_timer (pid_run c ks) = p_timer c + total step_time ks /\
  Rabs (p_integral (pid_run c ks) - (p_integral c + total (fun p => snd p * fst p) (done c ks)))
    <= INR (length (done c ks)) * Reps.
Proof.
  induction ks as [|k ks IH]; intros c P.
  - cbn. split; [lra|]. rewrite Rplus_0_r, Rminus_eq_0, Rabs_R0. lra.
  - cbn [pid_run fold_left]. unfold pid_run in IH. unfold done in *.
    assert (U : forall dt d, p_interval d = p_interval c -> 0 < p_interval d ->
      let l := if Rle_dec (p_interval d) (p_timer d + dt) then
            (p_timer d + dt, p_input d - p_setpoint d) :: intervals (p_interval d) 0 (p_input d) (p_setpoint d) ks
          else intervals (p_interval d) (p_timer d + dt) (p_input d) (p_setpoint d) ks in
      total fst l + p_timer (fold_left pid_call ks (pid_update dt d)) = p_timer d + (dt + total step_time ks) /\
      Rabs (p_integral (fold_left pid_call ks (pid_update dt d)) - (p_integral d + total (fun p => snd p * fst p) l))
        <= INR (length l) * Reps).
    { intros dt d E Pd l. pose proof (update_cases dt d Pd) as C. unfold l. clear l.
      assert (P' : 0 < p_interval (pid_update dt d)).
      { destruct (Rle_dec (p_interval d) (p_timer d + dt)); destruct C as (_ & _ & _ & _ & ->); auto. }
      destruct (IH (pid_update dt d) P') as [I1 I2].
      destruct (Rle_dec (p_interval d) (p_timer d + dt)); destruct C as (C1 & C2 & C3 & C4 & C5);
        rewrite C1, C3, C4, C5 in I1, I2; rewrite C2 in I2.
      - cbn [total fst snd length]. split; [lra|]. rewrite S_INR.
        pose proof (flush_near (p_integral d + (p_input d - p_setpoint d) * (p_timer d + dt))) as B.
        revert I2 B. set (g := flush _). set (t := total _ _). set (q := p_integral (fold_left _ _ _)).
        set (n := INR _). set (z := (p_input d - p_setpoint d) * (p_timer d + dt)). intros I2 B.
        replace (q - (p_integral d + (z + t))) with ((q - (g + t)) + (g - (p_integral d + z))) by ring.
        eapply Rle_trans; [apply Rabs_triang|]. lra.
      - split; [lra|]. auto. }
    destruct k as [x|x|dt|dt x]; cbn [pid_call intervals total step_time].
    + destruct (IH (pid_set_setpoint x c) P) as [I1 I2]. cbn [pid_set_setpoint p_interval p_timer p_input p_setpoint p_integral] in *.
      split; [lra|auto].
    + destruct (IH (pid_set_input x c) P) as [I1 I2]. cbn [pid_set_input p_interval p_timer p_input p_setpoint p_integral] in *.
      split; [lra|auto].
    + apply (U dt c eq_refl P).
    + apply (U dt (pid_set_input x c) eq_refl P).
Qed.
Print Assumptions C81_time_and_integral.

(** The control law: at the end of an interval the output is, to within the flush
    threshold, the old output plus the three weighted terms, limited. *)
Lemma clip_lip lo hi x y : Rabs (clip lo x hi - clip lo y hi) <= Rabs (x - y).
Proof.
  unfold clip, Rmax, Rmin.
  repeat destruct (Rle_dec _ _); unfold Rabs; repeat destruct (Rcase_abs _); lra.
Qed.
Theorem C81_control_law : forall (c : Pid R) dt, accepted c -> p_interval c <= p_timer c + dt ->
  let tau := p_timer c + dt in
  let e := p_input c - p_setpoint c in
  Rabs (p_output (pid_update dt c) -
    clip (p_low c) (p_output c + p_gain_p c * e + p_gain_i c * (p_integral c + e * tau)
                      + p_gain_d c * ((e - p_error c) / tau)) (p_high c)) <= Reps.
Proof.
  intros c dt [A L] F tau e. unfold pid_update. rewrite A. rnum. rewrite Rleb_true by lra.
  cbn [andb p_output]. fold tau e.
  assert (EL : forall lo x hi : R, limit_range lo x hi = clip lo x hi).
  { intros. unfold limit_range, clip, nmax, nmin, Rmax, Rmin. rnum.
    repeat destruct (Rle_dec _ _); rcases; try lra. }
  rewrite EL. eapply Rle_trans; [apply clip_lip|].
  match goal with |- Rabs (flush ?a - ?b) <= _ => replace b with a by ring end. apply flush_near.
Qed.
Print Assumptions C81_control_law.
Example C81_nonvacuous : accepted (T := R) (mkPid 1 1 1 1 (-1) 1 1 0 0 0 0 0 0) /\
  length (done (mkPid 1 1 1 1 (-1) 1 1 0 0 0 0 0 0) [Update (1/2); SetInput 2; Update (3/4); Update 1]) = 2%nat.
Proof.
  split; [unfold accepted; cbn [p_interval p_low p_high]; rnum; split; apply Rltb_true; lra|].
  unfold done. cbn [p_interval p_timer p_input p_setpoint intervals].
  repeat match goal with |- context [Rle_dec ?a ?b] => destruct (Rle_dec a b); try lra end. reflexivity.
Qed.

(** ** C82: limiting the output does not limit the integral *)
Definition wind (x q : R) := mkPid (T := R) 1 1 0 1 (-1) 1 1 0 0 q x 1 0.
Lemma wind_step n : pid_update 1 (wind 1 (INR n)) = wind 1 (INR (S n)).
Proof.
  unfold pid_update, wind. cbn [p_interval p_timer p_input p_setpoint
         p_integral p_output p_error p_derivative p_gain_p p_gain_i p_gain_d p_low p_high].
  rnum. rewrite Rltb_true, Rleb_true by lra. cbn [andb]. rewrite S_INR.
  pose proof (pos_INR n). pose proof Reps_small.
  replace (1 - 0) with 1 by ring. replace (INR n + 1 * (0 + 1)) with (INR n + 1) by ring.
  replace (1 - 1) with 0 by ring.
  unfold flush, limit_range, nmax, nmin. rnum.
  rewrite (Rltb_false (Rabs (INR n + 1))) by (rewrite Rabs_pos_eq; lra).
  assert (Q : 1 + (1 * 1 + (INR n + 1) * 1 + 0 / (0 + 1) * 0) = INR n + 3) by field.
  rewrite Q. rewrite (Rltb_false (Rabs (INR n + 3))) by (rewrite Rabs_pos_eq; lra).
  rewrite (Rltb_true 1 (INR n + 3)) by lra. rewrite Rltb_false by lra.
  f_equal; field.
Qed.
Theorem C82_refuted : forall B : R, exists (c : Pid R) n,
  accepted c /\ p_integral c = 0 /\
  (forall m, (m <= n)%nat -> p_output (pid_run c (repeat (Update 1) m)) = p_high c) /\
  B < p_integral (pid_run c (repeat (Update 1) n)).
Proof.
  intro B.
  assert (K : forall n k, pid_run (wind 1 (INR k)) (repeat (Update 1) n) = wind 1 (INR (k + n))).
  { induction n as [|n IH]; intro k; cbn [repeat pid_run fold_left].
    - now rewrite Nat.add_0_r.
    - cbn [pid_call]. rewrite wind_step. unfold pid_run in IH. rewrite IH. f_equal. f_equal. lia. }
  set (n := Z.to_nat (up (Rmax B 0))).
  exists (wind 1 (INR 0)), n. split; [|split; [reflexivity|split]].
  - unfold accepted, wind. cbn [p_interval p_low p_high]. rnum. split; apply Rltb_true; lra.
  - intros m _. rewrite K. reflexivity.
  - rewrite K. cbn [wind p_integral]. cbn [plus]. unfold n. destruct (archimed (Rmax B 0)) as [U _].
    pose proof (Rmax_l B 0). pose proof (Rmax_r B 0).
    rewrite INR_IZR_INZ, Z2Nat.id; [lra|]. apply le_IZR. lra.
Qed.
Print Assumptions C82_refuted.
