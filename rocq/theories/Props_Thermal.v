(** C138-C141: heat balances of the thermal links. *)
From Coq Require Import Floats.
From Coq Require Import Reals Lra Lia List Arith Bool ZArith.
From Verif Require Import Num Ord Loops MathUtil Props_Math BasicLinks Thermal Spec_Valve Props_Valve.
Import ListNotations.
Local Open Scope R_scope.

(** The sum of a list, from its front. *)
Definition total (l : list R) : R := fold_right Rplus 0 l.
Lemma sum_total (l : list R) : sum l = total l.
Proof.
  unfold sum. assert (G : forall a, fold_left nadd l a = a + total l).
  { induction l as [|x l IH]; intro a; cbn [fold_left total fold_right]; [lra|]. rewrite IH. rnum. fold (total l). lra. }
  rewrite G. rnum. lra.
Qed.
Lemma nmaxR (a b : R) : nmax a b = Rmax a b.
Proof. unfold nmax, Rmax. rnum. destruct (Rltb_spec a b), (Rle_dec a b); lra. Qed.
Lemma nminR (a b : R) : nmin a b = Rmin a b.
Proof. unfold nmin, Rmin. rnum. destruct (Rltb_spec b a), (Rle_dec a b); lra. Qed.

(** ** C138 *)
(** One step of a capacitor: what it takes from the network plus what the external fluxes bring
    heats it, whatever solution the network finds. *)
Theorem C138_heat : forall (b : @base R) dt cap ext t0 t1, Reps <= dt -> Reps < cap ->
  let s := cap_flows (with_pot (tcap_step dt cap false ext b) t0 t1) in
  cap * ((t0 - t1) - (b_p0 b - b_p1 b)) = (b_flux s + total ext) * dt /\
  (b_flux s = 0 -> t0 - t1 = b_p0 b - b_p1 b + total ext * dt / cap).
Proof.
  intros b dt cap ext t0 t1 D C. cbv zeta. assert (EP := Reps_pos).
  assert (E : cap * ((t0 - t1) - (b_p0 b - b_p1 b)) = (b_flux (cap_flows (with_pot (tcap_step dt cap false ext b) t0 t1)) + total ext) * dt).
  { unfold cap_flows, tcap_step, tcap_update. rnum. rewrite (Rltb_true Reps cap) by exact C. cbn [andb negb].
    unfold build_capacitance. rnum. rewrite (Rltb_false dt) by exact D.
    unfold set_adm. rnum. rewrite sum_total. cbn [with_pot b_p0 b_p1 b_a0].
    destruct (Rltb_spec 0 (Rabs (b_a0 b - cap / dt))) as [A|A]; cbn [with_pot with_src with_flux with_drop compute_power with_power flux_src delta b_flux b_p0 b_p1 b_a0 b_w0 b_drop]; unfold flux_src, delta; cbn [with_pot with_src with_flux with_drop b_drop b_a0 b_w0 b_p0 b_p1]; rnum.
    - field. lra.
    - assert (AE : b_a0 b = cap / dt).
      { assert (Z := Rabs_pos (b_a0 b - cap / dt)). assert (ZZ : Rabs (b_a0 b - cap / dt) = 0) by lra.
        apply Rminus_diag_uniq. destruct (Req_dec (b_a0 b - cap / dt) 0) as [H|H]; [exact H|]. apply Rabs_no_R0 in H. lra. }
      rewrite AE. field. lra. }
  split; [exact E|]. intro F. rewrite F, Rplus_0_l in E.
  replace (total ext * dt) with (cap * (t0 - t1 - (b_p0 b - b_p1 b))) by (rewrite E; ring). field. lra.
Qed.
Print Assumptions C138_heat.
(** With an overridden temperature the external fluxes do not count. *)
Theorem C138_override : forall (b : @base R) dt cap ext ext', tcap_step dt cap true ext b = tcap_step dt cap true ext' b.
Proof. intros. unfold tcap_step, tcap_update. rewrite !andb_false_r. reflexivity. Qed.

(** Queued heat fluxes: each queue with values sets its flux to their mean, so that it brings the
    heat of the values taken one after another in equal parts of the step. *)
Definition mean (l : list R) : R := total l / INR (length l).
Lemma upd_len (l : list R) i x : length (upd l i x) = length l.
Proof. revert i. induction l as [|y l IH]; intros [|i]; cbn; [reflexivity|reflexivity|reflexivity|now rewrite IH]. Qed.
Lemma upd_nth (l : list R) i x j : (i < length l)%nat -> nth j (upd l i x) 0 = if Nat.eqb j i then x else nth j l 0.
Proof.
  revert i j. induction l as [|y l IH]; intros [|i] [|j] H; cbn in *; try lia; try reflexivity.
  apply IH. lia.
Qed.
Lemma dec_nat n : ndec (Z.of_nat n) 0 = INR n.
Proof. rnum. unfold Rdec. cbn. rewrite INR_IZR_INZ. lra. Qed.
Theorem C138_queues : forall (queues : list (list R)) ext, (length queues <= num_ext)%nat -> length ext = num_ext ->
  exists ext', queues_step 0 queues ext = Some ext' /\ length ext' = num_ext /\
  forall i, (i < num_ext)%nat -> nth i ext' 0 = match nth i queues [] with [] => nth i ext 0 | q => mean q end.
Proof.
  assert (G : forall queues i ext, (i + length queues <= num_ext)%nat -> length ext = num_ext ->
    exists ext', queues_step i queues ext = Some ext' /\ length ext' = num_ext /\
    forall j, (j < num_ext)%nat -> nth j ext' 0 = if Nat.ltb j i then nth j ext 0 else match nth (j - i) queues [] with [] => nth j ext 0 | q => mean q end).
  { induction queues as [|q queues IH]; intros i ext L E.
    - exists ext. split; [reflexivity|]. split; [exact E|]. intros j _. destruct (Nat.ltb j i); [reflexivity|]. destruct (j - i)%nat; reflexivity.
    - cbn [length] in L. cbn [queues_step]. destruct q as [|a q].
      + destruct (IH (S i) ext ltac:(lia) E) as (e & E1 & E2 & E3). exists e. split; [exact E1|]. split; [exact E2|].
        intros j J. rewrite (E3 j J). destruct (Nat.ltb_spec j (S i)) as [A|A], (Nat.ltb_spec j i) as [B|B]; try lia; try reflexivity.
        * replace (j - i)%nat with 0%nat by lia. reflexivity.
        * replace (j - i)%nat with (S (j - S i)) by lia. reflexivity.
      + unfold set_ext. destruct (Nat.ltb_spec i num_ext) as [I|I]; [|unfold num_ext in *; lia].
        destruct (IH (S i) (upd ext i (sum (a :: q) /~ ndec (Z.of_nat (length (a :: q))) 0)) ltac:(lia) ltac:(rewrite upd_len; exact E)) as (e & E1 & E2 & E3).
        exists e. split; [exact E1|]. split; [exact E2|]. intros j J. rewrite (E3 j J). rewrite !upd_nth by lia.
        rewrite sum_total, dec_nat. change (total (a :: q) /~ INR (length (a :: q))) with (mean (a :: q)).
        destruct (Nat.ltb_spec j (S i)) as [A|A], (Nat.ltb_spec j i) as [B|B]; try lia.
        * destruct (Nat.eqb_spec j i); [lia|reflexivity].
        * replace (j - i)%nat with 0%nat by lia. destruct (Nat.eqb_spec j i); [reflexivity|lia].
        * replace (j - i)%nat with (S (j - S i)) by lia. destruct (Nat.eqb_spec j i); [lia|reflexivity]. }
  intros queues ext L E. destruct (G queues 0%nat ext L E) as (e & E1 & E2 & E3). exists e. split; [exact E1|]. split; [exact E2|].
  intros i I. rewrite (E3 i I). cbn [Nat.ltb Nat.leb]. rewrite Nat.sub_0_r. reflexivity.
Qed.
Print Assumptions C138_queues.
(** The heat of the queued values. *)
Theorem C138_queue_heat : forall l dt, l <> [] -> mean l * dt = total (map (fun x => x * (dt / INR (length l))) l).
Proof.
  intros l dt H. unfold mean. assert (L : INR (length l) <> 0) by (apply not_0_INR; destruct l; [congruence|discriminate]).
  set (n := INR (length l)) in *. clearbody n. replace (total l / n * dt) with (total l * (dt / n)) by (field; exact L). clear L.
  induction l as [|x l IH]; [congruence|]. cbn [total fold_right map]. fold (total l). destruct l as [|y l]; [cbn; ring|].
  rewrite Rmult_plus_distr_r, IH by discriminate. reflexivity.
Qed.
Example ex_C138 : exists b : @base float, let s := tcap_step 1%float 4%float false [8%float; 4%float] b in
  (b_p0 b, b_p0 s, b_a0 s) = (300%float, 303%float, 4%float).
Proof. exists (mkbase 300 0 0 0 0 0 0 0 false 0 0 0 false 0)%float. vm_compute. reflexivity. Qed.

(** ** C139 *)
(** A battery in working order. *)
Definition sound (k : @pcb R) : Prop :=
  Reps <= k_heat k /\ 0 < k_hot k /\ 0 < k_cold k /\ 0 < k_str k /\ 3 * Reps <= k_mass k /\ 0 <= k_frac k <= 1.
Lemma dec_kilo : (kilo : R) = 1000. Proof. unfold kilo. rnum. unfold Rdec. cbn. lra. Qed.
Lemma dec_milli : (milli : R) = / 1000. Proof. unfold milli. rnum. unfold Rdec. cbn. lra. Qed.
Lemma dec_ideal : (ideal_admittance : R) = 1000000. Proof. unfold ideal_admittance. rnum. unfold Rdec. cbn. lra. Qed.
Lemma clamp_frac (x : R) : 0 <= x <= 1 -> limit_range n0 x n1 = x.
Proof. intro H. rnum. rewrite limit_within by lra. unfold within, Rmin, Rmax. destruct (Rle_dec x 1), (Rle_dec _ _); lra. Qed.
Lemma clamp01 (x : R) : 0 <= x <= 1 -> limit_range 0 x 1 = x.
Proof. exact (clamp_frac x). Qed.
(** What the fraction is without a leak. *)
Definition unleaking (k : @pcb R) : @pcb R :=
  mkpcb (k_tpc k) (k_heat k) (k_hot k) (k_cold k) (k_str k) (k_mass k) (k_t k) (k_frac k) false (k_rate k) (k_actual k) (k_ext k) (k_adm k) (k_src k) (k_power k).

Lemma flows_eq dt t (k : @pcb R) : sound k -> 
  let k' := mkpcb (k_tpc k) (k_heat k) (k_hot k) (k_cold k) (k_str k) (k_mass k) t
                 (k_frac k) (k_leak k) (Rmax 0 (k_rate k)) (k_actual k) (k_ext k) (k_adm k) (k_src k) (t * k_adm k - k_src k + k_ext k) in
  let '(mass, frac, actual) := mass_leak dt (k_leak k) (Rmax 0 (k_rate k)) (k_mass k) (phase_fraction dt k') in
  pcb_flows dt t k = mkpcb (k_tpc k) (k_heat k) (k_hot k) (k_cold k) (k_str k) mass t
        (limit_range n0 frac n1) (k_leak k) (Rmax 0 (k_rate k)) actual (k_ext k) (k_adm k) (k_src k) (t * k_adm k - k_src k + k_ext k).
Proof.
  intros (S1 & S2 & S3 & S4 & S5 & S6). assert (EP := Reps_pos). unfold pcb_flows, pcb_flux.
  cbn [k_tpc k_heat k_hot k_cold k_str k_mass k_t k_frac k_leak k_rate k_actual k_ext k_adm k_src k_power].
  rewrite !nmaxR. rnum. rewrite (Rmax_left (k_heat k)) by exact S1.
  rewrite (Rmax_left (k_mass k)) by (unfold Rdec; cbn; lra).
  destruct (mass_leak _ _ _ _ _) as [[m f] a]. reflexivity.
Qed.
Lemma unleaking_sound k : sound k -> sound (unleaking k). Proof. exact (fun H => H). Qed.

(** Of one phase that stays: all heat goes into its temperature. *)
Theorem C139_single_phase : forall dt ext (k : @pcb R) t,
  sound k -> Reps <= dt -> k_leak k = false ->
  (k_frac k = 0 /\ t <= k_tpc k) \/ (k_frac k = 1 /\ k_tpc k <= t) ->
  let s := pcb_step dt false ext k in
  let w := pcb_flows dt t s in
  let capacity := k_str k + 1000 * k_mass k * (if Req_EM_T (k_frac k) 0 then k_cold k else k_hot k) in
  capacity * (t - k_t k) = (pcb_flux s t + total ext) * dt /\ k_power w = pcb_flux s t + total ext /\
  k_t w = t /\ k_frac w = k_frac k /\ k_mass w = k_mass k.
Proof.
  intros dt ext k t S D L P. cbv zeta. assert (EP := Reps_pos). assert (S' := S). destruct S' as (S1 & S2 & S3 & S4 & S5 & S6).
  set (c := if Req_EM_T (k_frac k) 0 then k_cold k else k_hot k).
  assert (CP : 0 < c) by (unfold c; destruct (Req_EM_T _ _); assumption).
  assert (MC : 0 < 1000 * k_mass k * c) by (apply Rmult_lt_0_compat; lra).
  assert (CE : forall q, k_frac q = k_frac k -> k_str q = k_str k -> k_mass q = k_mass k -> k_cold q = k_cold k -> k_hot q = k_hot k -> pcb_capacitance q = k_str k + 1000 * k_mass k * c).
  { intros q Q1 Q2 Q3 Q4 Q5. unfold pcb_capacitance. rewrite dec_kilo. rnum. rewrite Q1, Q2, Q3, Q4, Q5. unfold c.
    destruct P as [[-> _]|[-> _]].
    - rewrite Reqb_true by reflexivity. destruct (Req_EM_T 0 0); [ring|lra].
    - destruct (Reqb_spec 0 1); [lra|]. rewrite Reqb_true by reflexivity. destruct (Req_EM_T 1 0); [lra|ring]. }
  set (s := pcb_step dt false ext k).
  assert (SE : s = mkpcb (k_tpc k) (k_heat k) (k_hot k) (k_cold k) (k_str k) (k_mass k)
     (k_t k + total ext * dt / (k_str k + 1000 * k_mass k * c)) (k_frac k) false (k_rate k) (k_actual k) (total ext)
     ((k_str k + 1000 * k_mass k * c) / dt) ((k_t k + total ext * dt / (k_str k + 1000 * k_mass k * c)) * ((k_str k + 1000 * k_mass k * c) / dt)) (k_power k)).
  { unfold s, pcb_step. cbn [k_tpc k_heat k_hot k_cold k_str k_mass k_t k_frac k_leak k_rate k_actual k_ext k_adm k_src k_power].
    rewrite CE by (try reflexivity; apply clamp_frac; exact S6). rewrite clamp_frac by exact S6. rewrite nmaxR, sum_total. rnum. rewrite (Rltb_true (k_str k)) by lra.
    rewrite Rmax_left by lra. rewrite L. reflexivity. }
  assert (FX : pcb_flux s t = (t - k_t k) * ((k_str k + 1000 * k_mass k * c) / dt) - total ext).
  { unfold pcb_flux. rewrite SE. cbn [k_adm k_src]. rnum. field. lra. }
  assert (SS : sound s) by (rewrite SE; exact S).
  assert (W := flows_eq dt t s SS). cbv zeta in W. replace (k_leak s) with false in W by (rewrite SE; reflexivity).
  unfold mass_leak in W. cbn [andb] in W.
  set (s' := phase_fraction dt _) in W.
  assert (PF : s' = k_frac k).
  { unfold s', phase_fraction. rewrite SE. cbn [k_tpc k_heat k_hot k_cold k_str k_mass k_t k_frac k_leak k_rate k_actual k_ext k_adm k_src k_power]. rnum. cbn [k_tpc k_heat k_hot k_cold k_str k_mass k_t k_frac]. destruct P as [[-> P]|[-> P]].
    - rewrite Reqb_true by reflexivity. rewrite (Rltb_false (k_tpc k)) by exact P. destruct (Reqb_spec 1 0); [lra|]. rewrite (Rltb_false 0 0) by lra. reflexivity.
    - rewrite (Reqb_true 1 1) by reflexivity. rewrite (Rltb_false t) by exact P. destruct (Reqb_spec 0 1); [lra|]. rewrite (Rltb_false 1 1) by lra. rewrite (Rltb_true 0 1) by lra. reflexivity. }
  rewrite PF, clamp_frac in W by exact S6. rewrite W. cbn [k_power k_t k_frac k_mass].
  split; [rewrite FX; field; lra|]. split; [unfold pcb_flux; rnum; rewrite SE; reflexivity|]. split; [reflexivity|]. split; [reflexivity|].
  rewrite SE. reflexivity.
Qed.
Print Assumptions C139_single_phase.

(** Of both phases: all heat goes into the change of phase, as far as there is material for it,
    and the battery holds the temperature of the phase change. *)
Theorem C139_mixed : forall dt ext (k : @pcb R) t,
  sound k -> k_leak k = false -> 0 < k_frac k < 1 ->
  let s := pcb_step dt false ext k in
  let w := pcb_flows dt t s in
  let power := pcb_flux s t + total ext in
  k_t s = k_tpc k + total ext / 10 ^ 6 /\ t - k_tpc k = power / 10 ^ 6 /\ k_mass w = k_mass k /\
  (0 <= 1000 * k_mass k * k_heat k * k_frac k + power * dt <= 1000 * k_mass k * k_heat k ->
   1000 * k_mass k * k_heat k * (k_frac w - k_frac k) = power * dt) /\
  (1000 * k_mass k * k_heat k * k_frac k + power * dt < 0 -> k_frac w = 0) /\
  (1000 * k_mass k * k_heat k < 1000 * k_mass k * k_heat k * k_frac k + power * dt -> k_frac w = 1).
Proof.
  intros dt ext k t S L P. cbv zeta. assert (EP := Reps_pos). assert (S' := S). destruct S' as (S1 & S2 & S3 & S4 & S5 & S6).
  set (s := pcb_step dt false ext k).
  assert (SE : s = mkpcb (k_tpc k) (k_heat k) (k_hot k) (k_cold k) (k_str k) (k_mass k)
     (k_tpc k + total ext / 1000000) (k_frac k) false (k_rate k) (k_actual k) (total ext)
     1000000 ((k_tpc k + total ext / 1000000) * 1000000) (k_power k)).
  { unfold s, pcb_step, pcb_capacitance. cbn [k_tpc k_heat k_hot k_cold k_str k_mass k_t k_frac k_leak k_rate k_actual k_ext k_adm k_src k_power].
    rewrite clamp_frac by exact S6. rewrite sum_total, dec_ideal. rnum.
    destruct (Reqb_spec 0 (k_frac k)); [lra|]. destruct (Reqb_spec 1 (k_frac k)); [lra|]. rewrite (Rltb_false (k_str k)) by lra.
    rewrite L. reflexivity. }
  assert (FX : pcb_flux s t + total ext = (t - k_tpc k) * 1000000).
  { unfold pcb_flux. rewrite SE. cbn [k_adm k_src]. rnum. field. }
  assert (SS : sound s) by (rewrite SE; exact S).
  assert (W := flows_eq dt t s SS). cbv zeta in W. replace (k_leak s) with false in W by (rewrite SE; reflexivity).
  unfold mass_leak in W. cbn [andb] in W.
  set (s' := phase_fraction dt _) in W.
  assert (PF : s' = k_frac k + (pcb_flux s t + total ext) * dt / (1000 * k_mass k * k_heat k)).
  { unfold s', phase_fraction. rewrite dec_milli. cbn [k_tpc k_heat k_hot k_cold k_str k_mass k_t k_frac k_leak k_rate k_actual k_ext k_adm k_src k_power]. rnum.
    replace (t * k_adm s - k_src s + k_ext s) with (pcb_flux s t + total ext) by (unfold pcb_flux; rnum; rewrite SE; reflexivity).
    set (x := pcb_flux s t). clearbody x. rewrite SE. cbn [k_tpc k_heat k_hot k_cold k_str k_mass k_t k_frac].
    destruct (Reqb_spec 0 (k_frac k)); [lra|]. destruct (Reqb_spec 1 (k_frac k)); [lra|]. rewrite (Rltb_true 0), (Rltb_true (k_frac k)) by lra. cbn [andb]. field. lra. }
  rewrite PF in W. rewrite W. cbn [k_mass k_frac].
  split; [rewrite SE; cbn; lra|]. split; [rewrite FX; cbn; field|]. split; [rewrite SE; reflexivity|].
  set (pw := pcb_flux s t + total ext). clearbody pw. clear W PF FX SE SS s'.
  assert (B : 0 < 1000 * k_mass k * k_heat k) by (apply Rmult_lt_0_compat; lra). set (B' := 1000 * k_mass k * k_heat k) in *. clearbody B'.
  set (f := k_frac k + pw * dt / B'). assert (F : B' * f = B' * k_frac k + pw * dt) by (unfold f; field; lra). clearbody f.
  rnum. rewrite limit_within by lra. rewrite <- F. unfold within, Rmin, Rmax.
  split; [|split]; intro H.
  - assert (0 <= f <= 1) by nra. destruct (Rle_dec f 1), (Rle_dec _ _); lra.
  - assert (f < 0) by nra. destruct (Rle_dec f 1), (Rle_dec _ _); lra.
  - assert (1 < f) by nra. destruct (Rle_dec f 1), (Rle_dec _ _); lra.
Qed.
Print Assumptions C139_mixed.

(** When the temperature of one phase passes that of the phase change, the heat that its
    material holds beyond that temperature changes its phase. *)
Theorem C139_crossing : forall dt (k : @pcb R) t, sound k -> k_leak k = false ->
  (k_frac k = 0 -> k_tpc k < t -> k_cold k * (t - k_tpc k) <= k_heat k ->
   k_mass k * k_heat k * k_frac (pcb_flows dt t k) = k_mass k * k_cold k * (t - k_tpc k)) /\
  (k_frac k = 1 -> t < k_tpc k -> k_hot k * (k_tpc k - t) <= k_heat k ->
   k_mass k * k_heat k * (1 - k_frac (pcb_flows dt t k)) = k_mass k * k_hot k * (k_tpc k - t)).
Proof.
  intros dt k t S L. assert (EP := Reps_pos). assert (S' := S). destruct S' as (S1 & S2 & S3 & S4 & S5 & S6).
  assert (W := flows_eq dt t k S). cbv zeta in W. rewrite L in W. unfold mass_leak in W. cbn [andb] in W. rewrite W. cbn [k_frac]. clear W.
  unfold phase_fraction. cbn [k_tpc k_heat k_hot k_cold k_str k_mass k_t k_frac k_leak k_rate k_actual k_ext k_adm k_src k_power]. rnum.
  split; intros F A B; rewrite F.
  - rewrite Reqb_true by reflexivity. rewrite (Rltb_true (k_tpc k)) by exact A. cbn [andb].
    replace (0 + k_cold k * k_mass k * (t - k_tpc k) / k_heat k / k_mass k) with (k_cold k * (t - k_tpc k) / k_heat k) by (field; lra).
    set (x := k_cold k * (t - k_tpc k) / k_heat k). assert (X : k_heat k * x = k_cold k * (t - k_tpc k)) by (unfold x; field; lra).
    assert (0 < k_cold k * (t - k_tpc k)) by (apply Rmult_lt_0_compat; lra). clearbody x.
    assert (0 <= x <= 1) by nra. rewrite clamp01 by assumption. rewrite !Rmult_assoc, X. reflexivity.
  - destruct (Reqb_spec 0 1); [lra|]. cbn [andb]. rewrite Reqb_true by reflexivity. rewrite (Rltb_true t) by exact A. cbn [andb].
    replace (1 + k_hot k * k_mass k * (t - k_tpc k) / k_heat k / k_mass k) with (1 - k_hot k * (k_tpc k - t) / k_heat k) by (field; lra).
    set (x := k_hot k * (k_tpc k - t) / k_heat k). assert (X : k_heat k * x = k_hot k * (k_tpc k - t)) by (unfold x; field; lra).
    assert (0 < k_hot k * (k_tpc k - t)) by (apply Rmult_lt_0_compat; lra). clearbody x.
    assert (0 <= x <= 1) by nra. rewrite clamp01 by lra. replace (1 - (1 - x)) with x by ring. rewrite !Rmult_assoc, X. reflexivity.
Qed.
Print Assumptions C139_crossing.

(** A leak takes hot material only, not more than there is, and never all of the mass. *)
Theorem C139_leak : forall dt (k : @pcb R) t, sound k -> 0 < dt ->
  let w := pcb_flows dt t k in
  let f := k_frac (pcb_flows dt t (unleaking k)) in
  0 <= k_frac w <= 1 /\ 2 * Reps <= k_mass w /\
  k_mass w = k_mass k - k_actual w * dt /\ k_mass w * (1 - k_frac w) = k_mass k * (1 - f) /\
  0 <= k_actual w <= Rmax 0 (k_rate k) /\ k_actual w * dt <= k_mass k * f /\
  (k_leak k = false -> k_actual w = 0).
Proof.
  intros dt k t S D. cbv zeta. assert (EP := Reps_pos). assert (S' := S). destruct S' as (S1 & S2 & S3 & S4 & S5 & S6).
  assert (W := flows_eq dt t k S). assert (U := flows_eq dt t (unleaking k) (unleaking_sound k S)). cbv zeta in W, U.
  cbn [unleaking k_tpc k_heat k_hot k_cold k_str k_mass k_t k_frac k_leak k_rate k_actual k_ext k_adm k_src k_power] in U.
  set (a := phase_fraction dt _) in W. set (a' := phase_fraction dt _) in U. assert (AA : a' = a) by reflexivity. rewrite AA in U. clear AA a'. clearbody a.
  unfold mass_leak at 1 in U. cbn [andb] in U. rewrite U. cbn [k_frac]. clear U.
  assert (R0 : 0 <= Rmax 0 (k_rate k)) by apply Rmax_l. set (rate := Rmax 0 (k_rate k)) in *.
  assert (CL : forall x : R, limit_range 0 x 1 = within 0 x 1) by (intro x; apply limit_within; lra).
  assert (CR : forall x, 0 <= within 0 x 1 <= 1) by (intro x; unfold within, Rmin, Rmax; destruct (Rle_dec x 1), (Rle_dec _ _); lra).
  unfold mass_leak in W. rnum. rewrite CL.
  destruct (k_leak k && Rltb 0 a && Rltb 0 dt) eqn:E.
  2: { rewrite W. cbn [k_frac k_mass k_actual]. rewrite CL. specialize (CR a). split; [exact CR|]. split; [lra|]. split; [ring|]. split; [reflexivity|]. split; [lra|].
       split; [|reflexivity]. rewrite Rmult_0_l. apply Rmult_le_pos; lra. }
  apply andb_true_iff in E. destruct E as [E _]. apply andb_true_iff in E. destruct E as [E1 E2].
  assert (A0 : 0 < a) by (revert E2; destruct (Rltb_spec 0 a); [auto|discriminate]).
  rewrite !nmaxR, !nminR in W. rnum. replace (Rdec 2 0) with 2 in W by (unfold Rdec; cbn; lra).
  set (m := k_mass k) in *. set (q := Rmin (m * a - Reps) (m - 2 * Reps)) in *. set (mn := Rmax 0 q) in *.
  set (act := Rmin rate (mn / dt)) in *.
  assert (MN : 0 <= mn /\ mn <= m - 2 * Reps /\ mn <= m * a).
  { assert (0 < m * a) by (apply Rmult_lt_0_compat; lra). assert (Q1 : q <= m * a - Reps) by apply Rmin_l. assert (Q2 : q <= m - 2 * Reps) by apply Rmin_r.
    clear - H Q1 Q2 S5 EP. unfold mn, Rmax. destruct (Rle_dec 0 q); lra. }
  assert (AC : 0 <= act /\ act <= rate /\ act * dt <= mn).
  { unfold act, Rmin. assert (Z : mn / dt * dt = mn) by (field; lra). assert (0 <= mn / dt) by (apply Rmult_le_pos; [lra|left; apply Rinv_0_lt_compat; lra]).
    destruct (Rle_dec rate (mn / dt)); [|lra]. split; [exact R0|]. split; [lra|]. rewrite <- Z. apply Rmult_le_compat_r; lra. }
  clearbody act. destruct MN as (M1 & M2 & M3). destruct AC as (A1 & A2 & A3). clearbody mn. clear q.
  set (l := act * dt) in *. assert (L0 : 0 <= l) by (unfold l; apply Rmult_le_pos; lra).
  rewrite W. cbn [k_frac k_mass k_actual]. clear W. rewrite CL. fold l. clearbody l.
  split; [apply CR|]. split; [lra|]. split; [reflexivity|].
  assert (DEN : 0 < m - l) by lra.
  set (g := (m * a - l) / (m - l)). assert (G : (m - l) * g = m * a - l) by (unfold g; field; lra). clearbody g.
  split.
  { destruct (Rle_dec a 1) as [Q|Q].
    - assert (0 <= g) by nra. assert (g <= 1) by nra. unfold within, Rmin, Rmax. destruct (Rle_dec g 1), (Rle_dec 0 g), (Rle_dec a 1), (Rle_dec 0 a); try lra; nra.
    - assert (1 <= g) by nra. unfold within, Rmin, Rmax. destruct (Rle_dec g 1), (Rle_dec a 1), (Rle_dec 0 _), (Rle_dec 0 1); try lra; replace g with 1 by lra; ring. }
  split; [lra|]. split.
  { unfold within, Rmin, Rmax. destruct (Rle_dec a 1), (Rle_dec 0 _); try lra; nra. }
  intro X. congruence.
Qed.
Print Assumptions C139_leak.

(** The heat that the structure holds beyond the temperature of the phase change is lost: here
    4000 J are brought in and 3000 J are there afterwards. *)
Definition lossy : @pcb R := mkpcb 300 100 1 1 1000 1 299 0 false 0 0 0 0 0 0.
Definition stored (k : @pcb R) (t : R) : R :=
  k_str k * (t - k_tpc k) + 1000 * k_mass k *
    (if Req_EM_T (k_frac k) 0 then k_cold k * (t - k_tpc k) else if Req_EM_T (k_frac k) 1 then k_heat k + k_hot k * (t - k_tpc k) else k_heat k * k_frac k).
Lemma lossy_s1 : pcb_step 1 false [4000] lossy = mkpcb 300 100 1 1 1000 1 301 0 false 0 0 4000 2000 602000 0.
Proof.
  unfold pcb_step, lossy. cbn [k_tpc k_heat k_hot k_cold k_str k_mass k_t k_frac k_leak k_rate k_actual k_ext k_adm k_src k_power]. rewrite clamp_frac by lra. unfold pcb_capacitance. cbn [k_tpc k_heat k_hot k_cold k_str k_mass k_t k_frac k_leak k_rate k_actual k_ext k_adm k_src k_power].
  rewrite dec_kilo, sum_total, nmaxR. assert (ES := Reps_small). rnum. cbn [total fold_right]. rewrite (Reqb_true 0 0) by reflexivity. rewrite Rltb_true by lra. rewrite Rmax_left by lra. f_equal; field.
Qed.
Lemma lossy_w1 : pcb_flows 1 301 (mkpcb 300 100 1 1 1000 1 301 0 false 0 0 4000 2000 602000 0) = mkpcb 300 100 1 1 1000 1 301 (/ 100) false 0 0 4000 2000 602000 4000.
Proof.
  assert (EP := Reps_pos). assert (ES := Reps_small). set (s1 := mkpcb _ _ _ _ _ _ _ _ _ _ _ _ _ _ _).
  assert (O1 : sound s1) by (unfold sound, s1; cbn; lra).
  assert (W1 := flows_eq 1 301 s1 O1). unfold s1 in W1. unfold mass_leak, phase_fraction in W1. cbn [k_tpc k_heat k_hot k_cold k_str k_mass k_t k_frac k_leak k_rate k_actual k_ext k_adm k_src k_power] in W1. cbn [andb] in W1.
  fold s1 in W1. rewrite W1. clear W1. rnum. rewrite (Reqb_true 0 0) by reflexivity. rewrite (Rltb_true 300 301) by lra. cbn [andb].
  replace (0 + 1 * 1 * (301 - 300) / 100 / 1) with (/ 100) by field. rewrite clamp01 by lra. rewrite Rmax_left by lra. f_equal. ring.
Qed.
Lemma lossy_s2 : pcb_step 1 false [0] (mkpcb 300 100 1 1 1000 1 301 (/ 100) false 0 0 4000 2000 602000 4000) = mkpcb 300 100 1 1 1000 1 300 (/ 100) false 0 0 0 1000000 300000000 4000.
Proof.
  unfold pcb_step. cbn [k_tpc k_heat k_hot k_cold k_str k_mass k_t k_frac k_leak k_rate k_actual k_ext k_adm k_src k_power]. rewrite clamp_frac by lra. unfold pcb_capacitance. cbn [k_tpc k_heat k_hot k_cold k_str k_mass k_t k_frac k_leak k_rate k_actual k_ext k_adm k_src k_power].
  rewrite sum_total, dec_ideal. rnum. cbn [total fold_right]. destruct (Reqb_spec 0 (/ 100)); [lra|]. destruct (Reqb_spec 1 (/ 100)); [lra|]. rewrite Rltb_false by lra. f_equal; field.
Qed.
Lemma lossy_w2 : pcb_flows 1 300 (mkpcb 300 100 1 1 1000 1 300 (/ 100) false 0 0 0 1000000 300000000 4000) = mkpcb 300 100 1 1 1000 1 300 (/ 100) false 0 0 0 1000000 300000000 0.
Proof.
  assert (EP := Reps_pos). assert (ES := Reps_small). set (s2 := mkpcb _ _ _ _ _ _ _ _ _ _ _ _ _ _ _).
  assert (O2 : sound s2) by (unfold sound, s2; cbn; lra).
  assert (W2 := flows_eq 1 300 s2 O2). unfold s2 in W2. unfold mass_leak, phase_fraction in W2. cbn [k_tpc k_heat k_hot k_cold k_str k_mass k_t k_frac k_leak k_rate k_actual k_ext k_adm k_src k_power] in W2. cbn [andb] in W2.
  fold s2 in W2. rewrite W2. clear W2. rnum. destruct (Reqb_spec 0 (/ 100)); [lra|]. destruct (Reqb_spec 1 (/ 100)); [lra|]. rewrite (Rltb_true 0 (/ 100)), (Rltb_true (/ 100) 1) by lra. cbn [andb].
  replace (/ 100 + milli * (300 * 1000000 - 300000000 + 0) * 1 / 100 / 1) with (/ 100) by field. rewrite clamp01 by lra. rewrite Rmax_left by lra. f_equal. ring.
Qed.
Theorem C139_structure_refuted : pcb_valid lossy = true /\
  let s1 := pcb_step 1 false [4000] lossy in let w1 := pcb_flows 1 301 s1 in
  let s2 := pcb_step 1 false [0] w1 in let w2 := pcb_flows 1 300 s2 in
  pcb_flux s1 301 = 0 /\ pcb_flux s2 300 = 0 /\ stored w2 300 - stored lossy 299 = 3000.
Proof.
  assert (EP := Reps_pos). assert (ES := Reps_small). split.
  { unfold pcb_valid, lossy, is_in_range. cbn [k_tpc k_heat k_hot k_cold k_str k_mass k_t k_frac k_leak k_rate k_actual k_ext k_adm k_src k_power]. rnum.
    rewrite !Rltb_false, !Rleb_true by lra. reflexivity. }
  cbv zeta. rewrite lossy_s1, lossy_w1, lossy_s2, lossy_w2.
  unfold pcb_flux, stored, lossy. cbn [k_tpc k_heat k_hot k_cold k_str k_mass k_t k_frac k_leak k_rate k_actual k_ext k_adm k_src k_power]. rnum.
  destruct (Req_EM_T (/ 100) 0); [lra|]. destruct (Req_EM_T (/ 100) 1); [lra|]. destruct (Req_EM_T 0 0); [|lra]. repeat split; lra.
Qed.
Print Assumptions C139_structure_refuted.
Example ex_C139 : sound lossy /\ exists k, sound k /\ 0 < k_frac k < 1 /\ k_leak k = true.
Proof.
  assert (ES := Reps_small). split; [unfold sound, lossy; cbn; lra|].
  exists (mkpcb 300 100 1 1 1000 1 299 (/2) true 1 0 0 0 0 0). unfold sound. cbn. repeat split; lra.
Qed.
