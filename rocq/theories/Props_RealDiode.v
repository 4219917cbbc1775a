(** C227: the diode with a junction drop and reverse leakage. *)
From Coq Require Import Floats.
From Coq Require Import Reals Lra Lia List Arith Bool ZArith.
From Verif Require Import Num Ord MathUtil Props_Math FluidFlow Props_FluidFlow Spec_Valve Props_Valve Props_Detector FluidFan Props_FluidFan BasicLinks RealDiode.
Import ListNotations.
Local Open Scope R_scope.

(** Conductance in a bias. *)
Definition cond_of (d : diode R) (rev : bool) : R :=
  within 0 ((if rev then d_rev d else d_def d) * match d_block d with Some b => 1 - b | None => 1 end) conductance_limit.
Lemma law_R d rev : diode_law d rev = (cond_of d rev, if rev then 0 else - d_vd d).
Proof.
  unfold diode_law, cond_of. destruct rev, (d_block d) as [b|]; rewrite ?Rmult_1_r; cbn [nmul nsub n1 n0 nopp RNum]; rewrite within_limit; reflexivity.
Qed.
Lemma cond_nonneg d rev : 0 <= cond_of d rev.
Proof. unfold cond_of, within. apply Rmax_l. Qed.
Lemma flux_R d rev x : diode_flux d rev x = cond_of d rev * (x - if rev then 0 else d_vd d).
Proof. unfold diode_flux, diode_w0. rewrite law_R. cbn [fst snd nmul nsub nopp RNum]. destruct rev; ring. Qed.
Lemma solve_R gs v d rev : solve gs v d rev = (gs * v + cond_of d rev * (if rev then 0 else d_vd d)) / (gs + cond_of d rev).
Proof. unfold solve, diode_w0. rewrite law_R. cbn [fst snd nmul nadd ndiv nopp RNum]. destruct rev; f_equal; ring. Qed.
Lemma bias_R d rev x : update_bias d rev x = (if Rlt_dec x (d_vd d) then true else false, negb (Bool.eqb (if Rlt_dec x (d_vd d) then true else false) rev)).
Proof. unfold update_bias. cbn [nlt RNum]. destruct (Rltb_spec x (d_vd d)), (Rlt_dec x (d_vd d)); try reflexivity; lra. Qed.
Theorem C227_accepts : forall d : diode R, diode_valid d = true <-> 0 <= d_rev d /\ 0 <= d_vd d.
Proof. intro d. unfold diode_valid. rewrite andb_true_iff, !negb_true_iff, !ltN. cbn [n0 RNum]. tauto. Qed.
(** What was accepted stays so under the setters. *)
Theorem C227_setters : forall x (d : diode R), diode_valid d = true ->
  diode_valid (set_rev x d) = true /\ d_rev (set_rev x d) = Rmax 0 x /\ diode_valid (set_vd x d) = true /\ d_vd (set_vd x d) = Rmax 0 x.
Proof.
  intros x d V. apply C227_accepts in V. destruct V. rewrite !C227_accepts. unfold set_rev, set_vd. cbn [d_rev d_vd]. rewrite fan_max. change (n0 : R) with 0. pose proof (Rmax_l 0 x). auto.
Qed.
(** An accepted solution obeys the law of the diode, and the diode never gives power. *)
Theorem C227_law : forall (d : diode R) rev x new, diode_valid d = true -> update_bias d rev x = (new, false) ->
  new = rev /\ ((d_vd d <= x /\ rev = false /\ diode_flux d rev x = cond_of d false * (x - d_vd d) /\ 0 <= diode_flux d rev x) \/
                (x < d_vd d /\ rev = true /\ diode_flux d rev x = cond_of d true * x)) /\ 0 <= diode_flux d rev x * x.
Proof.
  intros d rev x new V H. apply C227_accepts in V. destruct V as [V1 V2]. rewrite bias_R in H. injection H as H1 H2. apply negb_false_iff, eqb_prop in H2.
  rewrite H1 in H2. subst rev. split; [reflexivity|]. rewrite flux_R. pose proof (cond_nonneg d false) as C1. pose proof (cond_nonneg d true) as C2.
  destruct (Rlt_dec x (d_vd d)) as [L|L]; subst new.
  - split; [right; repeat split; [exact L|ring]|]. replace (cond_of d true * (x - 0) * x) with (cond_of d true * (x * x)) by ring. apply Rmult_le_pos; [exact C2|]. apply Rle_0_sqr.
  - apply Rnot_lt_le in L. assert (0 <= cond_of d false * (x - d_vd d)) by (apply Rmult_le_pos; lra). split; [left; repeat split; assumption|]. apply Rmult_le_pos; lra.
Qed.
(** The network's law holds in the solution. *)
Lemma solved gs v d rev : 0 < gs -> gs * (v - solve gs v d rev) = diode_flux d rev (solve gs v d rev).
Proof. intro G. rewrite solve_R, flux_R. pose proof (cond_nonneg d rev). field. lra. Qed.
Lemma forward_iff gs v d : 0 < gs -> (solve gs v d false < d_vd d <-> v < d_vd d).
Proof.
  intro G. rewrite solve_R. pose proof (cond_nonneg d false) as C. set (c := cond_of d false) in *. set (u := d_vd d). clearbody c u.
  assert (E : (gs * v + c * u) / (gs + c) - u = gs * (v - u) / (gs + c)) by (field; lra).
  split; intro H.
  - assert (X : gs * (v - u) / (gs + c) < 0) by lra. apply Rnot_le_lt. intro Y. assert (0 <= gs * (v - u) / (gs + c)); [|lra].
    apply Rmult_le_pos; [apply Rmult_le_pos; lra|]. left. apply Rinv_0_lt_compat. lra.
  - assert (gs * (v - u) / (gs + c) < 0); [|lra]. assert (0 < gs * (u - v) / (gs + c)) by (apply Rmult_lt_0_compat; [apply Rmult_lt_0_compat; lra|apply Rinv_0_lt_compat; lra]).
    replace (gs * (v - u) / (gs + c)) with (- (gs * (u - v) / (gs + c))) by (field; lra). lra.
Qed.
Lemma reverse_iff gs v d : 0 < gs -> (solve gs v d true < d_vd d <-> gs * v < d_vd d * (gs + cond_of d true)).
Proof.
  intro G. rewrite solve_R. pose proof (cond_nonneg d true) as C. set (c := cond_of d true) in *. set (u := d_vd d). clearbody c u.
  assert (E : (gs * v + c * 0) / (gs + c) * (gs + c) = gs * v) by (field; lra). set (s := (gs * v + c * 0) / (gs + c)) in *. clearbody s. split; intro H.
  - rewrite <- E. apply Rmult_lt_compat_r; lra.
  - apply Rmult_lt_reg_r with (gs + c); lra.
Qed.
(** In any linear network the diode rejects at most one solution. *)
Theorem C227_settles : forall gs v (d : diode R) rev k, diode_valid d = true -> 0 < gs ->
  exists new x, settle (S (S k)) gs v d rev = Some (new, x) /\ x = solve gs v d new /\ gs * (v - x) = diode_flux d new x /\
  (new = true <-> x < d_vd d).
Proof.
  intros gs v d rev k V G. apply C227_accepts in V. destruct V as [_ V].
  pose proof (forward_iff gs v d G) as FI. pose proof (reverse_iff gs v d G) as RI. pose proof (cond_nonneg d true) as C.
  assert (ACC : forall b j, ((if Rlt_dec (solve gs v d b) (d_vd d) then true else false) = b) -> settle (S j) gs v d b = Some (b, solve gs v d b)).
  { intros b j H. cbn [settle]. rewrite bias_R, H, eqb_reflx. reflexivity. }
  assert (FIN : forall b j, settle (S j) gs v d b = Some (b, solve gs v d b) -> (if Rlt_dec (solve gs v d b) (d_vd d) then true else false) = b ->
    exists new x, settle (S j) gs v d b = Some (new, x) /\ x = solve gs v d new /\ gs * (v - x) = diode_flux d new x /\ (new = true <-> x < d_vd d)).
  { intros b j H Q. exists b, (solve gs v d b). split; [exact H|]. split; [reflexivity|]. split; [now apply solved|]. destruct (Rlt_dec _ _); subst b; intuition (try discriminate; lra). }
  destruct (Bool.bool_dec (if Rlt_dec (solve gs v d rev) (d_vd d) then true else false) rev) as [Q|Q].
  - apply FIN; [now apply ACC|exact Q].
  - assert (ST : settle (S (S k)) gs v d rev = settle (S k) gs v d (negb rev)).
    { change (settle (S (S k)) gs v d rev) with (let '(new, reject) := update_bias d rev (solve gs v d rev) in if reject then settle (S k) gs v d new else Some (new, solve gs v d rev)).
      rewrite bias_R. destruct (Rlt_dec _ _), rev; try (exfalso; apply Q; reflexivity); reflexivity. }
    rewrite ST. assert (Q2 : (if Rlt_dec (solve gs v d (negb rev)) (d_vd d) then true else false) = negb rev).
    { destruct rev; cbn [negb].
      - destruct (Rlt_dec (solve gs v d true) (d_vd d)) as [L|L]; [exfalso; apply Q; reflexivity|]. destruct (Rlt_dec (solve gs v d false) (d_vd d)) as [M|M]; [|reflexivity].
        exfalso. apply L, RI. apply FI in M. assert (0 <= d_vd d * cond_of d true) by (apply Rmult_le_pos; lra). assert (gs * v < gs * d_vd d) by (apply Rmult_lt_compat_l; lra). lra.
      - destruct (Rlt_dec (solve gs v d false) (d_vd d)) as [L|L]; [|exfalso; apply Q; reflexivity]. destruct (Rlt_dec (solve gs v d true) (d_vd d)) as [M|M]; [reflexivity|].
        exfalso. apply M, RI. apply FI in L. assert (0 <= d_vd d * cond_of d true) by (apply Rmult_le_pos; lra). assert (gs * v < gs * d_vd d) by (apply Rmult_lt_compat_l; lra). lra. }
    apply FIN; [now apply ACC|exact Q2].
Qed.
(** Without reverse leakage the accepted bias is that of the network's open voltage. *)
Theorem C227_unique : forall gs v (d : diode R) rev k new x, diode_valid d = true -> 0 < gs -> d_rev d = 0 ->
  settle (S (S k)) gs v d rev = Some (new, x) -> (new = true <-> v < d_vd d).
Proof.
  intros gs v d rev k new x V G Z H. destruct (C227_settles gs v d rev k V G) as (n & y & E & EQ & _ & D). rewrite H in E. injection E as -> ->. rewrite D, EQ.
  assert (CZ : cond_of d true = 0 \/ cond_of d true = Rmax 0 (Rmin 0 conductance_limit)) by (right; unfold cond_of, within; rewrite Z, Rmult_0_l; reflexivity).
  assert (C0 : cond_of d true = 0). { destruct CZ as [CZ|CZ]; [exact CZ|]. rewrite CZ. apply Rmax_left. apply Rmin_l. }
  destruct n.
  - rewrite (reverse_iff gs v d G), C0, Rplus_0_r. split; intro L; [apply Rmult_lt_reg_l with gs; [exact G|lra]|]. rewrite (Rmult_comm (d_vd d)). now apply Rmult_lt_compat_l.
  - now apply forward_iff.
Qed.
Print Assumptions C227_accepts.
Print Assumptions C227_setters.
Print Assumptions C227_law.
Print Assumptions C227_settles.
Print Assumptions C227_unique.

(** ** Refutations *)
Definition leaky : diode R := mkdio 10 1 1 None.
Lemma leaky_valid : diode_valid leaky = true.
Proof. apply C227_accepts. cbn. lra. Qed.
Lemma limit_ge : 10 <= conductance_limit.
Proof. unfold conductance_limit. cbn [ndec RNum]. unfold Rdec. cbn [Z.leb Z.compare Z.opp]. rewrite Rmult_1_l. apply (IZR_le 10). vm_compute. discriminate. Qed.
Lemma leaky_cond rev : cond_of leaky rev = if rev then 1 else 10.
Proof. pose proof limit_ge. unfold cond_of, within, leaky. cbn [d_rev d_def d_block]. rewrite Rmult_1_r. destruct rev; rewrite Rmin_left, Rmax_right by lra; reflexivity. Qed.
(** Refuted: the accepted solution does not depend on the bias before.  With leakage there is a range of
    voltages where either bias is kept. *)
Theorem C227_history_refuted : exists (d : diode R) gs v, diode_valid d = true /\ 0 < gs /\ exists x y,
  settle 2 gs v d false = Some (false, x) /\ settle 2 gs v d true = Some (true, y) /\ x <> y.
Proof.
  exists leaky, 1, (3 / 2). split; [apply leaky_valid|]. split; [lra|].
  assert (A : solve 1 (3 / 2) leaky false = 23 / 22) by (rewrite solve_R, leaky_cond; cbn; lra).
  assert (B : solve 1 (3 / 2) leaky true = 3 / 4) by (rewrite solve_R, leaky_cond; cbn; lra).
  exists (23 / 22), (3 / 4). cbn [settle]. rewrite A, B, !bias_R. cbn [leaky d_vd]. destruct (Rlt_dec (23 / 22) 1); [lra|]. destruct (Rlt_dec (3 / 4) 1); [|lra]. cbn. repeat split. lra.
Qed.
(** Refuted: a greater drop never has a smaller flux.  At the junction drop the leakage stops. *)
Theorem C227_monotone_refuted : exists (d : diode R) x y, diode_valid d = true /\ x < y /\ update_bias d true x = (true, false) /\ update_bias d false y = (false, false) /\
  diode_flux d false y < diode_flux d true x.
Proof.
  exists leaky, (1 / 2), 1. split; [apply leaky_valid|]. split; [lra|]. rewrite !bias_R, !flux_R, !leaky_cond. cbn [leaky d_vd].
  destruct (Rlt_dec (1 / 2) 1); [|lra]. destruct (Rlt_dec 1 1); [lra|]. cbn. repeat split. lra.
Qed.
Print Assumptions C227_history_refuted.
Print Assumptions C227_monotone_refuted.
